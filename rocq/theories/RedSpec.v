(** Specification vocabulary for reductions: which input elements meet which output element. *)
From Verif Require Export NdSpec.
Local Open Scope Z_scope.

(** Removes the positions listed in [axes]; [k] is the position of the head. *)
Fixpoint drop_axes (k : Z) (axes l : list Z) : list Z :=
  match l with
  | [] => []
  | i :: r => if in_dec Z.eq_dec k axes then drop_axes (k + 1) axes r else i :: drop_axes (k + 1) axes r
  end.

(** The output index an input index contributes to, and the shape of the output; no axes means all
    axes, and a full reduction has shape [1]. *)
Definition one_if_nil (d : Z) (l : list Z) : list Z := match l with [] => [d] | _ => l end.
Definition out_index (axes idx : list Z) : list Z :=
  match axes with [] => [0] | _ => one_if_nil 0 (drop_axes 0 axes idx) end.
Definition out_shape (axes shape : list Z) : list Z :=
  match axes with [] => [1] | _ => one_if_nil 1 (drop_axes 0 axes shape) end.

(** Axes a caller may pass: existing ones, no repetition. *)
Definition good_axes (n : Z) (axes : list Z) : Prop := NoDup axes /\ Forall (fun d => 0 <= d < n) axes.

(** [es] lists, once each, the input indices that contribute to output index [o]. *)
Definition enumerates (shape axes o : list Z) (es : list (list Z)) : Prop :=
  NoDup es /\ forall idx, In idx es <-> in_range shape idx /\ out_index axes idx = o.

(** Effectful folds and maps, left to right, stopping at the first exception. *)
Fixpoint ofold {A S} (step : S -> A -> outcome S) (s : S) (l : list A) : outcome S :=
  match l with [] => Ok s | x :: r => let! s' := step s x in ofold step s' r end.
Fixpoint omapM {A B} (f : A -> outcome B) (l : list A) : outcome (list B) :=
  match l with [] => Ok [] | x :: r => let! y := f x in let! ys := omapM f r in Ok (y :: ys) end.
