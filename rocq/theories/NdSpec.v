(** Specification vocabulary for the array library: what a user means by elements, views,
    broadcasting.  It does not mention the kernels of NdModel. *)
From Verif Require Export NdModel.
Local Open Scope Z_scope.

(** An index addresses an element of an array of this shape. *)
Definition in_range (shape idx : list Z) : Prop := Forall2 (fun d i => 0 <= i < d) shape idx.

(** All indices of a shape, in row-major (lexicographic) order. *)
Fixpoint all_indices (shape : list Z) : list (list Z) :=
  match shape with
  | [] => [[]]
  | d :: rest => flat_map (fun i => map (cons i) (all_indices rest)) (zrange d)
  end.

(** The three per-axis vectors have the same length. *)
Definition wf (l : layout) : Prop :=
  length (l_strides l) = length (l_shape l) /\ length (l_offsets l) = length (l_shape l).

(** Every element of the view lies inside a buffer of [n] cells. *)
Definition inside (l : layout) (n : Z) : Prop :=
  forall idx, in_range (l_shape l) idx -> 0 <= cell l idx < n.

(** Different elements of the view use different cells. *)
Definition separate (l : layout) : Prop :=
  forall i j, in_range (l_shape l) i -> in_range (l_shape l) j -> cell l i = cell l j -> i = j.

(** The value of element [idx] of a view. *)
Definition elt {V} (m : mem V) (l : layout) (idx : list Z) : option V := znth m (cell l idx).

(** The elements of a view in row-major order. *)
Definition elements {V} (m : mem V) (l : layout) : list (option V) :=
  map (elt m l) (all_indices (l_shape l)).

(** A cell used by no element of the view. *)
Definition outside_view (l : layout) (c : Z) : Prop :=
  forall idx, in_range (l_shape l) idx -> cell l idx <> c.

(** numpy broadcasting: shapes are aligned at their last axes, a missing axis counts as size 1. *)
Definition axis_from_end (s : list Z) (k : nat) : Z := nth k (rev s) 1.
Definition broadcastable (a b : list Z) : Prop :=
  forall k, axis_from_end a k = axis_from_end b k \/ axis_from_end a k = 1 \/ axis_from_end b k = 1.

(** The element of an operand of shape [s] that meets output index [idx]: drop the leading axes the
    operand does not have, use 0 on its axes of size one. *)
Definition bidx (s idx : list Z) : list Z :=
  zip_with (fun d i => if d =? 1 then 0 else i) s (skipn (length idx - length s) idx).

(** [s] can be stretched to [out] without changing the number of axes. *)
Definition stretches (s out : list Z) : Prop := Forall2 (fun d o => d = o \/ d = 1) s out.
