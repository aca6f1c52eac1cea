(** What the GPU component search is supposed to find, in terms of the plane only. *)
From Verif Require Export CcCudaModel CcSpec.
Local Open Scope Z_scope.

(** Chains of labels: a label above [fnl] points to the bin [label - fnl]; a label below it ends the
    chain. *)
Inductive chain (fnl : Z) (lab : list Z) : Z -> Z -> nat -> Prop :=
| chain_end n v : znth lab n = Some v -> v < fnl -> chain fnl lab n v 0
| chain_next n v r k : znth lab n = Some v -> fnl < v -> chain fnl lab (v - fnl) r k -> chain fnl lab n r (S k).

Section Spec.
  Context {F : Type}.
  Variables (gt : F -> F -> bool) (thr half : F) (D N L : Z) (S : coord -> F).

  (** [d] is in the neighbourhood of [c] (the upper ends are exclusive). *)
  Definition nb (c d : coord) : Prop :=
    - L <= snd d - snd c < L /\
    - L + Z.abs (snd d - snd c) <= fst d - fst c < L - Z.abs (snd d - snd c).
  (** Inside the plane with its whole neighbourhood, and above half the threshold. *)
  Definition lit (c : coord) : Prop :=
    bin D N c /\ (forall d, nb c d -> bin D N d) /\ gt (S c) half = true.
  Definition top (c : coord) : Prop := lit c /\ forall d, nb c d -> gt (S d) (S c) = false.
  Definition peak (c : coord) : Prop := top c /\ gt (S c) thr = true.
  (** [d] is the strongest neighbour of [c], and stronger than [c]; among equals the first one in
      the order of channels, then drifts. *)
  Definition uphill (c d : coord) : Prop :=
    lit c /\ nb c d /\ gt (S d) (S c) = true /\
    forall e, nb c e -> gt (S e) (S d) = false /\
      (gt (S d) (S e) = false -> snd d < snd e \/ snd d = snd e /\ fst d <= fst e).
  (** The peak a bin climbs to. *)
  Inductive owned : coord -> coord -> Prop :=
  | owned_peak p : peak p -> owned p p
  | owned_up c d p : uphill c d -> owned d p -> owned c p.
  (** Two peaks touch when a bin of one is in the neighbourhood of a bin of the other; bins of the first
      [L] channels do not look around (their neighbourhood is in the plane for channel L-1, but the
      loop starts one channel further down and stops there). *)
  Definition looks (c d : coord) : Prop := nb c d /\ L <= snd c.
  Definition touch (p q : coord) : Prop := exists c d, owned c p /\ owned d q /\ looks c d.
  Inductive group : coord -> coord -> Prop :=
  | group_refl p : peak p -> group p p
  | group_touch p q : touch p q -> group p q
  | group_sym p q : group p q -> group q p
  | group_trans p q r : group p q -> group q r -> group p r.
  Definition beats (p q : coord) : Prop :=
    gt (S p) (S q) = true \/ gt (S q) (S p) = false /\ earlier p q.
  (** The best peak of its group. *)
  Definition winner (p : coord) : Prop := peak p /\ forall q, group p q -> q = p \/ beats p q.
End Spec.

(** [gt] orders the ratios of the plane: a strict weak order. *)
Definition ordered {F} (gt : F -> F -> bool) (D N : Z) (S : coord -> F) : Prop :=
  (forall x, gt x x = false) /\ (forall x y z, gt x y = true -> gt y z = true -> gt x z = true) /\
  (forall c d e, bin D N c -> bin D N d -> bin D N e ->
     gt (S c) (S d) = true -> gt (S c) (S e) = true \/ gt (S e) (S d) = true).
(** Inputs of the GPU search: a row-major D x N plane [X], noise [W] per drift, a neighbourhood of at
    least 2, and no more peaks than the protohit table has room for (8 entries are reserved). *)
Definition gpu_inputs {F} (snr : F -> F -> F) (gt : F -> F -> bool) (thr half : F) (D N L : Z) (spec noise : list F)
           (X : coord -> F) (W : Z -> F) : Prop :=
  let S := fun c => snr (X c) (W (fst c)) in
  plane_holds (dense [D; N]) spec D N X /\ (forall d, 0 <= d < D -> znth noise d = Some (W d)) /\
  0 <= D /\ 0 < N /\ 2 <= L /\ ordered gt D N S /\
  forall ps, NoDup ps -> (forall c, In c ps -> peak gt thr half D N L S c) -> 8 + zlen ps <= Z.quot (D * N) (L * L).
