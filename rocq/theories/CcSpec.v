(** What the protohit searches are supposed to return, independently of queues and visit marks. *)
From Verif Require Export CcModel NdSpec.
Local Open Scope Z_scope.

(** Reachability from a set of bins through free bins. *)
Inductive reachable (free : coord -> Prop) (adj : coord -> coord -> Prop) (from : list coord) : coord -> Prop :=
| reach_start c : In c from -> free c -> reachable free adj from c
| reach_step c d : reachable free adj from c -> adj c d -> free d -> reachable free adj from d.

Definition bin (D N : Z) (c : coord) : Prop := 0 <= fst c < D /\ 0 <= snd c < N.
(** [d] is in the neighbourhood of [c] given by [offsets]. *)
Definition near_by (D N : Z) (offsets : list coord) (c d : coord) : Prop :=
  bin D N d /\ In (fst d - fst c, snd d - snd c) offsets.

(** Raster order of the scan. *)
Definition earlier (c d : coord) : Prop := fst c < fst d \/ fst c = fst d /\ snd c < snd d.

Definition claimed (segs : list (coord * list coord)) (c : coord) : Prop :=
  exists s, In s segs /\ In c (snd s).

(** [segs]: seeds with the bins of their component, in the order of the result.  A bin may start a
    component when [above] holds and belongs to it when [ok] holds. *)
Definition segmentation (D N : Z) (above ok : coord -> Prop) (adj : coord -> coord -> Prop)
           (segs : list (coord * list coord)) : Prop :=
  (forall pre s ms post, segs = pre ++ (s, ms) :: post ->
     bin D N s /\ above s /\ NoDup ms /\
     (forall c, In c ms <-> reachable (fun c => ok c /\ ~ claimed pre c) adj [s] c) /\
     (forall c, bin D N c -> above c -> earlier c s -> claimed pre c) /\
     ~ claimed pre s) /\
  (forall c, bin D N c -> above c -> claimed segs c).

(** A D x N array read through its strides. *)
Definition plane_holds {V} (l : layout) (m : mem V) (D N : Z) (X : coord -> V) : Prop :=
  l_shape l = [D; N] /\ forall c, bin D N c -> znth m (lin l c) = Some (X c).

(** What a reported component says about its bins [ms].  [X]: power, [W]: noise of a drift rate,
    [S]: signal-to-noise ratio of a bin, [gt]: greater-than on ratios. *)
Definition strongest {F} (gt : F -> F -> bool) (S : coord -> F) (ms : list coord) (c : coord) : Prop :=
  In c ms /\ forall d, In d ms -> gt (S d) (S c) = false.
(** Channels [lo] to [up] are the outermost ones of [ms] on drift row [d]. *)
Definition spans (ms : list coord) (d lo up : Z) : Prop :=
  In (d, lo) ms /\ In (d, up) ms /\ forall c, In c ms -> fst c = d -> lo <= snd c <= up.
Definition describes {F} (gt : F -> F -> bool) (X : coord -> F) (W : Z -> F) (S : coord -> F)
           (ms : list coord) (p : protohit F) : Prop :=
  ph_locs p = ms /\ strongest gt S ms (ph_max p) /\
  ph_snr p = S (ph_max p) /\ ph_power p = X (ph_max p) /\ ph_noise p = Some (W (fst (ph_max p))) /\
  exists lo up, spans ms (fst (ph_max p)) lo up /\
    ph_width p = up - lo /\ ph_center p = (fst (ph_max p), (lo + up) / 2).

(** ** Local maxima *)
(** Starting at channel [f] of a row, the [m] channels in direction [sg] exist, are all significant and
    decrease strictly. *)
Definition descends {F} (lt : F -> F -> bool) (sig : Z -> bool) (row : Z -> F) (N f sg m : Z) : Prop :=
  forall j, 1 <= j <= m ->
    0 <= f + sg * j < N /\ sig (f + sg * j) = true /\ lt (row (f + sg * j)) (row (f + sg * (j - 1))) = true.
Definition descent {F} (lt : F -> F -> bool) (sig : Z -> bool) (row : Z -> F) (N f sg m : Z) : Prop :=
  0 <= m /\ descends lt sig row N f sg m /\ ~ descends lt sig row N f sg (m + 1).
(** [c] is [p] or lies on one of the two descending flanks of [p] on its drift row. *)
Definition flank {F} (lt : F -> F -> bool) (sig : coord -> bool) (X : coord -> F) (N : Z) (p c : coord) : Prop :=
  fst c = fst p /\
  exists sg m, (sg = 1 \/ sg = -1) /\ 0 <= m /\ snd c = snd p + sg * m /\
    descends lt (fun f => sig (fst p, f)) (fun f => X (fst p, f)) N (snd p) sg m.

(** ** Consequences a user sees *)
(** The bins of different components are different, every component is non-empty and made of [ok]
    bins of the plane, and every [above] bin is in one. *)
Definition partitioned (D N : Z) (above ok : coord -> Prop) (comps : list (list coord)) : Prop :=
  (forall ms, In ms comps -> ms <> [] /\ NoDup ms /\ forall c, In c ms -> bin D N c /\ ok c) /\
  (forall i j a b c, nth_error comps i = Some a -> nth_error comps j = Some b -> In c a -> In c b -> i = j) /\
  (forall c, bin D N c -> above c -> exists ms, In ms comps /\ In c ms).
(** [ms] is one piece: every bin is reached from [s] inside [ms]. *)
Definition connected (adj : coord -> coord -> Prop) (s : coord) (ms : list coord) : Prop :=
  forall c, In c ms <-> reachable (fun c => In c ms) adj [s] c.

(** The inputs of a search: a D x N plane with values [X], noise [W] per drift, counters [R]. *)
Definition inputs {F} (ls : layout) (spec noise : list F) (low high roll : layout * mem Z)
           (D N : Z) (X : coord -> F) (W : Z -> F) (R : coord -> Z * Z * Z) : Prop :=
  plane_holds ls spec D N X /\ (forall d, 0 <= d < D -> znth noise d = Some (W d)) /\
  (forall c, bin D N c -> rfi_at low high roll c = Ok (R c)) /\ 0 <= D /\ 0 < N /\ D * N < 2 ^ 31.
