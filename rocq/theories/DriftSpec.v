(** What drift integration is supposed to compute, independently of the kernels' loops. *)
From Verif Require Export DriftModel NdSpec.
Local Open Scope Z_scope.

(** Channel met by the track that starts at channel [f] with drift [r], at time [t], for the [k]-th
    desmearing bin. *)
Definition track_channel (r : rate) (f t k : Z) : Z :=
  if r_nonneg r then f + r_off r t + k else f + r_off r t - k.

(** All (time, desmearing bin) pairs of a track. *)
Definition track_steps (T : Z) (r : rate) : list (Z * Z) := list_prod (zrange T) (zrange (r_desmear r)).

(** The (time, channel) bins that contribute on the CPU: inside the band and, for negative drifts,
    only for tracks that start at or right of the span. *)
Definition contributes (N : Z) (r : rate) (f : Z) (tk : Z * Z) : bool :=
  let c := track_channel r f (fst tk) (snd tk) in
  (0 <=? c) && (c <? N) && (r_nonneg r || (- r_span r <=? f)).
Definition track (N T : Z) (r : rate) (f : Z) : list (Z * Z) :=
  map (fun tk => (fst tk, track_channel r f (fst tk) (snd tk)))
      (filter (contributes N r f) (track_steps T r)).

(** The bins inside the band. *)
Definition track_in_band (N T : Z) (r : rate) (f : Z) : list (Z * Z) :=
  filter (fun tc => (0 <=? snd tc) && (snd tc <? N))
         (map (fun tk => (fst tk, track_channel r f (fst tk) (snd tk))) (track_steps T r)).

(** Left-to-right sum of values. *)
Definition lsum {F} (fadd : F -> F -> F) (z : F) (l : list F) : F := fold_left fadd l z.

(** How many track bins carry a flag. *)
Definition flagged (flag : Z) (M : Z -> Z -> Z) (bins : list (Z * Z)) : Z :=
  zlen (filter (fun tc => negb (Z.land (M (fst tc) (snd tc)) flag =? 0)) bins).

(** The offsets have the sign of the drift and a rate never leaves an array of [N] channels even when
    it starts at the edge: the condition under which the CPU kernel is memory safe. *)
Definition signed_rate (T : Z) (r : rate) : Prop :=
  forall t, 0 <= t < T -> if r_nonneg r then 0 <= r_off r t else r_off r t <= 0 /\ r_span r <= 0.
Definition fits (N : Z) (r : rate) (t k : Z) : Prop :=
  if r_nonneg r then r_off r t + k <= N else - r_span r <= N /\ k - r_off r t <= N.
Definition fits_band (N T : Z) (r : rate) : Prop :=
  forall t k, 0 <= t < T -> 0 <= k < r_desmear r -> fits N r t k.

(** Every bin of the track is inside the band (and right of the span). *)
Definition whole_track (N T : Z) (r : rate) (f : Z) : Prop :=
  forall t k, 0 <= t < T -> 0 <= k < r_desmear r -> 0 <= track_channel r f t k < N.

(** A T x N array: no view offset, elements given by [S]. *)
Definition holds {V} (l : layout) (m : mem V) (T N : Z) (S : Z -> Z -> V) : Prop :=
  l_shape l = [T; N] /\ wf l /\ Forall (fun o => o = 0) (l_offsets l) /\
  forall t c, 0 <= t < T -> 0 <= c < N -> elt m l [t; c] = Some (S t c).
