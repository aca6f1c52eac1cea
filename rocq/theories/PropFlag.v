(** Flaggers, noise estimates and preprocessing: C48-C51 and C68-C70. *)
From Coq Require Import Reals Lra Permutation.
From Flocq Require Import BinarySingleNaN.
From Verif Require Import RedProofs3 NdProofs2 FlagProofs3 FlagReal.
From Coq Require Import ZifyBool.
Local Open Scope Z_scope.
Local Open Scope list_scope.

(** A literal buffer as an array; used by the examples. *)
Definition lit {A} (dflt : A) (sh : list Z) (m : mem A) : list Z -> A := fun i => nth (Z.to_nat (cell (dense sh) i)) m dflt.
Lemma lit_grid {A} (dflt : A) sh m : zlen m = zprod sh -> on_grid sh m (lit dflt sh m).
Proof.
  intros L. split; [exact L|]. apply arr_is_dense; [exact L|]. intros idx R. pose proof (dense_inside sh idx R) as B.
  unfold elt, lit, znth. replace (cell (dense sh) idx <? 0) with false by lia. apply nth_error_nth'. unfold zlen in L. lia.
Qed.
Definition ok_buf {A} (o : outcome (arr A)) : option (list A) := match o with Ok r => Some (snd r) | _ => None end.

(** Facts about bytes, by running over the 256 values. *)
Lemma all_bytes (P : Z -> bool) : forallb P (zrange 256) = true -> forall v, byte v -> P v = true.
Proof. intros H v Hv. rewrite forallb_forall in H. apply H, in_zrange. unfold byte in Hv. lia. Qed.

(** ** C48 *)
(** Bins at or below the threshold keep their mask value.  A bin above it whose magnitude bit is clear gets that bit and keeps the others. *)
Theorem C48_magnitude_sets_its_bit : forall A (gt : A -> A -> bool) junk data mask sh d m t,
  arr_is data sh d -> arr_is mask sh m -> (forall i, in_range sh i -> byte (m i)) -> posl sh -> sh <> [] -> zprod sh < 2 ^ 31 ->
  exists r g, flag_magnitude gt junk data mask t = Ok r /\ arr_is r sh g /\ forall i, in_range sh i ->
    (gt (d i) t = false -> g i = m i) /\
    (gt (d i) t = true -> Z.testbit (m i) 4 = false -> g i = Z.lor (m i) 16 /\ forall b, b <> 4 -> Z.testbit (g i) b = Z.testbit (m i) b).
Proof.
  intros A gt junk data mask sh d m t Hd Hm B P N Z1. destruct (magnitude_spec gt junk data mask sh d m t Hd Hm P N Z1) as (r & E & H).
  exists r. eexists. split; [exact E|]. split; [exact H|]. intros i R. specialize (B i R). cbn beta. unfold mag_bit. split; intros G; rewrite G.
  - rewrite Z.add_0_r. apply Z.mod_small. exact B.
  - intros T. assert (Q : (m i + MAGNITUDE) mod 256 = Z.lor (m i) 16).
    { apply u8_add_disjoint; [exact B|unfold byte; lia|].
      pose proof (all_bytes (fun v => Z.testbit v 4 || (Z.land v 16 =? 0)) ltac:(vm_compute; reflexivity) (m i) B) as K. cbn beta in K. rewrite T in K. cbn [orb] in K. lia. }
    rewrite Q. split; [reflexivity|]. intros b Hb. rewrite Z.lor_spec. change 16 with (2 ^ 4).
    destruct (Z.ltb_spec b 0); [now rewrite !Z.testbit_neg_r by lia|]. rewrite Z.pow2_bits_eqb by lia. replace (4 =? b) with false by lia. apply orb_false_r.
Qed.
Print Assumptions C48_magnitude_sets_its_bit.
Example C48_magnitude_case : exists data mask : mem Z, on_grid [2; 3] data (lit 0 [2; 3] data) /\ on_grid [2; 3] mask (lit 0 [2; 3] mask) /\
  ok_buf (flag_magnitude Z.gtb (fun _ => 77) (dense [2; 3], data) (dense [2; 3], mask) 4) = Some [0; 17; 2; 16; 18; 1].
Proof.
  exists [3; 9; 4; 8; 5; 1], [0; 1; 2; 0; 2; 1]. split; [apply lit_grid; reflexivity|]. split; [apply lit_grid; reflexivity|]. vm_compute. reflexivity.
Qed.

(** The claim "a set flag stays set" fails: flagging adds, so a detected bin that already carries the bit loses it (and bit 5 flips). *)
Theorem C48_flagging_again_clears_refuted : forall A (gt : A -> A -> bool) junk data mask sh d m t,
  arr_is data sh d -> arr_is mask sh m -> (forall i, in_range sh i -> byte (m i)) -> posl sh -> sh <> [] -> zprod sh < 2 ^ 31 ->
  (exists r g, flag_magnitude gt junk data mask t = Ok r /\ arr_is r sh g /\ forall i, in_range sh i ->
    gt (d i) t = true -> Z.testbit (m i) 4 = true -> Z.testbit (g i) 4 = false /\ Z.testbit (g i) 5 = negb (Z.testbit (m i) 5)) /\
  (exists r g, flag_magnitude_times gt junk 16 data mask t = Ok r /\ arr_is r sh g /\ forall i, in_range sh i -> g i = m i).
Proof.
  intros A gt junk data mask sh d m t Hd Hm B P N Z1. split.
  - destruct (magnitude_spec gt junk data mask sh d m t Hd Hm P N Z1) as (r & E & H). exists r. eexists. split; [exact E|]. split; [exact H|].
    intros i R G T. cbn beta. unfold mag_bit. rewrite G. specialize (B i R).
    pose proof (all_bytes (fun v => negb (Z.testbit v 4) || (negb (Z.testbit ((v + MAGNITUDE) mod 256) 4) &&
      Bool.eqb (Z.testbit ((v + MAGNITUDE) mod 256) 5) (negb (Z.testbit v 5)))) ltac:(vm_compute; reflexivity) (m i) B) as K.
    cbn beta in K. rewrite T in K. cbn [negb orb] in K. apply andb_true_iff in K. destruct K as [K1 K2]. apply Bool.eqb_prop in K2.
    split; [apply negb_true_iff, K1|exact K2].
  - destruct (magnitude_times gt junk data mask sh d m t Hd Hm B P N Z1 16) as (r & E & H). exists r. eexists. split; [exact E|]. split; [exact H|].
    intros i R. cbn beta. specialize (B i R). unfold byte in B. unfold mag_bit, MAGNITUDE. destruct (gt _ _).
    + change (Z.of_nat 16 * 16) with 256. replace 256 with (1 * 256) at 1 by lia. rewrite Z.mod_add by lia. apply Z.mod_small. lia.
    + rewrite Z.mul_0_r, Z.add_0_r. apply Z.mod_small. lia.
Qed.
Print Assumptions C48_flagging_again_clears_refuted.
Example C48_again_case :
  ok_buf (flag_magnitude Z.gtb (fun _ => 77) (dense [1; 2], [9; 1]) (dense [1; 2], [17; 17]) 4) = Some [33; 17] /\
  ok_buf (flag_magnitude_times Z.gtb (fun _ => 77) 16 (dense [1; 2], [9; 1]) (dense [1; 2], [3; 0]) 4) = Some [3; 0].
Proof. split; vm_compute; reflexivity. Qed.

(** Spectral kurtosis flagging, for any arithmetic: every bin of a column gets the low bit if the column's estimate is below the lower
    threshold and the high bit if it is above the upper one, and nothing else changes, provided those two bits were clear. *)
Theorem C48_kurtosis_sets_its_bits : forall F (O : numops F) junk jz data mask T C f m N M d lower upper,
  arr_is data [T; C] f -> arr_is mask [T; C] m -> (forall i, in_range [T; C] i -> byte (m i)) ->
  1 <= T -> 1 <= C -> T * C < 2 ^ 31 -> - 2 ^ 31 <= M * N < 2 ^ 31 ->
  exists r g, flag_sk O junk jz data mask N M d lower upper = Ok r /\ arr_is r [T; C] g /\ forall t c, 0 <= t < T -> 0 <= c < C ->
    let x := sk_column O N M d T f c in
    (o_lt O x lower = false -> o_lt O upper x = false -> g [t; c] = m [t; c]) /\
    (Z.land (m [t; c]) 6 = 0 ->
       Z.testbit (g [t; c]) 1 = o_lt O x lower /\ Z.testbit (g [t; c]) 2 = o_lt O upper x /\
       forall b, b <> 1 -> b <> 2 -> Z.testbit (g [t; c]) b = Z.testbit (m [t; c]) b).
Proof.
  intros F O junk jz data mask T C f m N M d lower upper Hd Hm B HT HC Hb HMN.
  destruct (flag_sk_is O junk jz data mask T C f m N M d lower upper Hd Hm HT HC Hb HMN) as (r & E & H). exists r. eexists.
  split; [exact E|]. split; [exact H|]. intros t c Ht Hc x. specialize (B [t; c] (in_range2i T C t c Ht Hc)). cbn beta. cbn [nth]. fold x.
  set (v := m [t; c]) in *. set (w := sk_bits O x lower upper).
  assert (W : w = (if o_lt O x lower then 2 else 0) + (if o_lt O upper x then 4 else 0)) by reflexivity. split.
  - intros L U. rewrite W, L, U. rewrite Z.add_0_r. apply Z.mod_small, B.
  - intros L.
    assert (K0 : forall b, Z.testbit v b = false \/ Z.testbit 6 b = false).
    { intros b. destruct (Z.testbit v b) eqn:X; [|now left]. destruct (Z.testbit 6 b) eqn:Y; [|now right].
      assert (Z.testbit (Z.land v 6) b = true) by (rewrite Z.land_spec, X, Y; reflexivity). rewrite L, Z.bits_0 in H0. discriminate. }
    assert (K : Z.land v w = 0).
    { apply Z.bits_inj. intros b. rewrite Z.land_spec, Z.bits_0. destruct (K0 b) as [->| K1]; [reflexivity|]. apply andb_false_iff. right. rewrite W.
      destruct (Z.ltb_spec b 0); [now apply Z.testbit_neg_r|].
      assert (X : forall u, u = 2 \/ u = 4 \/ u = 6 \/ u = 0 -> Z.testbit u b = true -> Z.testbit 6 b = true).
      { intros u Hu Tu. change 6 with (Z.lor 2 4). rewrite Z.lor_spec. destruct Hu as [->|[->|[->| ->]]]; [now rewrite Tu|rewrite Tu; apply orb_true_r| |now rewrite Z.bits_0 in Tu].
        change 6 with (Z.lor 2 4) in Tu. now rewrite Z.lor_spec in Tu. }
      match goal with |- Z.testbit ?e b = false => destruct (Z.testbit e b) eqn:Y end; [|reflexivity].
      apply X in Y; [congruence|]. destruct (o_lt O x lower), (o_lt O upper x); cbn; tauto. }
    assert (Q : (v + w) mod 256 = Z.lor v w).
    { apply u8_add_disjoint; [exact B| |exact K]. rewrite W. unfold byte. destruct (o_lt O x lower), (o_lt O upper x); lia. }
    rewrite Q. pose proof (K0 1) as V1. pose proof (K0 2) as V2. change (Z.testbit 6 1) with true in V1. change (Z.testbit 6 2) with true in V2.
    destruct V1 as [V1|?], V2 as [V2|?]; try discriminate.
    rewrite !Z.lor_spec, V1, V2, W. split; [destruct (o_lt O x lower), (o_lt O upper x); reflexivity|].
    split; [destruct (o_lt O x lower), (o_lt O upper x); reflexivity|].
    intros b B1 B2. rewrite Z.lor_spec. rewrite <- (orb_false_r (Z.testbit v b)) at 2. f_equal.
    destruct (Z.ltb_spec b 0); [now apply Z.testbit_neg_r|].
    assert (P2 : Z.testbit 2 b = false) by (change 2 with (2 ^ 1); rewrite Z.pow2_bits_eqb by lia; lia).
    assert (P4 : Z.testbit 4 b = false) by (change 4 with (2 ^ 2); rewrite Z.pow2_bits_eqb by lia; lia).
    destruct (o_lt O x lower), (o_lt O upper x); cbn [Z.add]; [change (2 + 4) with (Z.lor 2 4); now rewrite Z.lor_spec, P2, P4|exact P2|exact P4|apply Z.bits_0].
Qed.
Print Assumptions C48_kurtosis_sets_its_bits.
(** Integer stand-in arithmetic with scaled division, to show a case in which one column is flagged low, one high and one not at all. *)
Definition opsZ : numops Z := Ops Z.add Z.sub Z.mul (fun a b => if b =? 0 then 0 else 1000 * a / b) Z.abs Z.ltb (fun z => z) (fun z => Ok z).
Example C48_kurtosis_case :
  ok_buf (flag_sk opsZ (fun _ => 5) (fun _ => 77) (dense [4; 3], [1; 5; 10;  1; 5; 0;  3; 5; 0;  0; 5; 0])
    (dense [4; 3], [1; 1; 1;  0; 0; 0;  0; 0; 0;  16; 0; 0]) 1 4 1 2000000 3000000) =
  Some [1; 3; 5;  0; 2; 4;  0; 2; 4;  16; 2; 4].
Proof. vm_compute. reflexivity. Qed.

(** ** C49 *)
(** What k reads of the mask of a channel of T x C bins show when n = round(width * C) channels are asked for at each edge, 1 <= n < C:
    channel c gains 1 per read in the left n channels and 1 per read in the right n + 1 channels. *)
Theorem C49_rolloff_counts_refuted : forall junk T C n m f, 0 <= T -> 1 <= n < C -> T * C < 2 ^ 31 ->
  on_grid [T; C] m f -> (forall i, in_range [T; C] i -> byte (f i)) -> forall k,
  exists m' g, rolloff_reads junk n k (dense [T; C], m) = Ok (dense [T; C], m') /\ on_grid [T; C] m' g /\
    forall t c, 0 <= t < T -> 0 <= c < C ->
      g [t; c] = (f [t; c] + Z.of_nat k * ((if c <? n then 1 else 0) + (if C - 1 - n <=? c then 1 else 0))) mod 256.
Proof.
  intros junk T C n m f HT Hn Hb [L A] B k. destruct (rolloff_reads_spec junk T C n m f HT ltac:(lia) ltac:(lia) Hb L A B k) as (m' & E & L' & H).
  exists m'. eexists. split; [exact E|]. split; [split; [exact L'|exact H]|]. intros t c _ _. cbn beta. cbn [nth]. unfold rolloff_hits, u8_of_bool.
  replace (n =? 0) with false by lia. replace (C - n - 1) with (C - 1 - n) by lia. reflexivity.
Qed.
Print Assumptions C49_rolloff_counts_refuted.
(** In particular, on a clear mask, the first read flags the n leftmost and the n + 1 rightmost channels, not n at each edge, and the
    second read shows a different mask. *)
Theorem C49_rolloff_not_exact_refuted : forall junk T C n m, 1 <= T -> 1 <= n -> 2 * n + 1 < C -> T * C < 2 ^ 31 ->
  on_grid [T; C] m (fun _ => 0) ->
  exists m1 m2 g1 g2, rolloff_reads junk n 1 (dense [T; C], m) = Ok (dense [T; C], m1) /\ rolloff_reads junk n 2 (dense [T; C], m) = Ok (dense [T; C], m2) /\
    on_grid [T; C] m1 g1 /\ on_grid [T; C] m2 g2 /\
    (forall t c, 0 <= t < T -> 0 <= c < C -> g1 [t; c] = (if (c <? n) || (C - 1 - n <=? c) then 1 else 0)) /\
    g1 [0; C - 1 - n] = 1 /\ g2 [0; 0] = 2.
Proof.
  intros junk T C n m HT Hn HC Hb G.
  destruct (C49_rolloff_counts_refuted junk T C n m _ ltac:(lia) ltac:(lia) Hb G ltac:(intros; unfold byte; lia) 1) as (m1 & g1 & E1 & G1 & H1).
  destruct (C49_rolloff_counts_refuted junk T C n m _ ltac:(lia) ltac:(lia) Hb G ltac:(intros; unfold byte; lia) 2) as (m2 & g2 & E2 & G2 & H2).
  exists m1, m2, g1, g2. split; [exact E1|]. split; [exact E2|]. split; [exact G1|]. split; [exact G2|]. split; [|split].
  - intros t c Ht Hc. rewrite H1 by assumption. destruct (Z.ltb_spec c n), (Z.leb_spec (C - 1 - n) c); try reflexivity. lia.
  - rewrite H1 by lia. replace (C - 1 - n <? n) with false by lia. rewrite Z.leb_refl. reflexivity.
  - rewrite H2 by lia. replace (0 <? n) with true by lia. replace (C - 1 - n <=? 0) with false by lia. reflexivity.
Qed.
Print Assumptions C49_rolloff_not_exact_refuted.
Example C49_rolloff_case : ok_buf (rolloff_reads (fun _ => 9) 1 1 (dense [2; 5], repeat 0 10)) = Some [1; 0; 0; 1; 1; 1; 0; 0; 1; 1] /\
  ok_buf (rolloff_reads (fun _ => 9) 1 2 (dense [2; 5], repeat 0 10)) = Some [2; 0; 0; 2; 2; 2; 0; 0; 2; 2].
Proof. split; vm_compute; reflexivity. Qed.

(** A width that rounds to no channel flags every channel; one that rounds to the whole band or more reads before the array. *)
Theorem C49_rolloff_extremes : forall junk T C m f, 1 <= T -> 1 <= C -> T * C < 2 ^ 31 -> on_grid [T; C] m f ->
  (forall i, in_range [T; C] i -> byte (f i)) ->
  (exists m' g, rolloff_once junk 0 (dense [T; C], m) = Ok (dense [T; C], m') /\ on_grid [T; C] m' g /\
     forall i, in_range [T; C] i -> g i = (f i + 1) mod 256) /\
  (forall n, C <= n -> T * (n + 1) < 2 ^ 31 -> rolloff_once junk n (dense [T; C], m) = UB).
Proof.
  intros junk T C m f HT HC Hb [L A] B. split.
  - destruct (rolloff_spec junk T C 0 m f ltac:(lia) HC ltac:(lia) Hb L A B) as (m' & E & L' & H). exists m'. eexists.
    split; [exact E|]. split; [split; [exact L'|exact H]|]. intros i _. reflexivity.
  - intros n Hn Hn2. eapply rolloff_too_wide; eauto; lia.
Qed.
Print Assumptions C49_rolloff_extremes.
Example C49_extremes_case : ok_buf (rolloff_once (fun _ => 9) 0 (dense [2; 2], [0; 4; 255; 1])) = Some [1; 5; 0; 2] /\
  rolloff_once (fun _ => 9) 2 (dense [2; 2], [0; 4; 255; 1]) = UB.
Proof. split; vm_compute; reflexivity. Qed.

(** ** C50 *)
(** With masking, a fully flagged channel is an error for every method; otherwise the stddev method returns the statistic [fin] of the
    unflagged samples, each used once. *)
Theorem C50_unflagged_samples : forall A D (zero : D) (add : D -> A -> D) (fin : D -> Z -> A * A) acc1 acc2 fin2 junk jz sh data mask d m,
  small sh -> on_grid sh data d -> on_grid sh mask m ->
  let est := estimate_noise zero add fin acc1 acc2 fin2 junk jz true in
  (forall i, in_range sh i -> m i <> 0) /\ (forall me, est me (dense sh, data) (dense sh, mask) = Throw RuntimeError) \/
  (exists i, in_range sh i /\ m i = 0) /\
    exists r es v, est Stddev (dense sh, data) (dense sh, mask) = Ok (Some (dense [1], r)) /\ znth r 0 = Some v /\ zlen r = 1 /\
      Permutation es (all_indices sh) /\ v = (let xs := map d (filter (fun i => m i =? 0) es) in fin (fold_left add xs zero) (zlen xs)).
Proof. intros. apply noise_masked_spec; assumption. Qed.
Print Assumptions C50_unflagged_samples.
Definition sum_and_count (s n : Z) : Z * Z := (s, n).
Example C50_unflagged_case :
  match estimate_noise 0 Z.add sum_and_count Z.add Z.add (fun a b => (a, b)) (fun _ => (0, 0)) (fun _ => 0) true Stddev
          (dense [2; 3], [1; 100; 2; 3; 4; 1000]) (dense [2; 3], [0; 16; 0; 0; 0; 3]) with
  | Ok (Some r) => snd r = [(10, 4)] | _ => False end /\
  estimate_noise 0 Z.add sum_and_count Z.add Z.add (fun a b => (a, b)) (fun _ => (0, 0)) (fun _ => 0) true Stddev
          (dense [1; 2], [1; 100]) (dense [1; 2], [1; 16]) = Throw RuntimeError.
Proof. split; vm_compute; reflexivity. Qed.

(** Flagged samples and the kind of flag do not matter. *)
Theorem C50_depends_on_unflagged : forall A D (zero : D) (add : D -> A -> D) (fin : D -> Z -> A * A) acc1 acc2 fin2 junk jz sh me
  data data' mask mask' d d' m m', small sh ->
  on_grid sh data d -> on_grid sh data' d' -> on_grid sh mask m -> on_grid sh mask' m' ->
  (forall i, in_range sh i -> (m i = 0 <-> m' i = 0)) -> (forall i, in_range sh i -> m i = 0 -> d i = d' i) ->
  estimate_noise zero add fin acc1 acc2 fin2 junk jz true me (dense sh, data) (dense sh, mask) =
  estimate_noise zero add fin acc1 acc2 fin2 junk jz true me (dense sh, data') (dense sh, mask').
Proof.
  intros A D zero add fin acc1 acc2 fin2 junk jz sh me data data' mask mask' d d' m m' Sm G1 G2 G3 G4 Hm Hd.
  apply (noise_depends zero add fin acc1 acc2 fin2 junk jz sh me data data' mask mask' d d' m m'); try assumption.
  intros i R. specialize (Hm i R). destruct (Z.eqb_spec (m i) 0), (Z.eqb_spec (m' i) 0); tauto.
Qed.
Print Assumptions C50_depends_on_unflagged.
Example C50_depends_case : exists data data' mask mask' : mem Z, data <> data' /\ mask <> mask' /\ small [2; 2] /\
  on_grid [2; 2] data (lit 0 [2; 2] data) /\ on_grid [2; 2] data' (lit 0 [2; 2] data') /\
  on_grid [2; 2] mask (lit 0 [2; 2] mask) /\ on_grid [2; 2] mask' (lit 0 [2; 2] mask') /\
  (forall i, in_range [2; 2] i -> (lit 0 [2; 2] mask i = 0 <-> lit 0 [2; 2] mask' i = 0)) /\
  (forall i, in_range [2; 2] i -> lit 0 [2; 2] mask i = 0 -> lit 0 [2; 2] data i = lit 0 [2; 2] data' i).
Proof.
  exists [1; 2; 3; 4], [1; 7; 3; 9], [0; 1; 0; 16], [0; 3; 0; 2]. split; [discriminate|]. split; [discriminate|].
  split; [split; [repeat constructor; lia|reflexivity]|]. do 4 (split; [apply lit_grid; reflexivity|]).
  split; intros i R; apply in_all_indices in R; cbn in R; repeat (destruct R as [<-|R]; [vm_compute; intuition discriminate|]); contradiction.
Qed.

(** The MAD method never estimates anything: an error with masking, no value without. *)
Theorem C50_mad_never_estimates : forall A D (zero : D) (add : D -> A -> D) (fin : D -> Z -> A * A) acc1 acc2 fin2 junk jz sh data mask d m,
  small sh -> on_grid sh data d -> on_grid sh mask m ->
  estimate_noise zero add fin acc1 acc2 fin2 junk jz true Mad (dense sh, data) (dense sh, mask) = Throw RuntimeError /\
  estimate_noise zero add fin acc1 acc2 fin2 junk jz false Mad (dense sh, data) (dense sh, mask) = Ok None.
Proof.
  intros A D zero add fin acc1 acc2 fin2 junk jz sh data mask d m Sm Gd Gm. split; [|reflexivity].
  unfold estimate_noise. rewrite (correct_mask_spec jz _ sh m (proj2 Gm) Sm). now destruct (existsb _ _).
Qed.
Print Assumptions C50_mad_never_estimates.
Example C50_mad_case : small [2; 3] /\ on_grid [2; 3] [1; 2; 3; 4; 5; 6] (lit 0 [2; 3] [1; 2; 3; 4; 5; 6]).
Proof. split; [split; [repeat constructor; lia|reflexivity]|apply lit_grid; reflexivity]. Qed.

(** ** C51 *)
(** The claim fails on every float32 (and int32) channel: the call raises runtime_error whatever the data; on unsigned data it reads the
    buffer as floats. *)
Theorem C51_sigmaclip_always_fails_refuted : forall A D (zero : D) (add : D -> A -> D) fin junk t data clip,
  (t = F32 \/ t = I32 -> flag_sigmaclip_array zero add fin junk t data clip = Throw RuntimeError) /\
  (t = U8 \/ t = U32 -> zprod (l_shape (fst data)) <> 0 -> flag_sigmaclip_array zero add fin junk t data clip = UB).
Proof.
  intros. split.
  - intros [->| ->]; apply sigmaclip_throws; reflexivity.
  - intros [->| ->] Hz; apply sigmaclip_integer; auto.
Qed.
Print Assumptions C51_sigmaclip_always_fails_refuted.
Example C51_sigmaclip_case : flag_sigmaclip_array 0 Z.add sum_and_count (fun _ => (0, 0)) F32 (dense [2; 3], [1; 2; 3; 4; 5; 600])
  (fun _ => Ok (dense [2; 3], [0; 0; 0; 0; 0; 32])) = Throw RuntimeError.
Proof. reflexivity. Qed.

(** ** C68 *)
(** The estimate of each column is (M * S2 / S1^2 - 1) * (M*N*d + 1) / (M - 1) over the reals. *)
Theorem C68_kurtosis_formula : forall junk data T C f N M d, arr_is data [T; C] f -> 0 <= T -> 1 <= C < 2 ^ 31 -> T * C < 2 ^ 31 -> - 2 ^ 31 <= M * N < 2 ^ 31 ->
  exists r g, spectral_kurtosis opsR junk data N M d = Ok r /\ arr_is r [C] g /\ forall c, 0 <= c < C ->
    let xs := map (fun t => f [t; c]) (zrange T) in
    (g [c] = (IZR M * rsum (map (fun x => x * x) xs) / (rsum xs * rsum xs) - 1) * ((IZR (M * N) * d + 1) / IZR (M - 1)))%R.
Proof.
  intros junk data T C f N M d A HT HC Hb HMN. destruct (sk_is opsR junk data T C f N M d A HT ltac:(lia) Hb ltac:(lia) HMN) as (r & E & _ & _ & H).
  exists r. eexists. split; [exact E|]. split; [exact H|]. intros c Hc xs. cbn beta. cbn [nth]. rewrite sk_column_R. reflexivity.
Qed.
Print Assumptions C68_kurtosis_formula.
Example C68_formula_case : exists data : mem R, on_grid [3; 1] data (lit 0%R [3; 1] data) /\
  sk_list 2 3 1 data = ((3 * 14 / 36 - 1) * (7 / 2))%R.
Proof. exists [1; 2; 3]%R. split; [apply lit_grid; reflexivity|]. unfold sk_list, rsum, squares. cbn [map]. change (3 * 2)%Z with 6. change (3 - 1)%Z with 2. field. Qed.

(** What users rely on: the estimate of a column ignores the order of its samples and the gain, is never negative, is 0 for a constant
    column, and is at most M*N*d + 1 for power data, reached when one sample holds all the power. *)
Theorem C68_kurtosis_laws : forall N d l, 2 <= zlen l -> (0 <= IZR (zlen l * N) * d)%R -> rsum l <> 0%R ->
  let sk := sk_list N (zlen l) d in
  (forall l', Permutation l l' -> sk l' = sk l) /\
  (forall a, a <> 0%R -> sk (map (Rmult a) l) = sk l) /\
  (0 <= sk l)%R /\
  ((exists a, Forall (eq a) l) -> sk l = 0%R) /\
  (Forall (fun x => 0 <= x)%R l -> (sk l <= IZR (zlen l * N) * d + 1)%R) /\
  ((exists pre x post, l = pre ++ x :: post /\ Forall (eq 0%R) pre /\ Forall (eq 0%R) post) -> sk l = (IZR (zlen l * N) * d + 1)%R).
Proof.
  intros N d l HM Hd Hs sk. unfold sk. repeat split.
  - intros l' P. symmetry. apply sk_perm, P.
  - intros a Ha. apply sk_scale; assumption.
  - apply sk_lower; assumption.
  - intros [a Ha]. assert (R : l = repeat a (List.length l)).
    { clear - Ha. induction Ha as [|x l <- Ha IH]; [reflexivity|]. cbn. now f_equal. }
    rewrite R at 2. apply sk_constant; [reflexivity|exact HM|]. intros ->. apply Hs. rewrite R. destruct (rsum_repeat 0 (List.length l)) as [-> _]. lra.
  - intros Hp. apply sk_upper; assumption.
  - intros (pre & x & post & El & H1 & H2).
    assert (Z0 : forall q, Forall (eq 0%R) q -> rsum q = 0%R /\ rsum (squares q) = 0%R).
    { induction 1 as [|y q <- Hq [IH1 IH2]]; [split; reflexivity|]. cbn [rsum squares map]. fold (squares q). rewrite IH1, IH2. split; lra. }
    assert (Sa : forall p q, rsum (p ++ q) = (rsum p + rsum q)%R). { induction p as [|y p IH]; intros q; cbn; [lra|]. rewrite IH. lra. }
    assert (E1 : rsum l = x). { rewrite El, Sa. cbn [rsum]. rewrite (proj1 (Z0 _ H1)), (proj1 (Z0 _ H2)). lra. }
    assert (E2 : rsum (squares l) = (x * x)%R).
    { rewrite El. unfold squares. rewrite map_app, Sa. cbn [map rsum]. fold (squares pre) (squares post). rewrite (proj2 (Z0 _ H1)), (proj2 (Z0 _ H2)). lra. }
    apply (sk_impulse N d x); auto. congruence.
Qed.
Print Assumptions C68_kurtosis_laws.
Example C68_laws_case : 2 <= zlen [0; 5; 0]%R /\ (0 <= IZR (zlen [0; 5; 0]%R * 2) * 1)%R /\ rsum [0; 5; 0]%R <> 0%R.
Proof. split; [discriminate|]. change (zlen [0; 5; 0]%R) with 3. change (3 * 2) with 6. cbn [rsum]. split; lra. Qed.

(** In double arithmetic a dead column (all samples +0) has a NaN estimate and is never flagged, whatever the thresholds. *)
Theorem C68_dead_column_never_flagged : forall N M d T f c lower upper, 0 <= T -> (forall t, 0 <= t < T -> f [t; c] = z64) ->
  sk_bits ops64 (sk_column ops64 N M d T f c) lower upper = 0.
Proof. intros N M d T f c lower upper HT H. rewrite (dead_column N M d T f c HT H). apply dead_not_flagged. Qed.
Print Assumptions C68_dead_column_never_flagged.
Example C68_dead_case : forall t, 0 <= t < 5 -> (fun i : list Z => if nth 1 i 0 =? 2 then z64 else o_of ops64 7) [t; 2] = z64.
Proof. intros. reflexivity. Qed.

(** ** C69 *)
(** Normalising any channel with at least one sample reads past the end of a shape vector. *)
Theorem C69_normalize_undefined_refuted : forall F (O : numops F) lowest junk data T C f, arr_is data [T; C] f -> 1 <= T -> 1 <= C ->
  normalize O lowest junk data = UB.
Proof. intros. eapply normalize_ub; eauto. Qed.
Print Assumptions C69_normalize_undefined_refuted.
Example C69_normalize_case : on_grid [2; 2] [1; 2; 3; 4] (lit 0 [2; 2] [1; 2; 3; 4]).
Proof. apply lit_grid; reflexivity. Qed.

(** Equalising divides every sample by the response of its channel, except that the call is undefined when the channel has one bin or
    as many bins as time steps. *)
Theorem C69_equalize : forall F (O : numops F) junk data h T C f g, arr_is data [T; C] f -> arr_is h [C] g -> 1 <= T -> 1 <= C -> T * C < 2 ^ 31 ->
  (C <> 1 -> C <> T -> exists r q, equalize O junk data h = Ok r /\ arr_is r [T; C] q /\
     forall t c, 0 <= t < T -> 0 <= c < C -> q [t; c] = o_div O (f [t; c]) (g [c])) /\
  (C = 1 \/ C = T -> equalize O junk data h = UB).
Proof.
  intros F O junk data h T C f g A B HT HC Hb. split.
  - intros H1 H2. destruct (equalize_spec O junk data h T C f g A B HT HC Hb H1 H2) as (r & E & _ & H). exists r. eexists. split; [exact E|].
    split; [exact H|]. intros t c _ _. reflexivity.
  - intros H. eapply equalize_ub; eauto.
Qed.
Print Assumptions C69_equalize.
Example C69_equalize_case : ok_buf (equalize opsZ (fun _ => 0) (dense [2; 3], [10; 20; 30; 40; 50; 60]) (dense [3], [1; 2; 3])) =
  Some [10000; 10000; 10000; 40000; 25000; 20000] /\
  equalize opsZ (fun _ => 0) (dense [2; 2], [10; 20; 30; 40]) (dense [2], [1; 2]) = UB.
Proof. split; vm_compute; reflexivity. Qed.

(** ** C70 *)
(** Over the reals the designed filter has linear phase: its taps are symmetric. *)
Theorem C70_taps_symmetric : forall sinc a0 a1 fc taps n, (forall x, sinc (- x)%R = sinc x) -> 2 <= taps ->
  fir_tap opsR cos sinc (2 * PI)%R a0 a1 fc taps (taps - 1 - n) = fir_tap opsR cos sinc (2 * PI)%R a0 a1 fc taps n.
Proof. intros. apply taps_symmetric; assumption. Qed.
Print Assumptions C70_taps_symmetric.
Example C70_taps_case : (forall x : R, (fun y => sin (PI * y) / (PI * y))%R (- x)%R = (sin (PI * x) / (PI * x))%R) .
Proof.
  intros x. cbn beta. destruct (Req_dec x 0) as [->|H]; [rewrite Ropp_0; reflexivity|].
  replace (PI * - x)%R with (- (PI * x))%R by lra. rewrite sin_neg. pose proof PI_neq0. field. split; assumption.
Qed.
