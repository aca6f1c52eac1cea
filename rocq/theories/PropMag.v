(** C101: what flagging at the default magnitude threshold flags, in single precision. *)
From Coq Require Import ZifyBool Lia Permutation Reals Lra Psatz.
From Flocq Require Import Core BinarySingleNaN.
From Verif Require Import MagModel FlagProofs FsumProofs FsumProofs2 RedSpec RedProofs2 NdIndexFacts NdProofs PropTRed PropFsum PropFlag MagProofs DriftFloatProofs.
Local Open Scope Z_scope.

(** ** What is expected *)
(** [xs] are the samples of the array [d] of shape [sh], each once. *)
Definition samples (sh : list Z) (d : list Z -> f32) (xs : list f32) : Prop :=
  exists es, NoDup es /\ (forall idx, In idx es <-> in_range sh idx) /\ xs = map d es.
(** Ten exact standard deviations above the exact mean. *)
Definition limit (xs : list f32) : R := (rmean xs + 10 * sqrt (variance xs))%R.
(** How far the computed limit may be off: [rms xs] is the root of the mean of the squares. *)
Definition rms (xs : list f32) : R := sqrt (mean_square xs).
Definition tolerance (xs : list f32) : R := ((bpow radix2 (-20) * sqrt (INR (length xs) + 3) + bpow radix2 (-17)) * rms xs + bpow radix2 (-139))%R.
(** A channel of finite samples and its mask of bytes. *)
Definition flaggable (data : arr f32) (mask : arr Z) (sh : list Z) (d : list Z -> f32) (m : list Z -> Z) : Prop :=
  arr_is data sh d /\ arr_is mask sh m /\ (forall i, in_range sh i -> byte (m i)) /\ posl sh /\ sh <> [] /\ zprod sh < 2 ^ 31 /\
  forall i, in_range sh i -> is_finite (d i) = true /\ (Rabs (B2R (d i)) <= bpow radix2 120)%R.

(** ** Facts *)
Lemma gt32_spec (x y : f32) : is_finite x = true -> is_finite y = true -> gt32 x y = true <-> (B2R y < B2R x)%R.
Proof. intros Fx Fy. unfold gt32. rewrite Bcompare_correct by assumption. destruct (Rcompare_spec (B2R x) (B2R y)); split; intros K; try reflexivity; try discriminate; lra. Qed.
Lemma reads_map {V} (m : mem V) l sh (d : list Z -> V) es xs : (forall idx, in_range sh idx -> elt m l idx = Some (d idx)) -> (forall idx, In idx es -> in_range sh idx) -> reads m l es xs -> xs = map d es.
Proof.
  intros H I R. induction R as [|i x es xs E R IH]; [reflexivity|]. cbn [map]. f_equal; [rewrite H in E by (apply I; now left); congruence|]. apply IH. intros idx Hi. apply I. now right.
Qed.
Lemma filter_all {A} (l : list A) : filter (fun _ => true) l = l. Proof. induction l; cbn; congruence. Qed.
Section Channel.
  Variables (data : arr f32) (mask : arr Z) (sh : list Z) (d : list Z -> f32) (m : list Z -> Z).
  Hypothesis H : flaggable data mask sh d m.
  Lemma channel_array : float_array (fst data) (snd data) [] /\ moderate_where all_used (fst data) (snd data).
  Proof.
    destruct H as ((W & S & I & E) & _ & _ & P & _ & Z & F). split.
    - split; [|rewrite S; split; [exact P|exact Z]]. split; [exact W|]. split; [rewrite S; eapply Forall_impl; [|exact P]; intros ? Q; cbn beta in Q |- *; lia|]. split; [split; constructor|]. split; [reflexivity|exact I].
    - intros idx x R _ Ex. rewrite S in R. rewrite (E idx R) in Ex. injection Ex as <-. destruct (F idx R) as (F1 & F2). split; [exact F1|]. eapply Rle_trans; [exact F2|]. apply bpow_le. lia.
  Qed.
  Lemma all_samples xs : samples sh d xs -> small_enough xs /\ 1 <= zlen xs < 2 ^ 31.
  Proof.
    intros (es & ND & In & ->). destruct H as ((W & S & I & E) & _ & _ & P & _ & Z & F). split.
    - apply Forall_map, Forall_forall. intros idx Hi. apply F, In, Hi.
    - destruct channel_array as (((_ & _ & G & _) & Pp & Zb) & _). assert (R0 : in_range (out_shape [] (l_shape (fst data))) [0]) by (repeat (apply Forall2_cons || apply Forall2_nil); lia).
      assert (En : enumerates (l_shape (fst data)) [] [0] es) by (split; [exact ND|]; intros idx; rewrite In, S; split; [intros R; split; [exact R|reflexivity]|tauto]).
      destruct (enumerated_count _ _ _ _ G Pp Zb R0 En) as (N & _). unfold zlen in N |- *. rewrite map_length. exact N.
  Qed.
  Lemma reduced_scalar (P : list f32 -> f32 -> Prop) r : (forall xs ys v, Permutation xs ys -> P xs v -> P ys v) -> float_reduced (fst data) (snd data) [] all_used P r ->
    exists a v, r = Ok a /\ only a = Ok v /\ forall xs, samples sh d xs -> P xs v.
  Proof.
    intros Inv (vs & -> & L & Hv). change (zprod (out_shape [] (l_shape (fst data)))) with 1 in L. destruct vs as [|v [|? ?]]; unfold zlen in L; cbn [length] in L; try lia.
    eexists. exists v. split; [reflexivity|]. split; [reflexivity|]. intros xs (es & ND & In & ->).
    assert (R0 : in_range (out_shape [] (l_shape (fst data))) [0]) by (repeat (apply Forall2_cons || apply Forall2_nil); lia).
    destruct (Hv [0] R0) as (es' & xs' & v' & (ND' & In') & Rd & E & Pv). change (Some v = Some v') in E. injection E as <-. unfold all_used in Rd. rewrite filter_all in Rd.
    destruct H as ((W & S & I & El) & _). rewrite S in In'. assert (In2 : forall idx, List.In idx es' <-> in_range sh idx) by (intros idx; rewrite In'; split; [tauto|intros R; split; [exact R|reflexivity]]).
    rewrite (reads_map (snd data) (fst data) sh d es' xs' El (fun idx Hi => proj1 (In2 idx) Hi) Rd) in Pv. apply (Inv (map d es')); [|exact Pv]. apply Permutation_map, NoDup_Permutation; auto. intros idx. rewrite In2, In. tauto.
  Qed.
  Lemma have_samples : exists xs, samples sh d xs.
  Proof.
    destruct channel_array as (A & M). destruct (C91_mean (fun _ => B754_zero false) _ _ _ A M) as (vs & _ & _ & Hv).
    destruct (Hv [0] ltac:(repeat (apply Forall2_cons || apply Forall2_nil); lia)) as (es & _ & _ & (ND & In) & _). exists (map d es), es. split; [exact ND|]. split; [|reflexivity].
    destruct H as ((W & S & I & El) & _). intros idx. rewrite In, S. split; [tauto|intros R; split; [exact R|reflexivity]].
  Qed.
  Lemma default_is_threshold junkf junk : exists t, is_finite t = true /\ flag_magnitude_default junkf junk data mask = flag_magnitude gt32 junk data mask t /\
    forall xs, samples sh d xs -> (Rabs (B2R t - limit xs) <= margin xs)%R.
  Proof.
    destruct channel_array as (A & M). destruct (reduced_scalar (close_mean 1) _ (close_mean_perm 1) (C91_mean junkf _ _ _ A M)) as (a & mu & Ea & Oa & Pa).
    destruct (reduced_scalar (rough_root 3) _ (rough_root_perm 3) (C91_stddev junkf _ _ _ A M)) as (b & sd & Eb & Ob & Pb).
    exists (ten_sigma mu sd). assert (K : forall xs, samples sh d xs -> is_finite (ten_sigma mu sd) = true /\ (Rabs (B2R (ten_sigma mu sd) - limit xs) <= margin xs)%R).
    { intros xs Hx. destruct (all_samples xs Hx) as (Sm & N). apply threshold_ok; auto. }
    split; [|split; [|intros xs Hx; now apply K]].
    - destruct have_samples as (xs & Hx). exact (proj1 (K xs Hx)).
    - unfold flag_magnitude_default. rewrite Ea. cbn [obind]. rewrite Oa. cbn [obind]. rewrite Eb. cbn [obind]. rewrite Ob. reflexivity.
  Qed.
End Channel.

(** ** The flags *)
Theorem C101_magnitude_flags : forall junkf junk data mask sh d m xs, flaggable data mask sh d m -> samples sh d xs ->
  exists r g, flag_magnitude_default junkf junk data mask = Ok r /\ arr_is r sh g /\ forall i, in_range sh i ->
    ((B2R (d i) <= limit xs - tolerance xs)%R -> g i = m i) /\
    ((limit xs + tolerance xs < B2R (d i))%R -> Z.testbit (m i) 4 = false -> g i = Z.lor (m i) 16).
Proof.
  intros junkf junk data mask sh d m xs H Hx. destruct (default_is_threshold data mask sh d m H junkf junk) as (t & Ft & E & B). specialize (B xs Hx). destruct (all_samples data mask sh d m H xs Hx) as (Sm & N).
  destruct (margin_rms xs Sm N) as (_ & Tol). fold (rms xs) in Tol. fold (tolerance xs) in Tol. pose proof H as (Hd & Hm & By & P & Ne & Z1 & F).
  destruct (C48_magnitude_sets_its_bit _ gt32 junk data mask sh d m t Hd Hm By P Ne Z1) as (r & g & Er & Hr & Hg). exists r, g. rewrite E. split; [exact Er|]. split; [exact Hr|].
  intros i R. destruct (Hg i R) as (G1 & G2). destruct (F i R) as (Fd & _). pose proof (gt32_spec (d i) t Fd Ft) as C. apply Rabs_le_inv in B. split.
  - intros K. apply G1. destruct (gt32 (d i) t) eqn:G; [|reflexivity]. pose proof (proj1 C eq_refl). lra.
  - intros K T. apply G2; [|exact T]. apply C. lra.
Qed.
Print Assumptions C101_magnitude_flags.
(** However bright a sample is: among at most a hundred it is never flagged. *)
Theorem C101_small_channels_refuted : forall junkf junk data mask sh d m xs, flaggable data mask sh d m -> samples sh d xs -> zlen xs <= 100 ->
  (bpow radix2 (-11) * rms xs + bpow radix2 (-130) <= sqrt (variance xs))%R ->
  exists r g, flag_magnitude_default junkf junk data mask = Ok r /\ arr_is r sh g /\ forall i, in_range sh i -> g i = m i.
Proof.
  intros junkf junk data mask sh d m xs H Hx Hn Hs. destruct (C101_magnitude_flags junkf junk data mask sh d m xs H Hx) as (r & g & E & Hr & Hg). exists r, g. split; [exact E|]. split; [exact Hr|].
  intros i R. apply (proj1 (Hg i R)). destruct (all_samples data mask sh d m H xs Hx) as (Sm & N). destruct (variance_nonneg xs (small_moderate xs Sm) ltac:(lia)) as (V0 & _).
  assert (Hi : In (d i) xs) by (destruct Hx as (es & _ & In & ->); apply in_map, In, R). pose proof (furthest xs (d i) Hi) as K. unfold limit. set (sg := sqrt (variance xs)) in *.
  assert (SS : (sg * sg = variance xs)%R) by (apply sqrt_sqrt; exact V0). rewrite <- SS in K. assert (S0 : (0 <= sg)%R) by apply sqrt_pos.
  assert (NR : (INR (length xs) <= 100)%R) by (rewrite INR_IZR_INZ; apply IZR_le; exact Hn).
  assert (T : (tolerance xs <= / 20 * sg)%R).
  { unfold tolerance. assert (q0 : (0 <= rms xs)%R) by apply sqrt_pos. assert (W : (0 <= sqrt (INR (length xs) + 3) <= 103 / 10)%R).
    { split; [apply sqrt_pos|]. rewrite <- (sqrt_square (103 / 10)) by lra. apply sqrt_le_1_alt. lra. }
    assert (T1 : (20 * bpow radix2 (-139) <= bpow radix2 (-130))%R) by (apply Rle_trans with (bpow radix2 9 * bpow radix2 (-139))%R; [apply Rmult_le_compat_r; [apply bpow_ge_0|change (bpow radix2 9) with 512%R; lra]|rewrite <- bpow_plus; apply bpow_le; lia]).
    change (bpow radix2 (-20)) with (/ 1048576)%R. change (bpow radix2 (-17)) with (/ 131072)%R. change (bpow radix2 (-11)) with (/ 2048)%R in Hs. set (w := sqrt (INR (length xs) + 3)) in *. clearbody w.
    assert ((/ 1048576 * w + / 131072) * rms xs <= / 20 * (/ 2048) * rms xs)%R by (apply Rmult_le_compat_r; lra). lra. }
  assert (D : (B2R (d i) - rmean xs <= 995 / 100 * sg)%R).
  { set (e := (B2R (d i) - rmean xs)%R) in *. clearbody e. destruct (Rle_lt_dec e (995 / 100 * sg)) as [L|L]; [exact L|exfalso]. assert (e * e <= 99 * (sg * sg))%R by (eapply Rle_trans; [exact K|]; apply Rmult_le_compat_r; nra). nra. }
  lra.
Qed.
Print Assumptions C101_small_channels_refuted.
Lemma lone_perm sh d xs i0 c : samples sh d xs -> in_range sh i0 -> (forall i, in_range sh i -> i <> i0 -> d i = c) -> exists k, Permutation xs (d i0 :: repeat c k).
Proof.
  intros Hx R0 Hc.
  destruct Hx as (es & ND & In & ->). pose proof (proj2 (In i0) R0) as I0. apply in_split in I0 as (l1 & l2 & ->). exists (length (l1 ++ l2)).
    transitivity (d i0 :: map d (l1 ++ l2)); [rewrite !map_app; cbn [map]; symmetry; apply Permutation_middle|]. assert (Q : forall l, (forall i, List.In i l -> d i = c) -> map d l = repeat c (length l)).
    { induction l as [|i l IH]; intros Q; [reflexivity|]. cbn [map length repeat]. rewrite (Q i) by now left. f_equal. apply IH. intros j Hj. apply Q. now right. }
    rewrite Q; [reflexivity|]. intros i Hi. assert (Hi' : List.In i (l1 ++ i0 :: l2)) by (apply in_app_iff in Hi as [Hi|Hi]; apply in_app_iff; [now left|right; now right]).
    apply Hc; [now apply In|]. intros ->. apply NoDup_remove_2 in ND. contradiction.
Qed.
Lemma repeat_rsum (c : f32) (f : R -> R) j : FsumFacts.rsum (map f (vals (repeat c j))) = (INR j * f (B2R c))%R.
Proof.
  induction j as [|j IH]; [unfold FsumFacts.rsum; cbn; lra|]. cbn [repeat vals map] in *. rewrite FsumFacts.rsum_cons. unfold vals in IH. rewrite IH, S_INR. ring.
Qed.
(** Among more it is: one sample above the others, which are equal. *)
Theorem C101_lone_sample : forall junkf junk data mask sh d m xs i0 c, flaggable data mask sh d m -> samples sh d xs -> 128 <= zlen xs ->
  in_range sh i0 -> (forall i, in_range sh i -> i <> i0 -> d i = c) -> (B2R c < B2R (d i0))%R -> (tolerance xs <= sqrt (variance xs))%R -> Z.testbit (m i0) 4 = false ->
  exists r g, flag_magnitude_default junkf junk data mask = Ok r /\ arr_is r sh g /\ g i0 = Z.lor (m i0) 16 /\ forall i, in_range sh i -> i <> i0 -> g i = m i.
Proof.
  intros junkf junk data mask sh d m xs i0 c H Hx Hn R0 Hc Lt Tol Bit. destruct (C101_magnitude_flags junkf junk data mask sh d m xs H Hx) as (r & g & E & Hr & Hg). exists r, g. split; [exact E|]. split; [exact Hr|].
  pose proof (lone_perm sh d xs i0 c Hx R0 Hc) as Xs.
  destruct Xs as (k & P). destruct (stats_perm _ _ P) as (A & _ & _ & V & L). cbn [length] in L. rewrite repeat_length in L. unfold limit in Hg. rewrite A in Hg.
  assert (K : 127 <= Z.of_nat k) by (unfold zlen in Hn; lia). assert (N : (127 <= INR k)%R) by (rewrite INR_IZR_INZ; apply IZR_le; exact K).
  assert (M : rmean (d i0 :: repeat c k) = ((B2R (d i0) + INR k * B2R c) / (INR k + 1))%R).
  { unfold rmean. cbn [length]. rewrite repeat_length, S_INR. f_equal. pose proof (repeat_rsum c (fun x => x) k) as Q. rewrite map_id in Q. change (vals (d i0 :: repeat c k)) with (B2R (d i0) :: vals (repeat c k)). rewrite FsumFacts.rsum_cons, Q. reflexivity. }
  set (a := B2R (d i0)) in *. set (b := B2R c) in *. set (n := INR k) in *.
  assert (VV : variance (d i0 :: repeat c k) = (n * ((a - b) / (n + 1)) * ((a - b) / (n + 1)))%R).
  { unfold variance. rewrite M. unfold mean_square. cbn [length]. rewrite repeat_length, S_INR. change (vals (d i0 :: repeat c k)) with (a :: vals (repeat c k)). cbn [map]. rewrite FsumFacts.rsum_cons, (repeat_rsum c (fun x => x * x)%R). fold n b. field. lra. }
  rewrite V in *. set (v := ((a - b) / (n + 1))%R) in *. assert (v0 : (0 < v)%R) by (unfold v; apply Rdiv_lt_0_compat; lra).
  assert (SG : sqrt (variance (d i0 :: repeat c k)) = (sqrt n * v)%R). { rewrite VV, Rmult_assoc, sqrt_mult by nra. f_equal. apply sqrt_square. lra. }
  rewrite SG in *. assert (W : (sqrt n * sqrt n = n)%R) by (apply sqrt_sqrt; lra). assert (W1 : (112 / 10 <= sqrt n)%R). { rewrite <- (sqrt_square (112 / 10)) by lra. apply sqrt_le_1_alt. lra. }
  assert (EA : (a - rmean (d i0 :: repeat c k) = n * v)%R) by (rewrite M; unfold v; field; lra). assert (EB : (b - rmean (d i0 :: repeat c k) = - v)%R) by (rewrite M; unfold v; field; lra).
  set (mu := rmean (d i0 :: repeat c k)) in *. set (w := sqrt n) in *. clearbody mu w v. split.
  - apply (proj2 (Hg i0 R0)); [|exact Bit]. assert (a = mu + w * w * v)%R by (rewrite W; lra). fold a. nra.
  - intros i R Ni. apply (proj1 (Hg i R)). rewrite (Hc i R Ni). fold b. nra.
Qed.
Print Assumptions C101_lone_sample.
(** A channel of 8 spectra of 16 channels, dark but for its first sample; and one of 2 spectra of 3 channels. *)
Definition spike (idx : list Z) : f32 := match idx with [0; 0] => f32_of_Z 64 | _ => f32_of_Z 0 end.
Definition spiked (n : nat) : mem f32 := f32_of_Z 64 :: repeat (f32_of_Z 0) n.
Definition clean (_ : list Z) : Z := 0.
Lemma spiked_elt sh n : sh = [8; 16] /\ n = 127%nat \/ sh = [2; 3] /\ n = 5%nat -> flaggable (dense sh, spiked n) (dense sh, repeat 0 (S n)) sh spike clean.
Proof.
  intros K. assert (L : exists T C, sh = [T; C] /\ 0 < T <= 8 /\ 0 < C <= 16 /\ T * C = Z.of_nat (S n)) by (destruct K as [(-> & ->)|(-> & ->)]; repeat eexists; lia). destruct L as (T & C & -> & HT & HC & L). clear K.
  assert (Zp : zprod [T; C] = T * C) by (unfold zprod; cbn; ring).
  assert (Cell : forall t c, cell (dense [T; C]) [t; c] = t * C + c) by (intros; unfold cell, dense; cbn; ring).
  split; [|split; [|split; [|split; [|split; [|split]]]]].
  - apply arr_is_dense; [unfold zlen, spiked; cbn [length]; rewrite repeat_length; lia|]. intros idx R. apply in_range2 in R as (t & c & -> & Ht & Hc). unfold elt, znth. rewrite Cell. destruct (t * C + c <? 0) eqn:Ng; [nia|].
    destruct (Z.eq_dec (t * C + c) 0) as [Z0|Z0].
    + assert (t = 0) by nia. subst t. assert (c = 0) by lia. subst c. reflexivity.
    + replace (Z.to_nat (t * C + c)) with (S (Z.to_nat (t * C + c - 1))) by lia. cbn [spiked nth_error]. rewrite nth_error_repeat by nia. f_equal. unfold spike. destruct t; destruct c; try reflexivity. lia.
  - apply arr_is_dense; [unfold zlen; rewrite repeat_length; lia|]. intros idx R. apply in_range2 in R as (t & c & -> & Ht & Hc). unfold elt, znth. rewrite Cell. destruct (t * C + c <? 0) eqn:Ng; [nia|]. apply nth_error_repeat. nia.
  - intros i _. unfold clean, byte. lia.
  - repeat (apply Forall_cons || apply Forall_nil); lia.
  - discriminate.
  - rewrite Zp. nia.
  - intros i _. assert (Q : spike i = f32_of_Z 64 \/ spike i = f32_of_Z 0) by (unfold spike; destruct i as [|[| |] [|[| |] [|? ?]]]; auto). destruct (f32_of_Z_ok 64 ltac:(lia)) as (V64 & F64). destruct (f32_of_Z_ok 0 ltac:(lia)) as (V0 & F0).
    assert (B : (64 <= bpow radix2 120)%R) by (change 64%R with (bpow radix2 6); apply bpow_le; lia).
    destruct Q as [-> | ->]; [rewrite V64|rewrite V0]; (split; [assumption|]); rewrite Rabs_pos_eq by lra; lra.
Qed.

Lemma spike_stats sh n xs : in_range sh [0; 0] -> samples sh spike xs -> zlen xs = Z.of_nat (S n) ->
  mean_square xs = (4096 / (INR n + 1))%R /\ variance xs = (4096 / (INR n + 1) - (64 / (INR n + 1)) * (64 / (INR n + 1)))%R /\ INR (length xs) = (INR n + 1)%R.
Proof.
  intros R0 Hx L. destruct (lone_perm sh spike xs [0; 0] (f32_of_Z 0) Hx R0) as (k & P).
  { intros i _ Hi. unfold spike. destruct i as [|[| |] [|[| |] [|? ?]]]; try reflexivity. congruence. }
  destruct (stats_perm _ _ P) as (A & _ & Q & V & E). cbn [length] in E. rewrite repeat_length in E. assert (k = n) by (unfold zlen in L; lia). subst k. change (spike [0; 0]) with (f32_of_Z 64) in *.
  destruct (f32_of_Z_ok 64 ltac:(lia)) as (V64 & _). destruct (f32_of_Z_ok 0 ltac:(lia)) as (V0 & _). pose proof (pos_INR n) as N0.
  assert (QQ : mean_square (f32_of_Z 64 :: repeat (f32_of_Z 0) n) = (4096 / (INR n + 1))%R).
  { unfold mean_square. cbn [length]. rewrite repeat_length, S_INR. change (vals (f32_of_Z 64 :: repeat (f32_of_Z 0) n)) with (B2R (f32_of_Z 64) :: vals (repeat (f32_of_Z 0) n)). cbn [map]. rewrite FsumFacts.rsum_cons, (repeat_rsum _ (fun x => x * x)%R), V64, V0. f_equal. ring. }
  assert (MM : rmean (f32_of_Z 64 :: repeat (f32_of_Z 0) n) = (64 / (INR n + 1))%R).
  { unfold rmean. cbn [length]. rewrite repeat_length, S_INR. pose proof (repeat_rsum (f32_of_Z 0) (fun x => x) n) as Q'. rewrite map_id in Q'. change (vals (f32_of_Z 64 :: repeat (f32_of_Z 0) n)) with (B2R (f32_of_Z 64) :: vals (repeat (f32_of_Z 0) n)).
    rewrite FsumFacts.rsum_cons, Q', V64, V0. f_equal. ring. }
  split; [rewrite Q; exact QQ|]. split; [rewrite V; unfold variance; now rewrite QQ, MM|]. rewrite E, S_INR. reflexivity.
Qed.
Lemma spike_count sh n xs : sh = [8; 16] /\ n = 127%nat \/ sh = [2; 3] /\ n = 5%nat -> samples sh spike xs -> zlen xs = Z.of_nat (S n).
Proof.
  intros K (es & ND & In & ->). assert (E : exists T C, sh = [T; C] /\ T * C = Z.of_nat (S n) /\ 0 < T /\ 0 < C) by (destruct K as [(-> & ->)|(-> & ->)]; repeat eexists; lia). destruct E as (T & C & -> & L & HT & HC).
  destruct (enumerated_count [T; C] [] [0] es) as (_ & N); [split; constructor|repeat (apply Forall_cons || apply Forall_nil); lia|unfold zprod; cbn; lia|repeat (apply Forall2_cons || apply Forall2_nil); lia| |].
  - split; [exact ND|]. intros idx. rewrite In. split; [intros R; split; [exact R|reflexivity]|tauto].
  - match type of N with _ = zprod ?l => change l with [T; C] in N end. unfold zlen in *. rewrite map_length, N, <- L. unfold zprod. cbn [fold_left fold_right]. ring.
Qed.
Example a_spike : flaggable (dense [8; 16], spiked 127) (dense [8; 16], repeat 0 128) [8; 16] spike clean /\ exists xs, samples [8; 16] spike xs /\ 128 <= zlen xs /\ (tolerance xs <= sqrt (variance xs))%R /\
  (limit xs + tolerance xs < B2R (spike [0%Z; 0%Z]))%R /\ (B2R (spike [0%Z; 1%Z]) <= limit xs - tolerance xs)%R.
Proof.
  assert (H : flaggable (dense [8; 16], spiked 127) (dense [8; 16], repeat 0 128) [8; 16] spike clean) by (apply spiked_elt; auto). split; [exact H|].
  destruct (have_samples _ _ _ _ _ H) as (xs & Hx). exists xs. split; [exact Hx|]. pose proof (spike_count _ 127 xs (or_introl (conj eq_refl eq_refl)) Hx) as L. split; [lia|].
  destruct (spike_stats [8; 16] 127 xs) as (Q & V & N); [apply in_range2i; lia|exact Hx|exact L|]. replace (INR 127) with 127%R in * by (rewrite INR_IZR_INZ; reflexivity).
  assert (S1 : (5 <= sqrt (variance xs) <= 57 / 10)%R). { rewrite V. split; [rewrite <- (sqrt_square 5) by lra|rewrite <- (sqrt_square (57 / 10)) by lra]; apply sqrt_le_1_alt; lra. }
  assert (R1 : (0 <= rms xs <= 6)%R). { unfold rms. split; [apply sqrt_pos|]. rewrite <- (sqrt_square 6) by lra. rewrite Q. apply sqrt_le_1_alt. lra. }
  assert (W : (0 <= sqrt (INR (length xs) + 3) <= 12)%R). { rewrite N. split; [apply sqrt_pos|]. rewrite <- (sqrt_square 12) by lra. apply sqrt_le_1_alt. lra. }
  assert (T : (0 <= tolerance xs <= 1)%R).
  { unfold tolerance. change (bpow radix2 (-20)) with (/ 1048576)%R. change (bpow radix2 (-17)) with (/ 131072)%R. assert (B : (bpow radix2 (-139) <= / 8)%R) by (change (/ 8)%R with (bpow radix2 (-3)); apply bpow_le; lia). pose proof (bpow_ge_0 radix2 (-139)). nra. }
  split; [lra|]. destruct (f32_of_Z_ok 64 ltac:(lia)) as (V64 & _). destruct (f32_of_Z_ok 0 ltac:(lia)) as (V0 & _). change (spike [0; 0]) with (f32_of_Z 64). change (spike [0; 1]) with (f32_of_Z 0). rewrite V64, V0.
  assert (MU : (0 <= rmean xs <= 1)%R). { assert ((rmean xs * rmean xs = / 4)%R) by (unfold variance in V; rewrite Q in V; lra). assert (E : (0 <= rmean xs)%R); [|nra].
    destruct (lone_perm [8; 16] spike xs [0; 0] (f32_of_Z 0) Hx) as (k & P); [apply in_range2i; lia| |].
    { intros i _ Hi. unfold spike. destruct i as [|[| |] [|[| |] [|? ?]]]; try reflexivity. congruence. }
    destruct (stats_perm _ _ P) as (A & _). rewrite A. unfold rmean. change (vals (spike [0; 0] :: repeat (f32_of_Z 0) k)) with (B2R (f32_of_Z 64) :: vals (repeat (f32_of_Z 0) k)). pose proof (repeat_rsum (f32_of_Z 0) (fun x => x) k) as Q'. rewrite map_id in Q'.
    rewrite FsumFacts.rsum_cons, Q', V64, V0. apply Rle_mult_inv_pos; [lra|]. apply lt_0_INR. cbn [length]. lia. }
  unfold limit. lra.
Qed.
Example a_small_channel : flaggable (dense [2; 3], spiked 5) (dense [2; 3], repeat 0 6) [2; 3] spike clean /\ exists xs, samples [2; 3] spike xs /\ zlen xs <= 100 /\ (bpow radix2 (-11) * rms xs + bpow radix2 (-130) <= sqrt (variance xs))%R.
Proof.
  assert (H : flaggable (dense [2; 3], spiked 5) (dense [2; 3], repeat 0 6) [2; 3] spike clean) by (apply spiked_elt; auto). split; [exact H|].
  destruct (have_samples _ _ _ _ _ H) as (xs & Hx). exists xs. split; [exact Hx|]. pose proof (spike_count _ 5 xs (or_intror (conj eq_refl eq_refl)) Hx) as L. split; [lia|].
  destruct (spike_stats [2; 3] 5 xs) as (Q & V & N); [apply in_range2i; lia|exact Hx|exact L|]. replace (INR 5) with 5%R in * by (rewrite INR_IZR_INZ; reflexivity).
  assert (S1 : (5 <= sqrt (variance xs))%R). { rewrite V. apply Rle_trans with (sqrt (5 * 5)); [rewrite sqrt_square by lra; lra|]. apply sqrt_le_1_alt; lra. }
  assert (R1 : (0 <= rms xs <= 30)%R). { unfold rms. split; [apply sqrt_pos|]. rewrite <- (sqrt_square 30) by lra. rewrite Q. apply sqrt_le_1_alt. lra. }
  change (bpow radix2 (-11)) with (/ 2048)%R. assert (B : (bpow radix2 (-130) <= / 8)%R) by (change (/ 8)%R with (bpow radix2 (-3)); apply bpow_le; lia). lra.
Qed.
