(** Property theorems C106: spectral kurtosis on a GPU. *)
From Verif Require Import PropGred GredReal GredExact GredKernels GaccRel GleakRel.
From Coq Require Import ZifyBool ZifyNat Lia Permutation Reals Lra.
From Flocq Require Import Core BinarySingleNaN.
From Verif Require Import DriftFloatProofs HitModel FsumFacts FsumProofs GaccProofs PropGacc GleakProofs PropGleak GkurtModel FlagProofs FlagProofs2 NdIndexFacts NdProofs RedProofs3 PropKurt.
From Verif Require BlandDriftProofs.
From Verif Require Import GkurtReal GkurtProofs FlagReal.
Local Open Scope Z_scope.

(** ** What is expected *)
(** Spectra of powers in an unsliced array on the device; no sample exceeds [X]. *)
Definition device_powers (T C : Z) (x : mem f32) (f : list Z -> f32) (X : R) : Prop :=
  2 <= T <= 2 ^ 16 /\ 1 <= C /\ T * C < 2 ^ 31 /\ zlen x = T * C /\ (forall idx, in_range [T; C] idx -> elt x (dense [T; C]) idx = Some (f idx)) /\
  (0 <= X <= bpow radix2 40)%R /\ forall idx, in_range [T; C] idx -> is_finite (f idx) = true /\ (0 <= B2R (f idx) <= X)%R.
(** The strongest sample of the whole array is at most [k] times the mean of this channel. *)
Definition bright (k : Z) (X : R) (xs : list R) : Prop := 1 <= k <= 64 /\ (IZR (zlen xs) * X <= IZR k * rsum xs)%R /\ (bpow radix2 (-40) <= rsum xs)%R.
(** How far the estimate may be off. *)
Definition gpu_margin (k N : Z) (d : R) (xs : list R) : R := ((IZR (k * k) + 2) * bpow radix2 (-18) * (kurtosis N d xs + scale N (zlen xs) d))%R.

Lemma map_len T (f : list Z -> f32) c : 0 <= T -> zlen (map B2R (samples T f c)) = T.
Proof. intros H. pose proof (samples_len T f c H) as L. unfold zlen in *. now rewrite map_length. Qed.

(** C106: the estimate on a GPU ends, and for every channel that is not dwarfed by the strongest sample it is finite and within the margin. *)
Theorem C106_gpu_estimate : forall junk T C x f X tsamp foff d, device_powers T C x f X -> settings T tsamp foff d ->
  exists N, nearest_count N (spectra tsamp foff) /\ (exists r, gpu_channel_kurtosis junk (dense [T; C], x) tsamp foff d r) /\
    forall r, gpu_channel_kurtosis junk (dense [T; C], x) tsamp foff d r -> exists g, arr_is r [C] g /\
      forall c k, 0 <= c < C -> let xs := map B2R (samples T f c) in bright k X xs ->
        is_finite (g [c]) = true /\ (Rabs (B2R (g [c]) - kurtosis N (B2R d) xs) <= gpu_margin k N (B2R d) xs)%R.
Proof.
  intros junk T C x f X tsamp foff d (HT & HC & Hb & Hx & Hf & X0 & HX) Hs. destruct (settings_count T tsamp foff d ltac:(lia) Hs) as (N & _ & E2 & HN & N1 & N2). pose proof HN as (N0 & _). destruct Hs as (_ & _ & Fd & _ & _ & Hd & _).
  exists N. split; [exact HN|]. split.
  - destruct (gpu_kurtosis_ends T C x f X N d junk HT HC Hb Hx Hf X0 HX N0 N2) as (r & Hr). exists r, T, N. split; [reflexivity|]. split; [exact E2|]. rewrite int32_id by lia. exact Hr.
  - intros r (M' & N' & EM & EN & Hr). change (Ok T = Ok M') in EM. injection EM as <-. rewrite E2 in EN. injection EN as <-. rewrite int32_id in Hr by lia.
    destruct (gpu_kurtosis_is T C x f X N d junk HT HC Hb Hx Hf X0 HX N0 N2 Fd Hd r Hr) as (g & Hg & V). exists g. split; [exact Hg|]. intros c k Hc xs (Hk & Hm & Hl). pose proof (map_len T f c ltac:(lia)) as L. fold xs in L.
    unfold gpu_margin. rewrite L in *. exact (V c k Hc Hk Hm Hl).
Qed.
Print Assumptions C106_gpu_estimate.

(** C106: the flags of such channels follow from the published estimate, up to the margin; flags are added in all spectra. *)
Theorem C106_gpu_flags : forall junk jz T C x f X mask m tsamp foff lower upper d, device_powers T C x f X -> arr_is mask [T; C] m -> settings T tsamp foff d ->
  is_finite lower = true -> is_finite upper = true ->
  exists N, nearest_count N (spectra tsamp foff) /\ (exists r, gpu_flag_kurtosis junk jz (dense [T; C], x) mask tsamp foff lower upper d r) /\
    forall r, gpu_flag_kurtosis junk jz (dense [T; C], x) mask tsamp foff lower upper d r -> exists g, arr_is r [T; C] g /\
      forall c, 0 <= c < C -> exists low high : bool, (forall t, 0 <= t < T -> g [t; c] = (m [t; c] + (if low then 2 else 0) + (if high then 4 else 0)) mod 256) /\
        forall k, let xs := map B2R (samples T f c) in bright k X xs ->
          is_below (kurtosis N (B2R d) xs) (B2R lower) (gpu_margin k N (B2R d) xs) low /\ is_above (kurtosis N (B2R d) xs) (B2R upper) (gpu_margin k N (B2R d) xs) high.
Proof.
  intros junk jz T C x f X mask m tsamp foff lower upper d (HT & HC & Hb & Hx & Hf & X0 & HX) Am Hs Fl Fu. destruct (settings_count T tsamp foff d ltac:(lia) Hs) as (N & E1 & _ & HN & N1 & N2). pose proof HN as (N0 & _). destruct Hs as (_ & _ & Fd & _ & _ & Hd & _).
  exists N. split; [exact HN|]. split.
  - destruct (gpu_kurtosis_ends T C x f X N d junk HT HC Hb Hx Hf X0 HX N0 N2) as (sk & Hsk). destruct (gpu_kurtosis_is T C x f X N d junk HT HC Hb Hx Hf X0 HX N0 N2 Fd Hd sk Hsk) as (g & Hg & _).
    destruct (flags_is jz T C sk g mask m lower upper ltac:(lia) HC Hb Hg Am) as (r & Er & _). exists r, T, N, sk. split; [reflexivity|]. split; [exact E1|]. rewrite !int32_id by lia. split; [exact Hsk|exact Er].
  - intros r (M' & N' & sk & EM & EN & Hsk & Er). change (Ok T = Ok M') in EM. injection EM as <-. rewrite E1 in EN. injection EN as <-. rewrite !int32_id in Hsk by lia.
    destruct (gpu_kurtosis_is T C x f X N d junk HT HC Hb Hx Hf X0 HX N0 N2 Fd Hd sk Hsk) as (g & Hg & V). destruct (flags_is jz T C sk g mask m lower upper ltac:(lia) HC Hb Hg Am) as (r' & Er' & Hr). rewrite Er in Er'. injection Er' as <-.
    eexists. split; [exact Hr|]. intros c Hc. cbv beta. cbn [nth]. exists (lt32 (g [c]) lower), (lt32 upper (g [c])). split.
    + intros t Ht. unfold sk_bits. cbn [o_lt ops32]. unfold LOW_SK, HIGH_SK. f_equal. ring.
    + intros k (Hk & Hm & Hl). set (xs := map B2R (samples T f c)) in *. pose proof (map_len T f c ltac:(lia)) as L. fold xs in L. unfold gpu_margin. rewrite L in *. destruct (V c k Hc Hk Hm Hl) as (Fe & Ee). fold xs in Ee. apply Rabs_le_inv in Ee.
      unfold is_below, is_above. rewrite !lt32_real by assumption. repeat split; intros; lra.
Qed.
Print Assumptions C106_gpu_flags.

(** ** A channel next to a strong one *)
(** Channel 0 holds a burst of 2^30; the others hold 1, 2 and 3. *)
Definition burst_at (i : Z) : Z := if i mod 1025 =? 0 then nth (Z.to_nat (i / 1025)) [2 ^ 30; 0; 1] 0 else i / 1025 + 1.
Definition burst : mem f32 := map (fun i => f32_of_Z (burst_at i)) (zrange 3075).
Definition bursts (i : list Z) : f32 := f32_of_Z (burst_at (nth 0 i 0 * 1025 + nth 1 i 0)).
Definition square32 (v : f32) : f32 := Bmult mode_NE v v.
Lemma eq32_of (v : f32) z : -16777216 <= z <= 16777216 -> z <> 0 -> f32eq v (f32_of_Z z) = true -> v = f32_of_Z z.
Proof.
  intros Hz Nz E. destruct (f32_of_Z_ok z ltac:(lia)) as (V & F). assert (NR : (IZR z <> 0)%R) by (now apply not_0_IZR). unfold f32eq in E. set (w := f32_of_Z z) in *. clearbody w.
  assert (S : forall y : f32, is_finite y = true -> (B2R y <> 0)%R -> is_finite_strict y = true) by (intros [] K1 K2; cbn in *; congruence).
  assert (Fv : is_finite v = true). { destruct v as [|sg| |]; try reflexivity; exfalso; [destruct w as [|?| |? ? ?]; destruct sg; cbn in *; try discriminate|discriminate]. }
  rewrite (Bcompare_correct 24 128) in E by assumption. destruct (Rcompare_spec (B2R v) (B2R w)) as [K|K|K]; try discriminate.
  apply B2R_inj; [apply S; [exact Fv|rewrite K, V; exact NR]|apply S; [exact F|rewrite V; exact NR]|exact K].
Qed.
Lemma sum0_val (x : mem f32) r c : zlen x = 3075 -> gpu_sum0 (dense [3; 1025], x) r -> 0 <= c < 1025 ->
  znth (snd r) c = Some (gpu_val (gk_sum PropGred.ops32) (dense [3; 1025]) (dense []) [0] x [] (f32_of_Z 0) [c]).
Proof.
  intros Lx (gr & jS & jY & st & L & R & D & Fr & Lr & V) Hc. cbv zeta in *. cbn [fst snd] in *. change (out_shape [0] (l_shape (dense [3; 1025]))) with [1025] in *. change (zprod [1025]) with 1025 in *.
  destruct (PropGred.dense_ok x [3; 1025] [0]) as ((Hr & HP & Hn) & U); [repeat constructor; lia|vm_compute; discriminate|split; [repeat constructor; auto|repeat constructor; unfold zlen; cbn; lia]|reflexivity|exact Lx|].
  pose proof (unsliced_eq _ U) as El. assert (Hr' : red_hyps x (unshift (dense [3; 1025])) [0]) by now rewrite El.
  destruct (gpu_reduce (gk_sum PropGred.ops32) (dense [3; 1025]) (dense []) [0] x [] (proj1 Hr) Hr' HP Hn ltac:(discriminate) ltac:(discriminate) (f32_of_Z 0)) as ((gr' & L' & Y) & _).
  rewrite L in L'. injection L' as <-. specialize (Y jS jY). cbv zeta in Y. destruct Y as (_ & Y). destruct (Y _ R) as (c' & Ec & _ & P). injection Ec as <-. specialize (P D).
  specialize (P [c] 0%nat (fun s => s) ltac:(apply in_range1; exists c; split; [reflexivity|exact Hc]) eq_refl). cbn beta in P. change (out_shape [0] (l_shape (dense [3; 1025]))) with [1025] in P. rewrite cell1 in P. change (Z.of_nat 0) with 0 in P.
  destruct (V c Hc) as (v & -> & Ev). rewrite Ev in P. exact P.
Qed.
Lemma burst_len : zlen burst = 3075. Proof. unfold burst, zlen. rewrite map_length. pose proof (zrange_length 3075) as K. unfold zlen in K. lia. Qed.
Lemma burst_elt idx : in_range [3; 1025] idx -> elt burst (dense [3; 1025]) idx = Some (bursts idx).
Proof.
  intros R. apply in_range2 in R as (t & c & -> & Ht & Hc). unfold elt, burst. rewrite znth_map_zrange.
  - unfold bursts. cbn [nth]. do 3 f_equal. unfold cell, dense. cbn -[Z.mul Z.add]. lia.
  - unfold cell, dense. cbn -[Z.mul Z.add]. lia.
Qed.
Lemma burst_range i : 0 <= i < 3075 -> 0 <= burst_at i <= 2 ^ 30.
Proof.
  intros Hi. unfold burst_at. assert (0 <= i / 1025 < 3) by (split; [apply Z.div_pos; lia|apply Z.div_lt_upper_bound; lia]). destruct (_ =? 0); [|lia].
  assert (i / 1025 = 0 \/ i / 1025 = 1 \/ i / 1025 = 2) as [-> |[-> | ->]] by lia; vm_compute; split; discriminate.
Qed.
Lemma burst_powers : device_powers 3 1025 burst bursts (bpow radix2 30 * 2).
Proof.
  split; [lia|]. split; [lia|]. split; [reflexivity|]. split; [exact burst_len|]. split; [exact burst_elt|]. split.
  - pose proof (bpow_ge_0 radix2 30). split; [lra|]. change 2%R with (bpow radix2 1). rewrite <- bpow_plus. apply bpow_le. lia.
  - intros idx R. apply in_range2 in R as (t & c & -> & Ht & Hc). unfold bursts. cbn [nth]. pose proof (burst_range (t * 1025 + c) ltac:(lia)) as B. destruct (KurtProofs.of_Z_near (burst_at (t * 1025 + c)) ltac:(lia)) as (F & (Z0 & V0 & _ & Bb)).
    split; [exact F|]. split; [exact V0|]. eapply Rle_trans; [exact Bb|]. rewrite pow_1, KurtProofs.u_val. assert (IZR (burst_at (t * 1025 + c)) <= bpow radix2 30)%R by (change (bpow radix2 30) with (IZR (2 ^ 30)); apply IZR_le; lia).
    set (b := bpow radix2 30) in *. clearbody b. lra.
Qed.
Lemma burst_samples : samples 3 bursts 1024 = map f32_of_Z [1; 2; 3].
Proof. unfold samples. change (zrange 3) with [0; 1; 2]. cbn [map]. unfold bursts. cbn [nth]. replace (burst_at (0 * 1025 + 1024)) with 1 by reflexivity. replace (burst_at (1 * 1025 + 1024)) with 2 by reflexivity. replace (burst_at (2 * 1025 + 1024)) with 3 by reflexivity. reflexivity. Qed.
Lemma burst_squares mq : zlen mq = 3075 -> (forall idx, in_range [3; 1025] idx -> elt mq (dense [3; 1025]) idx = Some (square32 (bursts idx))) -> mq = map square32 burst.
Proof.
  intros L H. apply BlandDriftProofs.list_ext; [rewrite L, <- burst_len; unfold zlen; now rewrite map_length|]. rewrite L. intros i Hi.
  pose proof (Z.mod_pos_bound i 1025 ltac:(lia)) as Bm. pose proof (Z.div_mod i 1025 ltac:(lia)) as Ed. assert (Bd : 0 <= i / 1025 < 3) by lia.
  pose proof (in_range2i 3 1025 (i / 1025) (i mod 1025) Bd Bm) as R. pose proof (H _ R) as E. pose proof (burst_elt _ R) as E0. unfold elt in E, E0. replace (cell (dense [3; 1025]) [i / 1025; i mod 1025]) with i in E, E0 by (unfold cell, dense; cbn -[Z.mul Z.add Z.div Z.modulo]; lia).
  rewrite E. unfold znth in E0 |- *. replace (i <? 0) with false in * by lia. rewrite nth_error_map, E0. reflexivity.
Qed.
(** C106: 'the estimate of a channel depends on its own samples only up to rounding' is false: channels 0 and 1024 of 1025 share threads, and the estimate for 1, 2 and 3 is negative on a GPU.
    On the CPU it is positive. *)
Theorem C106_own_samples_refuted : exists T C x f X tsamp foff d c, device_powers T C x f X /\ settings T tsamp foff d /\ 0 <= c < C /\ samples T f c = map f32_of_Z [1; 2; 3] /\
  (forall junk, exists r g, channel_kurtosis junk (dense [T; C], x) tsamp foff d = Ok r /\ arr_is r [C] g /\ (0 < B2R (g [c]))%R) /\
  forall junk r, gpu_channel_kurtosis junk (dense [T; C], x) tsamp foff d r -> exists v, elt (snd r) (fst r) [c] = Some v /\ lt32 v (f32_of_Z 0) = true.
Proof.
  exists 3, 1025, burst, bursts, (bpow radix2 30 * 2)%R, tsamp18, foff3, (f32_of_Z 1), 1024. split; [exact burst_powers|].
  assert (St : settings 3 tsamp18 foff3 (f32_of_Z 1)).
  { destruct C100_case as (_ & (H1 & H2 & H3 & H4 & H5 & H6 & H7) & _). repeat (split; [assumption|]). unfold spectra in *. destruct (f64_of_Z_ok 18 ltac:(lia)) as (Vt & Ft). fold tsamp18 in Vt.
    assert (Vf : (B2R foff3 = - (3 / 1048576))%R). { unfold foff3, B2R, F2R. cbn [Fnum Fexp]. change (cond_Zopp true 6755399441055744) with (-6755399441055744). change (bpow radix2 (-71)) with (/ 2361183241434822606848)%R. lra. }
    rewrite Vt, Vf, Rabs_Ropp, Rabs_pos_eq by lra. lra. }
  split; [exact St|]. split; [lia|]. split; [exact burst_samples|]. pose proof burst_powers as (HT & HC & Hb & Hx & Hf & X0 & HX). split.
  - intros junk. assert (A : arr_is (dense [3; 1025], burst) [3; 1025] bursts) by (apply arr_is_dense; [exact burst_len|exact burst_elt]).
    destruct (C100_estimate junk (dense [3; 1025], burst) 3 1025 bursts tsamp18 foff3 (f32_of_Z 1) A HT HC Hb St) as (N & r & g & (N0 & _) & Er & Hg & V). exists r, g. split; [exact Er|]. split; [exact Hg|].
    specialize (V 1024 ltac:(lia)). rewrite burst_samples in V. assert (Vs : map B2R (map f32_of_Z [1; 2; 3]) = [1; 2; 3]%R) by (cbn [map]; rewrite !(fun z H => proj1 (f32_of_Z_ok z H)) by lia; reflexivity).
    destruct V as (_ & V).
    { split; [|rewrite Vs; cbn [rsum]; apply Rle_trans with (bpow radix2 0); [apply bpow_le; lia|change (bpow radix2 0) with 1%R; lra]]. cbn [map]. repeat (apply Forall_cons || apply Forall_nil);
        (match goal with |- is_finite (f32_of_Z ?z) = true /\ _ => destruct (f32_of_Z_ok z ltac:(lia)) as (Vz & Fz) end; split; [exact Fz|rewrite Vz; split; [lra|]; apply Rle_trans with (bpow radix2 2); [change (bpow radix2 2) with 4%R; lra|apply bpow_le; lia]]). }
    rewrite Vs in V. destruct (f32_of_Z_ok 1 ltac:(lia)) as (V1 & _). rewrite V1 in V. unfold margin in V. change (zlen [1; 2; 3]%R) with 3 in V.
    assert (Sc : (1 / 2 <= scale N 3 1)%R). { unfold scale. change (IZR (3 - 1)) with 2%R. assert (0 <= IZR N)%R by (apply IZR_le; lia). lra. }
    assert (Ku : kurtosis N 1 [1; 2; 3]%R = (/ 6 * scale N 3 1)%R) by (unfold kurtosis; change (zlen [1; 2; 3]%R) with 3; cbn [rsum map]; field). rewrite Ku in V. set (sc := scale N 3 1) in *. clearbody sc. apply Rabs_le_inv in V.
    change (bpow radix2 (-22)) with (/ 4194304)%R in V. set (y := B2R (g [1024])) in *. clearbody y. lra.
  - intros junk r (M' & N' & EM & EN & (s & q & s2 & Es & Eq & Es2 & Er)). change (Ok 3 = Ok M') in EM. injection EM as <-. replace (round_to_int (sk_ratio tsamp18 foff3)) with (Ok 51) in EN by (vm_compute; reflexivity). injection EN as <-. change (to_int32 3) with 3 in Er.
    destruct (squares_arr 3 1025 burst bursts 51 (f32_of_Z 1) junk HT HC Hb Hx Hf) as (mq & Eq' & Lq & Vq). rewrite Eq in Eq'. injection Eq' as ->. pose proof (burst_squares mq Lq Vq) as ->.
    pose proof (sum0_val burst s 1024 burst_len Es ltac:(lia)) as A1. pose proof (sum0_val _ s2 1024 Lq Es2 ltac:(lia)) as A2.
    rewrite (eq32_of (gpu_val (gk_sum PropGred.ops32) (dense [3; 1025]) (dense []) [0] burst [] (f32_of_Z 0) [1024]) 7 ltac:(lia) ltac:(lia) ltac:(vm_compute; reflexivity)) in A1.
    rewrite (eq32_of (gpu_val (gk_sum PropGred.ops32) (dense [3; 1025]) (dense []) [0] (map square32 burst) [] (f32_of_Z 0) [1024]) 15 ltac:(lia) ltac:(lia) ltac:(vm_compute; reflexivity)) in A2.
    destruct Es as (gr & jS & jY & st & _ & _ & _ & Fr & Lr & _). destruct Es2 as (gr2 & jS2 & jY2 & st2 & _ & _ & _ & Fr2 & Lr2 & _). cbn [fst snd] in *. change (out_shape [0] (l_shape (dense [3; 1025]))) with [1025] in *.
    assert (Ar : forall w : arr f32, fst w = dense [1025] -> zlen (snd w) = 1025 -> arr_is w [1025] (fun i => match znth (snd w) (nth 0 i 0) with Some v => v | None => f32_of_Z 0 end)).
    { intros (lw, mw) Fw Lw. cbn [fst snd] in *. subst lw. apply arr_is_dense; [exact Lw|]. intros idx Hi. apply in_range1 in Hi as (i & -> & Hi). cbn [nth]. unfold elt. rewrite cell1. destruct (znth mw i) eqn:E; [reflexivity|]. exfalso. unfold znth in E. replace (i <? 0) with false in E by lia. apply nth_error_None in E. unfold zlen in Lw. lia. }
    destruct (tail_is junk 1025 51 3 (f32_of_Z 1) s s2 _ _ ltac:(lia) ltac:(lia) ltac:(lia) (Ar s Fr Lr) (Ar s2 Fr2 Lr2)) as (r' & Er' & (_ & _ & _ & Hr)). rewrite Er in Er'. injection Er' as <-. specialize (Hr [1024] ltac:(apply in_range1; exists 1024; split; [reflexivity|lia])). cbn [nth] in Hr. rewrite A1, A2 in Hr.
    eexists. split; [exact Hr|]. vm_compute. reflexivity.
Qed.
Print Assumptions C106_own_samples_refuted.

(** The hypotheses are met by three spectra of 1025 channels that rise from 1 to 3, where every channel is at most twice its mean. *)
Definition calm : mem f32 := map (fun i => f32_of_Z (i / 1025 + 1)) (zrange 3075).
Definition calms (i : list Z) : f32 := f32_of_Z (nth 0 i 0 + 1).
Example C106_case : device_powers 3 1025 calm calms 3 /\ settings 3 tsamp18 foff3 (f32_of_Z 1) /\ (forall c, 0 <= c < 1025 -> bright 2 3 (map B2R (samples 3 calms c))) /\
  exists mask : arr Z, arr_is mask [3; 1025] (fun _ => 0).
Proof.
  split; [|split; [|split]].
  - split; [lia|]. split; [lia|]. split; [reflexivity|]. split; [unfold calm, zlen; rewrite map_length; pose proof (zrange_length 3075) as K; unfold zlen in K; lia|]. split; [|split].
    + intros idx R. apply in_range2 in R as (t & c & -> & Ht & Hc). assert (E : cell (dense [3; 1025]) [t; c] = t * 1025 + c) by (unfold cell, dense; cbn -[Z.mul Z.add]; lia). unfold elt, calm. rewrite E, znth_map_zrange by lia. unfold calms. cbn [nth]. do 3 f_equal.
      rewrite Z.div_add_l by lia. rewrite Z.div_small by lia. lia.
    + split; [lra|]. apply Rle_trans with (bpow radix2 2); [change (bpow radix2 2) with 4%R; lra|apply bpow_le; lia].
    + intros idx R. apply in_range2 in R as (t & c & -> & Ht & Hc). unfold calms. cbn [nth]. destruct (f32_of_Z_ok (t + 1) ltac:(lia)) as (V & F). split; [exact F|]. rewrite V. split; apply IZR_le; lia.
  - destruct C100_case as (_ & (H1 & H2 & H3 & H4 & H5 & H6 & H7) & _). repeat (split; [assumption|]). unfold spectra in *. destruct (f64_of_Z_ok 18 ltac:(lia)) as (Vt & Ft). fold tsamp18 in Vt.
    assert (Vf : (B2R foff3 = - (3 / 1048576))%R). { unfold foff3, B2R, F2R. cbn [Fnum Fexp]. change (cond_Zopp true 6755399441055744) with (-6755399441055744). change (bpow radix2 (-71)) with (/ 2361183241434822606848)%R. lra. }
    rewrite Vt, Vf, Rabs_Ropp, Rabs_pos_eq by lra. lra.
  - intros c Hc. assert (E : map B2R (samples 3 calms c) = [1; 2; 3]%R). { unfold samples. change (zrange 3) with [0; 1; 2]. cbn [map]. unfold calms. cbn [nth]. change (0 + 1) with 1. change (1 + 1) with 2. change (2 + 1) with 3. rewrite !(fun z H => proj1 (f32_of_Z_ok z H)) by lia. reflexivity. }
    rewrite E. split; [lia|]. change (zlen [1; 2; 3]%R) with 3. cbn [rsum]. split; [lra|]. apply Rle_trans with (bpow radix2 0); [apply bpow_le; lia|change (bpow radix2 0) with 1%R; lra].
  - exists (dense [3; 1025], map (fun _ => 0) (zrange 3075)). apply arr_is_dense; [unfold zlen; rewrite map_length; pose proof (zrange_length 3075) as K; unfold zlen in K; change (zprod [3; 1025]) with 3075; lia|].
    intros idx R. apply in_range2 in R as (t & c & -> & Ht & Hc). assert (E : cell (dense [3; 1025]) [t; c] = t * 1025 + c) by (unfold cell, dense; cbn -[Z.mul Z.add]; lia). unfold elt. now rewrite E, znth_map_zrange by lia.
Qed.
