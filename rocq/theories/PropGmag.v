(** Property theorems C109: magnitude flags at the default threshold on a GPU. *)
From Verif Require Import PropGred GredReal GredExact GredKernels GaccRel GvarModel.
From Coq Require Import ZifyBool ZifyNat Lia Permutation Reals Lra Psatz.
From Flocq Require Import Core BinarySingleNaN.
From Verif Require Import DriftFloatProofs FsumFacts FsumProofs FlagProofs NdIndexFacts NdProofs MagProofs PropFlag GaccProofs PropGacc GvarProofs PropGvar GclipModel GclipProofs PropGclip GmagModel.
From Verif Require PropMag GkurtProofs.
Local Open Scope Z_scope.

(** ** What is expected *)
(** A channel on a GPU and its mask of bytes. *)
Definition gpu_channel (sh : list Z) (x : mem f32) (mask : arr Z) (d : list Z -> f32) (m : list Z -> Z) : Prop :=
  posl sh /\ sh <> [] /\ zlen sh <= 4 /\ zprod sh < 2 ^ 31 /\ zlen x = zprod sh /\ (forall idx, in_range sh idx -> elt x (dense sh) idx = Some (d idx)) /\ arr_is mask sh m /\ (forall i, in_range sh i -> byte (m i)).
(** Ten exact standard deviations above the exact mean, C101, and how far the computed limit may be off, C107. *)
Definition ten_deviations (xs : list f32) : R := (rmean xs + 10 * sigma xs)%R.
Definition limit_error (xs : list f32) : R := clip_margin 10 xs.

(** ** The statistics *)
Section Channel.
  Variables (cx cd : bool) (sh : list Z) (x : mem f32) (mask : arr Z) (d : list Z -> f32) (m : list Z -> Z).
  Hypothesis H : gpu_channel sh x mask d m.
  Let l := dense sh.
  Let n := red_factor l [].
  Lemma mag_few : few_outputs x l [].
  Proof. destruct H as (HP & _ & H4 & Hb & Hx & _). exact (stats_few sh x HP H4 Hb Hx). Qed.
  Lemma mag_reads es : (forall idx, In idx es -> in_range sh idx) -> reads x l es (map d es).
  Proof. destruct H as (_ & _ & _ & _ & _ & E & _). intros Hi. unfold reads. induction es as [|i es IH]; constructor; [apply E, Hi; now left|]. apply IH. intros; apply Hi; now right. Qed.
  Lemma scalar_yields {S C} (K : kernel f32 S C f32) (P : list f32 -> f32 -> Prop) :
    gpu_yields K l (dense []) [] x [] (fun out => forall oi es xs, in_range (out_shape [] (l_shape l)) oi -> enumerates (l_shape l) [] oi es -> reads x l es xs -> exists v, out 0 oi = Some v /\ P xs v) ->
    forall (s0 : S) (y0 : f32), (exists v, gpu_scalar K (l, x) v) /\ forall v, gpu_scalar K (l, x) v -> forall xs, PropMag.samples sh d xs -> P xs v.
  Proof.
    intros (gr & L & Y) s0 y0. assert (R0 : in_range (out_shape [] (l_shape l)) [0]) by (repeat constructor; lia). split.
    - specialize (Y (fun _ _ => s0) (fun _ _ => y0)). cbv zeta in Y. destruct Y as (E & Y).
      destruct (GkurtProofs.finishes _ _ _ E) as (c & Rn & D). { intros o Ho. destruct (Y o Ho) as (c' & -> & Q & _). eauto. }
      destruct (Y _ Rn) as (c' & Ec & _ & Q). injection Ec as <-. specialize (Q D).
      destruct (Q [0] (all_indices sh) (map d (all_indices sh)) R0) as (v & Ev & _); [|apply mag_reads; intros idx; now rewrite in_all_indices|].
      { split; [apply all_indices_nodup|]. intros idx. rewrite in_all_indices. cbn [out_index]. tauto. }
      cbn beta in Ev. change (cell (dense (out_shape [] (l_shape l))) [0]) with 0 in Ev.
      exists v, gr. do 2 eexists. exists c. split; [exact L|]. split; [exact Rn|]. split; [exact D|]. destruct (fst c (GOut 0 0)) as [[| | |]|]; try discriminate. now injection Ev as ->.
    - intros v (gr' & jS & jY & c & L' & Rn & D & V) xs (es & ND & In & ->). cbv zeta in *. cbn [fst snd] in *. rewrite L in L'. injection L' as <-. specialize (Y jS jY). cbv zeta in Y. destruct Y as (_ & Y).
      destruct (Y _ Rn) as (c' & Ec & _ & Q). injection Ec as <-. destruct (Q D [0] es (map d es) R0) as (v' & Ev & Pv); [|apply mag_reads; intros idx; apply In|].
      { split; [exact ND|]. intros idx. rewrite In. cbn [out_index]. tauto. }
      cbn beta in Ev. change (cell (dense (out_shape [] (l_shape l))) [0]) with 0 in Ev. rewrite V in Ev. now injection Ev as ->.
  Qed.
  Lemma mag_mean : (exists v, gpu_scalar (gk_mean PropGred.ops32 n) (l, x) v) /\ forall v, gpu_scalar (gk_mean PropGred.ops32 n) (l, x) v -> forall xs, PropMag.samples sh d xs -> in_reach xs -> gpu_mean_of xs v.
  Proof. apply (scalar_yields _ (fun xs v => in_reach xs -> gpu_mean_of xs v) (C102_gpu_mean l (dense []) [] x [] mag_few)); exact (f32_of_Z 0). Qed.
  Lemma mag_dev : (exists v, gpu_scalar (gv_stddev cx cd n) (l, x) v) /\ forall v, gpu_scalar (gv_stddev cx cd n) (l, x) v -> forall xs, PropMag.samples sh d xs -> squares_in_reach xs -> gpu_dev_of xs v.
  Proof. apply (scalar_yields _ (fun xs v => squares_in_reach xs -> gpu_dev_of xs v) (proj2 (C103_gpu_var_stddev cx cd l (dense []) [] x [] mag_few))); [exact (f32_of_Z 0, f32_of_Z 0)|exact (f32_of_Z 0)]. Qed.
  Lemma mag_count xs : PropMag.samples sh d xs -> zlen xs = zprod sh.
  Proof.
    destruct H as (HP & _). intros (es & ND & In & ->). assert (P : Permutation es (all_indices sh)) by (apply NoDup_Permutation; auto using all_indices_nodup; intros idx; rewrite In, in_all_indices; tauto).
    apply Permutation_length in P. unfold zlen. rewrite map_length, P, all_indices_digits by exact HP. rewrite map_length. pose proof (zrange_length (zprod sh)) as K. pose proof (zprod_posl sh HP). unfold zlen in K. lia.
  Qed.
End Channel.
Lemma ten_is_upper mean s : is_finite s = true -> (0 <= B2R s <= bpow radix2 62)%R -> ten_sigma mean s = Bplus mode_NE mean (Bmult mode_NE s (f32_of_Z 10)).
Proof.
  intros Fs B. unfold ten_sigma. f_equal. destruct (f32_of_Z_ok 10 ltac:(lia)) as (V & F).
  assert (Hb : (Rabs (B2R s * 10) <= bpow radix2 127)%R). { rewrite Rabs_pos_eq by lra. apply Rle_trans with (bpow radix2 66); [|apply bpow_le; lia]. replace (bpow radix2 66) with (bpow radix2 62 * 16)%R by (change 16%R with (bpow radix2 4); rewrite <- bpow_plus; reflexivity). pose proof (bpow_gt_0 radix2 62). lra. }
  destruct (KurtProofs.mult_ok s (f32_of_Z 10) Fs F) as (F1 & V1); [now rewrite V|]. destruct (KurtProofs.mult_ok (f32_of_Z 10) s F Fs) as (F2 & V2); [rewrite V, Rmult_comm; exact Hb|].
  apply B2R_Bsign_inj; auto. { now rewrite V1, V2, Rmult_comm. }
  pose proof (Bmult_correct 24 128 eq_refl eq_refl mode_NE s (f32_of_Z 10)) as C1. pose proof (Bmult_correct 24 128 eq_refl eq_refl mode_NE (f32_of_Z 10) s) as C2.
  destruct (Rlt_bool _ _) in C1; [|exfalso; destruct (Bmult mode_NE s (f32_of_Z 10)); cbn in C1, F1; discriminate].
  destruct (Rlt_bool _ _) in C2; [|exfalso; destruct (Bmult mode_NE (f32_of_Z 10) s); cbn in C2, F2; discriminate].
  destruct C1 as (_ & _ & C1). destruct C2 as (_ & _ & C2). 
  assert (N1 : is_nan (Bmult mode_NE s (f32_of_Z 10)) = false) by (clear - F1; destruct (Bmult mode_NE s (f32_of_Z 10)); auto; discriminate). assert (N2 : is_nan (Bmult mode_NE (f32_of_Z 10) s) = false) by (clear - F2; destruct (Bmult mode_NE (f32_of_Z 10) s); auto; discriminate).
  exact (eq_trans (C2 N2) (eq_trans (xorb_comm _ _) (eq_sym (C1 N1)))).
Qed.

(** ** The flags *)
Section Limit.
  Variables (cx cd : bool) (sh : list Z) (x : mem f32) (mask : arr Z) (d : list Z -> f32) (m : list Z -> Z).
  Hypothesis H : gpu_channel sh x mask d m.
  Lemma limit_close mean s xs : PropMag.samples sh d xs -> squares_in_reach xs ->
    gpu_scalar (gk_mean PropGred.ops32 (red_factor (dense sh) [])) (dense sh, x) mean -> gpu_scalar (gv_stddev cx cd (red_factor (dense sh) [])) (dense sh, x) s ->
    is_finite (ten_sigma mean s) = true /\ (Rabs (B2R (ten_sigma mean s) - ten_deviations xs) <= limit_error xs)%R.
  Proof.
    intros Hx Sq Rm Rs. pose proof (mag_count sh x mask d m H xs Hx) as Nx. pose proof H as (HP & _ & _ & Hb & _). pose proof (zprod_posl sh HP) as P1. assert (L1 : 1 <= zlen xs) by lia.
    assert (Re : in_reach xs) by (apply squarable_addable; [exact Sq|lia]).
    pose proof (proj2 (mag_mean sh x mask d m H) mean Rm xs Hx Re) as Gm. pose proof (proj2 (mag_dev cx cd sh x mask d m H) s Rs xs Hx Sq) as Gs.
    destruct (f32_of_Z_ok 10 ltac:(lia)) as (V & F). destruct (upper_close xs mean s L1 Sq Gm Gs (f32_of_Z 10) F) as (U1 & U2); [rewrite V; split; [lra|]; apply Rle_trans with (bpow radix2 4); [change (bpow radix2 4) with 16%R; lra|apply bpow_le; lia]|].
    rewrite V in U2. assert (E : ten_sigma mean s = Bplus mode_NE mean (Bmult mode_NE s (f32_of_Z 10))); [|rewrite E; split; [exact U1|exact U2]].
    apply ten_is_upper; [exact (proj1 Gs)|]. split; [exact (proj1 (proj2 Gs))|].
    destruct Gs as (_ & S0 & E). destruct (mean_bounds xs Sq L1) as (_ & _ & _ & (Q0 & Q1) & V0 & V1). apply Rabs_le_inv in E. unfold var_margin in E.
    assert (S2 : (B2R s * B2R s <= bpow radix2 124)%R).
    { assert (T : (bpow radix2 (-135) <= bpow radix2 122)%R) by (apply bpow_le; lia). replace (bpow radix2 124) with (4 * bpow radix2 122)%R by (change 4%R with (bpow radix2 2); rewrite <- bpow_plus; reflexivity). pose proof (bpow_gt_0 radix2 122). lra. }
    apply sqrt_le_1_alt in S2. rewrite sqrt_square in S2 by exact S0. replace (bpow radix2 124) with (bpow radix2 62 * bpow radix2 62)%R in S2 by (rewrite <- bpow_plus; reflexivity). rewrite sqrt_square in S2 by apply bpow_ge_0. exact S2.
  Qed.
End Limit.
(** C109: every execution ends with flags on the samples clearly above ten deviations and none on the samples clearly below. *)
Theorem C109_gpu_magnitude_flags : forall cx cd junk sh x mask d m xs, gpu_channel sh x mask d m -> PropMag.samples sh d xs -> squares_in_reach xs ->
  (exists o, gpu_flag_magnitude cx cd junk (dense sh, x) mask o) /\
  forall o, gpu_flag_magnitude cx cd junk (dense sh, x) mask o -> exists r g, o = Ok r /\ arr_is r sh g /\ forall i, in_range sh i ->
    ((B2R (d i) <= ten_deviations xs - limit_error xs)%R -> g i = m i) /\
    ((ten_deviations xs + limit_error xs < B2R (d i))%R -> Z.testbit (m i) 4 = false -> g i = Z.lor (m i) 16).
Proof.
  intros cx cd junk sh x mask d m xs H Hx Sq. split.
  - destruct (mag_mean sh x mask d m H) as ((a & Ra) & _). destruct (mag_dev cx cd sh x mask d m H) as ((s & Rs) & _). eexists. exists a, s. split; [exact Ra|]. split; [exact Rs|reflexivity].
  - intros o (a & s & Ra & Rs & ->). cbn [fst] in Ra, Rs. destruct (limit_close cx cd sh x mask d m H a s xs Hx Sq Ra Rs) as (Ft & B). set (t := ten_sigma a s) in *. clearbody t. apply Rabs_le_inv in B.
    pose proof H as (HP & Ne & _ & Hb & Lx & E & Am & By).
    destruct (C48_magnitude_sets_its_bit _ gt32 junk (dense sh, x) mask sh d m t (arr_is_dense sh x d Lx E) Am By HP Ne Hb) as (r & g & Er & Hr & Hg). exists r, g. split; [exact Er|]. split; [exact Hr|].
    intros i R. destruct (Hg i R) as (G1 & G2).
    assert (Fd : is_finite (d i) = true). { destruct Hx as (es & _ & In & Ex). destruct Sq as (Sq & _). rewrite Ex in Sq. rewrite Forall_forall in Sq. apply Sq, in_map, In, R. }
    pose proof (PropMag.gt32_spec (d i) t Fd Ft) as C. split.
    + intros K. apply G1. destruct (gt32 (d i) t) eqn:G; [|reflexivity]. pose proof (proj1 C eq_refl). lra.
    + intros K. apply G2. apply C. lra.
Qed.
Print Assumptions C109_gpu_magnitude_flags.

(** ** What the limit reaches *)
(** Deviations that are not small against the samples: at least a sixteenth of their root mean square. *)
Definition spread_out (xs : list f32) : Prop := (/ 16 * rms xs + bpow radix2 (-60) <= sigma xs)%R.
Lemma spread_error xs : (1 <= zlen xs) -> squares_in_reach xs -> spread_out xs -> (0 < sigma xs /\ 0 <= limit_error xs <= / 20 * sigma xs)%R.
Proof.
  intros Hn Sq Hs. unfold spread_out in Hs. pose proof (bpow_gt_0 radix2 (-60)) as b0. assert (r0 : (0 <= rms xs)%R) by apply sqrt_pos. assert (s0 : (0 < sigma xs)%R) by lra. split; [exact s0|].
  destruct (mean_bounds xs Sq Hn) as (_ & _ & _ & (Q0 & _) & _). assert (rr : (rms xs * rms xs = mean_square xs)%R) by now apply sqrt_sqrt.
  assert (V0 : (0 < var_margin xs)%R) by (unfold var_margin; pose proof (bpow_gt_0 radix2 (-135)); lra).
  assert (Dv : (0 <= dev_error xs <= var_margin xs / sigma xs)%R).
  { unfold dev_error. assert (M : (sigma xs <= Rmax (sigma xs) (sqrt (var_margin xs)))%R) by apply Rmax_l. split; [apply Rmult_le_pos; [lra|]; apply Rlt_le, Rinv_0_lt_compat; lra|]. apply Rmult_le_compat_l; [lra|]. apply Rinv_le; lra. }
  assert (Vs : (var_margin xs <= 21 / 10000 * sigma xs * sigma xs)%R).
  { unfold var_margin. rewrite <- rr. assert (T : (bpow radix2 (-135) <= / 32768 * (bpow radix2 (-60) * bpow radix2 (-60)))%R) by (change (/ 32768)%R with (bpow radix2 (-15)); rewrite <- !bpow_plus; apply bpow_le; lia).
    set (r := rms xs) in *. set (g := sigma xs) in *. set (b := bpow radix2 (-60)) in *. clearbody r g b. assert (r <= 16 * g)%R by lra. assert (r * r <= 16 * g * (16 * g))%R by (apply Rmult_le_compat; lra). assert (b * b <= g * g)%R by (apply Rmult_le_compat; lra). lra. }
  assert (D2 : (dev_error xs <= 21 / 10000 * sigma xs)%R).
  { eapply Rle_trans; [apply Dv|]. apply Rmult_le_reg_r with (sigma xs); [exact s0|]. unfold Rdiv at 1. rewrite Rmult_assoc, Rinv_l, Rmult_1_r by lra. exact Vs. }
  assert (T : (bpow radix2 (-88) <= / 1000000 * bpow radix2 (-60))%R). { apply Rle_trans with (bpow radix2 (-20) * bpow radix2 (-60))%R; [rewrite <- bpow_plus; apply bpow_le; lia|]. apply Rmult_le_compat_r; [lra|]. change (bpow radix2 (-20)) with (/ 1048576)%R. lra. }
  pose proof (bpow_gt_0 radix2 (-88)). unfold limit_error, clip_margin. destruct Dv as (D0 & _). split; lra.
Qed.
(** C109: "an outlier of a channel is flagged, whatever the channel" is false of a GPU too: with at most 100 samples no flag is added. *)
Theorem C109_small_channels_refuted : forall cx cd junk sh x mask d m xs, gpu_channel sh x mask d m -> PropMag.samples sh d xs -> squares_in_reach xs -> zprod sh <= 100 -> spread_out xs ->
  forall o, gpu_flag_magnitude cx cd junk (dense sh, x) mask o -> exists r g, o = Ok r /\ arr_is r sh g /\ forall i, in_range sh i -> g i = m i.
Proof.
  intros cx cd junk sh x mask d m xs H Hx Sq Hn Hs o Ho. destruct (C109_gpu_magnitude_flags cx cd junk sh x mask d m xs H Hx Sq) as (_ & K). destruct (K o Ho) as (r & g & E & Hr & Hg). exists r, g. split; [exact E|]. split; [exact Hr|].
  intros i R. apply (proj1 (Hg i R)). pose proof (mag_count sh x mask d m H xs Hx) as Nx. pose proof H as (HP & _). pose proof (zprod_posl sh HP) as P1. assert (L1 : 1 <= zlen xs) by lia.
  destruct (spread_error xs L1 Sq Hs) as (s0 & _ & Le). assert (Hi : In (d i) xs) by (destruct Hx as (es & _ & In & ->); apply in_map, In, R). pose proof (furthest xs (d i) Hi) as F. unfold ten_deviations.
  destruct (mean_bounds xs Sq L1) as (_ & _ & _ & _ & V0). assert (SS : (sigma xs * sigma xs = variance xs)%R) by (apply sqrt_sqrt, V0). rewrite <- SS in F. set (sg := sigma xs) in *.
  assert (NR : (INR (length xs) <= 100)%R) by (rewrite INR_IZR_INZ; apply IZR_le; unfold zlen in Nx; lia).
  assert (D : (B2R (d i) - rmean xs <= 995 / 100 * sg)%R).
  { set (e := (B2R (d i) - rmean xs)%R) in *. clearbody e sg. destruct (Rle_lt_dec e (995 / 100 * sg)) as [L|L]; [exact L|exfalso]. assert (e * e <= 99 * (sg * sg))%R by (eapply Rle_trans; [exact F|]; apply Rmult_le_compat_r; nra). nra. }
  lra.
Qed.
Print Assumptions C109_small_channels_refuted.
(** Among 128 or more it is: one sample above the others, which are equal. *)
Theorem C109_lone_sample : forall cx cd junk sh x mask d m xs i0 c, gpu_channel sh x mask d m -> PropMag.samples sh d xs -> squares_in_reach xs -> 128 <= zprod sh ->
  in_range sh i0 -> (forall i, in_range sh i -> i <> i0 -> d i = c) -> (B2R c < B2R (d i0))%R -> (limit_error xs <= sigma xs)%R -> Z.testbit (m i0) 4 = false ->
  forall o, gpu_flag_magnitude cx cd junk (dense sh, x) mask o -> exists r g, o = Ok r /\ arr_is r sh g /\ g i0 = Z.lor (m i0) 16 /\ forall i, in_range sh i -> i <> i0 -> g i = m i.
Proof.
  intros cx cd junk sh x mask d m xs i0 c H Hx Sq Hn R0 Hc Lt Tol Bit o Ho. destruct (C109_gpu_magnitude_flags cx cd junk sh x mask d m xs H Hx Sq) as (_ & K0). destruct (K0 o Ho) as (r & g & E & Hr & Hg). clear K0. exists r, g. split; [exact E|]. split; [exact Hr|].
  pose proof (mag_count sh x mask d m H xs Hx) as Nx. rewrite <- Nx in Hn.
  destruct (PropMag.lone_perm sh d xs i0 c Hx R0 Hc) as (k & P). destruct (stats_perm _ _ P) as (A & _ & _ & V & L). cbn [length] in L. rewrite repeat_length in L. unfold ten_deviations in Hg. rewrite A in Hg.
  assert (K : 127 <= Z.of_nat k) by (unfold zlen in Hn; lia). assert (N : (127 <= INR k)%R) by (rewrite INR_IZR_INZ; apply IZR_le; exact K).
  assert (M : rmean (d i0 :: repeat c k) = ((B2R (d i0) + INR k * B2R c) / (INR k + 1))%R).
  { unfold rmean. cbn [length]. rewrite repeat_length, S_INR. f_equal. pose proof (PropMag.repeat_rsum c (fun x => x) k) as Q. rewrite map_id in Q. change (vals (d i0 :: repeat c k)) with (B2R (d i0) :: vals (repeat c k)). rewrite FsumFacts.rsum_cons, Q. reflexivity. }
  set (a := B2R (d i0)) in *. set (b := B2R c) in *. set (n := INR k) in *.
  assert (VV : variance (d i0 :: repeat c k) = (n * ((a - b) / (n + 1)) * ((a - b) / (n + 1)))%R).
  { unfold variance. rewrite M. unfold mean_square. cbn [length]. rewrite repeat_length, S_INR. change (vals (d i0 :: repeat c k)) with (a :: vals (repeat c k)). cbn [map]. rewrite FsumFacts.rsum_cons, (PropMag.repeat_rsum c (fun x => x * x)%R). fold n b. field. lra. }
  unfold sigma in *. rewrite V in *. set (v := ((a - b) / (n + 1))%R) in *. assert (v0 : (0 < v)%R) by (unfold v; apply Rdiv_lt_0_compat; lra).
  assert (SG : sqrt (variance (d i0 :: repeat c k)) = (sqrt n * v)%R). { rewrite VV, Rmult_assoc, sqrt_mult by nra. f_equal. apply sqrt_square. lra. }
  rewrite SG in *. assert (W : (sqrt n * sqrt n = n)%R) by (apply sqrt_sqrt; lra). assert (W1 : (112 / 10 <= sqrt n)%R). { rewrite <- (sqrt_square (112 / 10)) by lra. apply sqrt_le_1_alt. lra. }
  assert (EA : (a - rmean (d i0 :: repeat c k) = n * v)%R) by (rewrite M; unfold v; field; lra). assert (EB : (b - rmean (d i0 :: repeat c k) = - v)%R) by (rewrite M; unfold v; field; lra).
  set (mu := rmean (d i0 :: repeat c k)) in *. set (w := sqrt n) in *. set (le := limit_error xs) in *. clearbody mu w v le. split.
  - apply (proj2 (Hg i0 R0)); [|exact Bit]. assert (a = mu + w * w * v)%R by (rewrite W; lra). fold a. nra.
  - intros i R Ni. apply (proj1 (Hg i R)). rewrite (Hc i R Ni). fold b. nra.
Qed.
Print Assumptions C109_lone_sample.
(** The hypotheses hold of the channels of C101's cases: 8 spectra of 16 channels, dark but for the first sample, and 2 spectra of 3. *)
Lemma spike_channel sh n : sh = [8; 16] /\ n = 127%nat \/ sh = [2; 3] /\ n = 5%nat -> gpu_channel sh (PropMag.spiked n) (dense sh, repeat 0 (S n)) PropMag.spike PropMag.clean.
Proof.
  intros K. destruct (PropMag.spiked_elt sh n K) as ((_ & _ & _ & E) & Am & By & HP & Ne & Hb & _). cbn [fst snd] in E.
  split; [exact HP|]. split; [exact Ne|]. split; [destruct K as [(-> & _)|(-> & _)]; vm_compute; discriminate|]. split; [exact Hb|]. split; [|split; [exact E|]; split; [exact Am|exact By]].
  destruct K as [(-> & ->)|(-> & ->)]; reflexivity.
Qed.
Example C109_case : forall sh n, sh = [8; 16] /\ n = 127%nat \/ sh = [2; 3] /\ n = 5%nat ->
  gpu_channel sh (PropMag.spiked n) (dense sh, repeat 0 (S n)) PropMag.spike PropMag.clean /\ exists xs, PropMag.samples sh PropMag.spike xs /\ squares_in_reach xs /\ spread_out xs /\ (limit_error xs <= sigma xs)%R /\
    (n = 127%nat -> 128 <= zprod sh /\ (ten_deviations xs + limit_error xs < B2R (PropMag.spike [0%Z; 0%Z]))%R) /\ (n = 5%nat -> zprod sh <= 100).
Proof.
  intros sh n K. pose proof (spike_channel sh n K) as H. split; [exact H|]. destruct (PropMag.have_samples _ _ _ _ _ (PropMag.spiked_elt sh n K)) as (xs & Hx). exists xs. split; [exact Hx|].
  pose proof (PropMag.spike_count sh n xs K Hx) as L. assert (R0 : in_range sh [0; 0]) by (destruct K as [(-> & _)|(-> & _)]; apply in_range2i; lia).
  destruct (PropMag.spike_stats sh n xs R0 Hx L) as (Q & V & N). assert (Nn : (INR n = 127 \/ INR n = 5)%R) by (destruct K as [(_ & ->)|(_ & ->)]; [left|right]; rewrite INR_IZR_INZ; reflexivity).
  assert (Sq : squares_in_reach xs).
  { destruct (PropMag.all_samples _ _ _ _ _ (PropMag.spiked_elt sh n K) xs Hx) as (Sm & _). split; [eapply Forall_impl; [|exact Sm]; cbn; tauto|].
    assert (E : rsum (map (fun x => x * x)%R (map (@B2R 24 128) xs)) = (mean_square xs * INR (length xs))%R).
    { unfold mean_square, vals. field. destruct Nn as [Nn|Nn]; rewrite N; lra. }
    rewrite E, Q, N. apply Rle_trans with (bpow radix2 12); [|apply bpow_le; lia]. change (bpow radix2 12) with 4096%R. apply Req_le. field. clear - Nn. lra. }
  assert (B : (bpow radix2 (-60) <= / 100)%R) by (apply Rle_trans with (bpow radix2 (-7)); [apply bpow_le; lia|change (bpow radix2 (-7)) with (/ 128)%R; lra]).
  assert (Sp : spread_out xs).
  { unfold spread_out, rms, sigma. rewrite Q, V. assert (S1 : (1 <= sqrt (4096 / (INR n + 1) - 64 / (INR n + 1) * (64 / (INR n + 1))))%R).
    { rewrite <- sqrt_1 at 1. apply sqrt_le_1_alt. destruct Nn as [-> | ->]; lra. }
    assert (S2 : (sqrt (4096 / (INR n + 1)) <= 2 * sqrt (4096 / (INR n + 1) - 64 / (INR n + 1) * (64 / (INR n + 1))))%R).
    { rewrite <- (sqrt_square 2) at 1 by lra. rewrite <- sqrt_mult; [|lra|destruct Nn as [-> | ->]; lra]. apply sqrt_le_1_alt. destruct Nn as [-> | ->]; lra. }
    lra. }
  destruct (spread_error xs ltac:(lia) Sq Sp) as (s0 & L0 & Le). split; [exact Sq|]. split; [exact Sp|]. split; [lra|]. split.
  - intros ->. destruct K as [(-> & _)|(_ & K)]; [|discriminate]. split; [vm_compute; discriminate|]. change (PropMag.spike [0; 0]) with (f32_of_Z 64). rewrite (proj1 (f32_of_Z_ok 64 ltac:(lia))). unfold ten_deviations.
    assert (S1 : (sigma xs <= 58 / 10)%R). { unfold sigma. rewrite V. rewrite <- (sqrt_square (58 / 10)) by lra. apply sqrt_le_1_alt. destruct Nn as [-> |Nn]; [lra|]. rewrite INR_IZR_INZ in Nn. apply eq_IZR in Nn. discriminate. }
    assert (Mr : (rmean xs <= 1)%R). { destruct (mean_bounds xs Sq ltac:(lia)) as (_ & _ & _ & _ & _). unfold variance in V. rewrite Q in V. assert (Em : (rmean xs * rmean xs = 64 / (INR 127 + 1) * (64 / (INR 127 + 1)))%R) by lra. replace (INR 127) with 127%R in Em by (rewrite INR_IZR_INZ; reflexivity). apply Rnot_lt_le. intros Lt. nra. }
    lra.
  - intros ->. destruct K as [(_ & K)|(-> & _)]; [discriminate|]. vm_compute. discriminate.
Qed.
