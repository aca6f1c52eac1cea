(** Property theorems C107: sigma clipping on a GPU. *)
From Verif Require Import PropGred GredReal GredExact GredKernels GaccRel GvarModel.
From Coq Require Import ZifyBool ZifyNat Lia Permutation Reals Lra Psatz.
From Flocq Require Import Core BinarySingleNaN.
From Verif Require Import DriftFloatProofs FsumFacts FsumProofs GaccProofs PropGacc GvarProofs PropGvar GclipModel GclipProofs FlagProofs FlagProofs2 NdIndexFacts NdProofs RedProofs3.
Local Open Scope Z_scope.

(** ** Channels *)
(** C107: with at least one round the call is undefined behaviour on every array of two to four axes, so on every channel; the statistics before it do end. *)
Section Grid.
  Variables (cx cd : bool) (sh : list Z) (x : mem f32).
  Hypothesis HP : posl sh.
  Hypothesis H4 : zlen sh <= 4.
  Hypothesis Hb : zprod sh < 2 ^ 31.
  Hypothesis Hx : zlen x = zprod sh.
  Let f (idx : list Z) : f32 := match elt x (dense sh) idx with Some v => v | None => f32_of_Z 0 end.
  Let Hf : forall idx, in_range sh idx -> elt x (dense sh) idx = Some (f idx).
  Proof. intros idx R. unfold f. assert (E : exists v, elt x (dense sh) idx = Some v) by (apply znth_some; rewrite Hx; now apply dense_inside). destruct E as (v & ->). reflexivity. Qed.
  Let Hm : mask_ok (dense sh) (dense sh) (zero_bytes sh).
  Proof.
    split; [apply dense_wf|]. split; [reflexivity|]. split; [apply Forall_map, Forall_forall; reflexivity|]. intros idx R. pose proof (dense_inside sh idx R) as B. pose proof (zprod_posl sh HP) as P.
    assert (L : zlen (zero_bytes sh) = 4 * zprod sh); [|lia]. unfold zero_bytes, zlen. rewrite map_length. pose proof (zrange_length (4 * zprod sh)) as K. unfold zlen in K. lia.
  Qed.
  Lemma first_stats : exists m s, gpu_stats cx cd (dense sh, x) (dense sh, zero_bytes sh) m s.
  Proof. exact (stats_exist cx cd sh x f (dense sh) (zero_bytes sh) HP H4 Hb Hx Hf Hm). Qed.
End Grid.
Theorem C107_channels_undefined_refuted : forall cx cd junk jz sh x mask max_iter low high,
  posl sh -> 2 <= zlen sh <= 4 -> zprod sh < 2 ^ 31 -> zlen x = zprod sh -> 1 <= max_iter ->
  (exists o, gpu_sigmaclip cx cd junk jz (dense sh, x) mask max_iter low high o) /\
  (forall o, gpu_sigmaclip cx cd junk jz (dense sh, x) mask max_iter low high o -> o = UB).
Proof.
  intros cx cd junk jz sh x mask max_iter low high HP (H2 & H4) Hb Hx Hi.
  assert (Ei : exists k, Z.to_nat max_iter = S k) by (exists (Z.to_nat (max_iter - 1)); lia). destruct Ei as (k & Ei). split.
  - destruct (first_stats cx cd sh x HP H4 Hb Hx) as (m & s & St). exists UB, UB. split; [|reflexivity]. exists m, s, UB. change (l_shape (fst (dense sh, x))) with sh. split; [exact St|]. split; [|reflexivity]. rewrite Ei. apply clip_ub, rfi_grid, H2.
  - intros o (o1 & (m & s & o2 & _ & L & ->) & ->). rewrite Ei in L. inversion L; subst;
      match goal with H : clip_rfi _ _ _ _ _ _ _ = _ |- _ => rewrite rfi_grid in H by exact H2; try discriminate H end. reflexivity.
Qed.
Print Assumptions C107_channels_undefined_refuted.
(** Without a round no flag is added. *)
Theorem C107_no_rounds : forall cx cd junk jz T N x mask m max_iter low high,
  1 <= T -> 1 <= N -> T * N < 2 ^ 31 -> zlen x = T * N -> arr_is mask [T; N] m -> (forall i, in_range [T; N] i -> byte (m i)) -> max_iter <= 0 ->
  (exists o, gpu_sigmaclip cx cd junk jz (dense [T; N], x) mask max_iter low high o) /\
  (forall o, gpu_sigmaclip cx cd junk jz (dense [T; N], x) mask max_iter low high o -> exists r, o = Ok r /\ arr_is r [T; N] m).
Proof.
  intros cx cd junk jz T N x mask m max_iter low high HT HN Hb Hx Am Hy Hi. assert (Ez : zprod [T; N] = T * N) by (change (zprod [T; N]) with (T * (N * 1)); lia).
  assert (HP : posl [T; N]) by (repeat constructor; lia). assert (Ei : Z.to_nat max_iter = 0%nat) by lia. split.
  - destruct (first_stats cx cd [T; N] x HP) as (a & s & St); [unfold zlen; cbn; lia|lia|lia|]. eexists _, _. split; [|reflexivity]. exists a, s, (Ok (dense [T; N], map (fun _ => 0) (zrange (zprod [T; N])))). split; [exact St|]. split; [|reflexivity]. rewrite Ei. apply clip_over.
  - intros o (o1 & (a & s & o2 & _ & L & ->) & ->). rewrite Ei in L. inversion L; subst. cbn [obind]. change (l_shape (fst (dense [T; N], x))) with [T; N].
    assert (Az : arr_is (dense [T; N], map (fun _ => 0) (zrange (zprod [T; N]))) [T; N] (fun _ => 0)).
    { apply arr_is_dense; [unfold zlen; rewrite map_length; pose proof (zrange_length (zprod [T; N])) as K; unfold zlen in K; lia|]. intros idx R. unfold elt. pose proof (dense_inside [T; N] idx R). now rewrite znth_map_zrange by lia. }
    unfold scale_flags. destruct (scalar_is u8_mul jz _ [T; N] _ SIGMA_CLIP Az) as (r1 & E1 & _ & _ & A1); [split; [repeat constructor; lia|lia]|]. cbn [fst snd] in E1 |- *. rewrite E1. cbn [obind]. unfold add_flags.
    destruct (same_shape_is u8_add jz mask r1 [T; N] _ _ Am A1) as (r & E & _ & _ & A); [exact HP|discriminate|lia|]. exists r. split; [exact E|]. eapply arr_is_ext; [|exact A]. intros idx R. specialize (Hy idx R). unfold byte in Hy. cbn beta. unfold u8_mul, u8_add, to_uint8. rewrite Z.mul_0_l, Z.mod_0_l, Z.add_0_r by lia. apply Z.mod_small. lia.
Qed.
Print Assumptions C107_no_rounds.

(** ** Arrays of one axis *)
Section Rounds.
  Variables (n : Z) (S : Z -> f32) (low high : f32).
  (** The flags after [k] rounds: each round takes the statistics of the samples its predecessor left and flags, among all samples, those outside the bounds. *)
  Inductive rounds : nat -> (Z -> Z) -> Prop :=
  | no_round : rounds 0 (fun _ => 0)
  | next_round k F m s : rounds k F -> stats_of (left n S F) m s -> rounds (Datatypes.S k) (fun i => outside m s low high (S i)).
  (** The last round changed mean and deviation by less than 1e-6, up to the rounding of the difference. *)
  Definition settled (k : nat) (F : Z -> Z) : Prop := exists j F0 m s m' s', k = Datatypes.S j /\ rounds j F0 /\ stats_of (left n S F0) m s /\ F = (fun i => outside m s low high (S i)) /\ stats_of (left n S F) m' s' /\
    f32lt (Babs (Bminus mode_NE m' m)) eps32 = true /\ f32lt (Babs (Bminus mode_NE s' s)) eps32 = true.
End Rounds.
Section Line.
  Variables (cx cd : bool) (junk : Z -> f32) (jz : Z -> Z) (n : Z) (x : mem f32) (S : Z -> f32) (low high : f32).
  Hypothesis Hn : 1 <= n < 2 ^ 31.
  Hypothesis Hx : zlen x = n.
  Hypothesis HS : forall i, 0 <= i < n -> znth x i = Some (S i).
  Let data := (dense [n], x).
  Lemma loop_exists : forall k m s rfi, exists o, clip_loop cx cd junk jz data low high k m s rfi o.
  Proof.
    induction k as [|k IH]; intros m s rfi; [eexists; apply clip_over|]. destruct (rfi_line junk jz n x S low high Hn Hx HS m s) as (r & E & Lr & V).
    destruct (line_stats cx cd junk jz n x S Hn Hx HS r (fun i => outside m s low high (S i)) ltac:(lia) V) as ((m' & s' & St) & _). destruct (small_change m m' && small_change s s') eqn:Ec.
    - eexists. eapply clip_settled; eassumption.
    - destruct (IH m' s' (dense [n], r)) as (o & Ho). exists o. eapply clip_again; eassumption.
  Qed.
  Lemma loop_is : forall k m s rfi o, clip_loop cx cd junk jz data low high k m s rfi o -> forall j F r, rfi = (dense [n], r) -> zlen r = n -> (forall i, 0 <= i < n -> znth r i = Some (F i)) -> rounds n S low high j F -> stats_of (left n S F) m s ->
    exists j' F' r', (j <= j' <= j + k)%nat /\ (k <> 0%nat -> (j < j')%nat) /\ rounds n S low high j' F' /\ o = Ok (dense [n], r') /\ zlen r' = n /\ (forall i, 0 <= i < n -> znth r' i = Some (F' i)) /\ ((j' < j + k)%nat -> settled n S low high j' F').
  Proof.
    induction 1 as [m s rfi|k m s rfi e H|k m s rfi H|k m s rfi rfi' m' s' H St Ec|k m s rfi rfi' m' s' o H St Ec HL IH]; intros j F r -> Lr V HR Hs.
    - exists j, F, r. split; [lia|]. split; [easy|]. split; [exact HR|]. split; [reflexivity|]. split; [exact Lr|]. split; [exact V|]. lia.
    - exfalso. destruct (rfi_line junk jz n x S low high Hn Hx HS m s) as (r' & E & _). unfold data in H. rewrite E in H. discriminate.
    - exfalso. destruct (rfi_line junk jz n x S low high Hn Hx HS m s) as (r' & E & _). unfold data in H. rewrite E in H. discriminate.
    - destruct (rfi_line junk jz n x S low high Hn Hx HS m s) as (r' & E & Lr' & V'). unfold data in H. rewrite E in H. injection H as <-.
      destruct (line_stats cx cd junk jz n x S Hn Hx HS r' (fun i => outside m s low high (S i)) ltac:(lia) V') as (_ & K). specialize (K m' s' St). apply andb_prop in Ec as (C1 & C2).
      exists (Datatypes.S j), (fun i => outside m s low high (S i)), r'. split; [lia|]. split; [lia|]. split; [now apply (next_round n S low high j F m s)|]. split; [reflexivity|]. split; [exact Lr'|]. split; [exact V'|].
      intros _. exists j, F, m, s, m', s'. split; [reflexivity|]. split; [exact HR|]. split; [exact Hs|]. split; [reflexivity|]. split; [exact K|]. split; [exact C1|exact C2].
    - destruct (rfi_line junk jz n x S low high Hn Hx HS m s) as (r' & E & Lr' & V'). unfold data in H. rewrite E in H. injection H as <-.
      destruct (line_stats cx cd junk jz n x S Hn Hx HS r' (fun i => outside m s low high (S i)) ltac:(lia) V') as (_ & K). specialize (K m' s' St).
      destruct (IH (Datatypes.S j) (fun i => outside m s low high (S i)) r' eq_refl Lr' V' (next_round n S low high j F m s HR Hs) K) as (j' & F' & r2 & B & B' & R2 & E2 & L2 & V2 & Q).
      exists j', F', r2. split; [lia|]. split; [lia|]. split; [exact R2|]. split; [exact E2|]. split; [exact L2|]. split; [exact V2|]. intros Hj. apply Q. lia.
  Qed.
End Line.
Lemma scale_line jz n r F : 1 <= n < 2 ^ 31 -> zlen r = n -> (forall i, 0 <= i < n -> znth r i = Some (F i)) -> (forall i, 0 <= F i <= 2) ->
  exists r2, scale_flags jz (dense [n], r) SIGMA_CLIP = Ok (dense [n], r2) /\ zlen r2 = n /\ forall i, 0 <= i < n -> znth r2 i = Some (32 * F i).
Proof.
  intros Hn Lr V HF. assert (Ez : zprod [n] = n) by (change (zprod [n]) with (n * 1); lia). unfold scale_flags.
  destruct (scalar_is u8_mul jz (dense [n], r) [n] (fun i => F (nth 0 i 0)) SIGMA_CLIP) as ([l2 r2] & E2 & D2 & L2 & A2).
  { apply arr_is_dense; [lia|]. intros idx Ri. apply in_range1 in Ri as (i & -> & Hi'). unfold elt. rewrite line_cell. now apply V. }
  { split; [repeat constructor; lia|lia]. }
  cbn [fst snd] in *. subst l2. rewrite E2. exists r2. split; [reflexivity|]. split; [lia|].
  intros i Hi'. destruct A2 as (_ & _ & _ & A2). specialize (A2 [i] ltac:(apply in_range1; eauto)). unfold elt in A2. cbn [fst snd] in A2. rewrite line_cell in A2. rewrite A2. cbn [nth]. unfold u8_mul, to_uint8, SIGMA_CLIP. specialize (HF i). f_equal. rewrite Z.mod_small by lia. lia.
Qed.
(** C107: on an array of one axis every execution ends with flags of at most [max_iter] rounds, at least one, and fewer only if the last one changed nothing much. *)
Theorem C107_lines : forall cx cd junk jz n x S max_iter low high,
  1 <= n < 2 ^ 31 -> zlen x = n -> (forall i, 0 <= i < n -> znth x i = Some (S i)) -> 0 <= max_iter ->
  (exists o, gpu_sigmaclip_array cx cd junk jz (dense [n], x) max_iter low high o) /\
  (forall o, gpu_sigmaclip_array cx cd junk jz (dense [n], x) max_iter low high o ->
    exists k F r, Z.of_nat k <= max_iter /\ (1 <= max_iter -> 1 <= Z.of_nat k) /\ rounds n S low high k F /\ (Z.of_nat k < max_iter -> settled n S low high k F) /\
      o = Ok (dense [n], r) /\ zlen r = n /\ forall i, 0 <= i < n -> znth r i = Some (32 * F i)).
Proof.
  intros cx cd junk jz n x S max_iter low high Hn Hx HS Hi. assert (Ez : zprod [n] = n) by (change (zprod [n]) with (n * 1); lia).
  assert (HP : posl [n]) by (repeat constructor; lia). split.
  - destruct (first_stats cx cd [n] x HP) as (m & s & St); [unfold zlen; cbn; lia|lia|lia|].
    destruct (loop_exists cx cd junk jz n x S low high Hn Hx HS (Z.to_nat max_iter) m s (dense [n], map (fun _ => 0) (zrange (zprod [n])))) as (o & Ho). eexists. exists m, s, o. split; [exact St|]. split; [exact Ho|reflexivity].
  - intros o (m & s & o1 & St & L & ->). cbn [fst] in St, L. change (l_shape (dense [n])) with [n] in St, L.
    assert (Lz : forall k, 0 <= k -> zlen (map (fun _ => 0) (zrange k)) = k) by (intros k Hk; unfold zlen; rewrite map_length; pose proof (zrange_length k) as K; unfold zlen in K; lia).
    destruct (line_stats cx cd junk jz n x S Hn Hx HS (zero_bytes [n]) (fun _ => 0)) as (_ & K); [unfold zero_bytes; rewrite Lz; lia|intros i Hi'; unfold zero_bytes; now rewrite znth_map_zrange by lia|]. specialize (K m s St).
    destruct (loop_is cx cd junk jz n x S low high Hn Hx HS _ m s _ o1 L 0%nat (fun _ => 0) _ eq_refl) as (k & F & r & B & B' & R & -> & Lr & V & Q); [rewrite Lz; lia|intros i Hi'; now rewrite znth_map_zrange by lia|apply no_round|exact K|].
    assert (HF : forall i, 0 <= F i <= 2) by (intros i; inversion R; [lia|apply outside_range]).
    cbn [obind]. destruct (scale_line jz n r F Hn Lr V HF) as (r2 & E2 & L2 & V2). exists k, F, r2. split; [lia|]. split; [lia|]. split; [exact R|]. split; [intros; apply Q; lia|]. split; [exact E2|]. split; [exact L2|exact V2].
Qed.
Print Assumptions C107_lines.

(** ** The bounds of a round in exact terms *)
Section Bounds.
  Local Open Scope R_scope.
  Definition rms (xs : list f32) : R := sqrt (mean_square xs).
  Definition sigma (xs : list f32) : R := sqrt (variance xs).
  (** What the deviation may be off, C103: the margin of the variance over the deviation, where that is not small. *)
  Definition dev_error (xs : list f32) : R := var_margin xs / Rmax (sigma xs) (sqrt (var_margin xs)).
  (** What a bound [k] deviations from the mean may be off. *)
  Definition clip_margin (k : R) (xs : list f32) : R := (1 + k) * (/ 262144 * rms xs + bpow radix2 (-88)) + k * dev_error xs.

  Lemma f32gt_real (x y : f32) : is_finite x = true -> is_finite y = true -> f32gt x y = true <-> B2R y < B2R x.
  Proof. intros Fx Fy. unfold f32gt. rewrite Bcompare_correct by assumption. destruct (Rcompare_spec (B2R x) (B2R y)); split; intros K; try reflexivity; try discriminate; lra. Qed.
  Lemma f32lt_real (x y : f32) : is_finite x = true -> is_finite y = true -> f32lt x y = true <-> B2R x < B2R y.
  Proof. intros Fx Fy. unfold f32lt. now apply f32gt_real. Qed.

  Section One.
    Variables (xs : list f32) (m s : f32).
    Hypothesis Hn : (1 <= zlen xs)%Z.
    Hypothesis Sq : squares_in_reach xs.
    Hypothesis Hm : gpu_mean_of xs m.
    Hypothesis Hs : gpu_dev_of xs s.
    Let b := bpow radix2 (-88).
    Let w := 101 / 100 * rms xs + 2097152 * b.
    Let b0 : 0 < b. Proof. apply bpow_gt_0. Qed.
    Let q0 : 0 <= mean_square xs <= bpow radix2 122. Proof. destruct (mean_bounds xs Sq Hn) as (_ & _ & _ & Q & _). exact Q. Qed.
    Let r0 : 0 <= rms xs. Proof. apply sqrt_pos. Qed.
    Let rr : rms xs * rms xs = mean_square xs. Proof. apply sqrt_sqrt, q0. Qed.
    Let r1 : rms xs <= bpow radix2 61.
    Proof. replace (bpow radix2 61) with (sqrt (bpow radix2 122)); [apply sqrt_le_1_alt, q0|]. replace (bpow radix2 122) with (bpow radix2 61 * bpow radix2 61) by (rewrite <- bpow_plus; reflexivity). apply sqrt_square, bpow_ge_0. Qed.
    Let w0 : 0 < w. Proof. unfold w. lra. Qed.
    Let w1 : w <= bpow radix2 62.
    Proof.
      unfold w. replace (bpow radix2 62) with (2 * bpow radix2 61) by (change 2 with (bpow radix2 1); rewrite <- bpow_plus; reflexivity).
      assert (2097152 * b <= bpow radix2 60). { unfold b. change 2097152 with (bpow radix2 21). rewrite <- bpow_plus. apply bpow_le. lia. }
      assert (bpow radix2 61 = 2 * bpow radix2 60) by (change 2 with (bpow radix2 1); rewrite <- bpow_plus; reflexivity). pose proof (bpow_gt_0 radix2 60). lra.
    Qed.
    Let small140 : bpow radix2 (-140) <= / 1024 * b. Proof. unfold b. change (/ 1024) with (bpow radix2 (-10)). rewrite <- bpow_plus. apply bpow_le. lia. Qed.
    Let small150 : bpow radix2 (-150) <= / 1024 * b. Proof. unfold b. change (/ 1024) with (bpow radix2 (-10)). rewrite <- bpow_plus. apply bpow_le. lia. Qed.
    Lemma mean_close : is_finite m = true /\ Rabs (B2R m - rmean xs) <= / 524288 * rms xs + / 1024 * b /\ Rabs (B2R m) <= w.
    Proof.
      destruct Hm as (Fm & Bm). destruct (mean_bounds xs Sq Hn) as (A0 & AA & Am & _). cbv zeta in *. unfold rabs, vals, cntR in *.
      assert (Ar : rsum (map Rabs (map (@B2R 24 128) xs)) / IZR (zlen xs) <= rms xs).
      { apply sqrt_le_1_alt in AA. rewrite sqrt_square in AA by exact A0. exact AA. }
      assert (Em : rmean xs = rsum (map (@B2R 24 128) xs) / IZR (zlen xs)) by (unfold rmean, vals; f_equal; unfold zlen; apply INR_IZR_INZ).
      rewrite <- Em in Bm. split; [exact Fm|]. assert (D : Rabs (B2R m - rmean xs) <= / 524288 * rms xs + / 1024 * b) by lra. split; [exact D|].
      replace (B2R m) with ((B2R m - rmean xs) + rmean xs) by ring. eapply Rle_trans; [apply Rabs_triang|]. unfold w. lra.
    Qed.
    Lemma dev_close : is_finite s = true /\ 0 <= B2R s <= w /\ Rabs (B2R s - sigma xs) <= dev_error xs.
    Proof.
      destruct Hs as (Fs & P & E). split; [exact Fs|]. destruct (mean_bounds xs Sq Hn) as (_ & _ & _ & _ & V). assert (V0 : 0 < var_margin xs) by (unfold var_margin; pose proof (bpow_gt_0 radix2 (-135)); lra).
      assert (Sg : sigma xs * sigma xs = variance xs) by (apply sqrt_sqrt, V). assert (S0 : 0 <= sigma xs) by apply sqrt_pos. split.
      - split; [exact P|]. apply Rabs_le_inv in E. unfold var_margin in E. assert (Hb : bpow radix2 (-135) <= 2097152 * b * (2097152 * b)).
        { unfold b. change 2097152 with (bpow radix2 21). rewrite <- !bpow_plus. apply bpow_le. lia. }
        assert (Bs : B2R s * B2R s <= w * w). { unfold w. rewrite <- rr in *. set (r := rms xs) in *. assert (T0 : 0 <= 2097152 * b) by lra. set (t := 2097152 * b) in *. clearbody r t. assert (0 <= r * t) by (now apply Rmult_le_pos). nra. }
        apply sqrt_le_1_alt in Bs. rewrite !sqrt_square in Bs by lra. exact Bs.
      - rewrite <- Sg in E. replace (B2R s * B2R s - sigma xs * sigma xs) with ((B2R s - sigma xs) * (B2R s + sigma xs)) in E by ring. rewrite Rabs_mult, (Rabs_pos_eq (B2R s + sigma xs)) in E by lra.
        assert (Dl : Rabs (B2R s - sigma xs) <= B2R s + sigma xs) by (apply Rabs_le; lra). pose proof (Rabs_pos (B2R s - sigma xs)) as D0.
        assert (Tv : sqrt (var_margin xs) * sqrt (var_margin xs) = var_margin xs) by (apply sqrt_sqrt; lra). assert (T0 : 0 < sqrt (var_margin xs)) by now apply sqrt_lt_R0.
        unfold dev_error. set (d := Rabs (B2R s - sigma xs)) in *. set (t := sqrt (var_margin xs)) in *. set (g := sigma xs) in *. set (v := var_margin xs) in *. set (a := B2R s) in *. clearbody d t g v a. clear - E Dl D0 Tv T0 P S0.
        assert (M0 : 0 < Rmax g t) by (apply Rlt_le_trans with t; [exact T0|apply Rmax_r]). apply Rmult_le_reg_r with (Rmax g t); [exact M0|]. unfold Rdiv. rewrite Rmult_assoc, Rinv_l, Rmult_1_r by lra.
        unfold Rmax. destruct (Rle_dec g t) as [G|G].
        + assert (d <= t) by (apply Rnot_lt_le; intros L; nra). nra.
        + nra.
    Qed.
    Lemma product_close (k : f32) : is_finite k = true -> 0 <= B2R k <= bpow radix2 20 -> is_finite (Bmult mode_NE s k) = true /\ 0 <= B2R (Bmult mode_NE s k) <= B2R k * w * (1 + / 16777216) + / 1024 * b /\
      Rabs (B2R (Bmult mode_NE s k) - B2R k * sigma xs) <= B2R k * dev_error xs + / 16777216 * (B2R k * w) + / 1024 * b.
    Proof.
      intros Fk (K0 & K1). destruct dev_close as (Fs & (S0 & S1) & Ds). assert (Kw : B2R s * B2R k <= B2R k * w) by (rewrite Rmult_comm; now apply Rmult_le_compat_l). assert (P0 : 0 <= B2R s * B2R k) by now apply Rmult_le_pos.
      assert (Bk : B2R k * w <= bpow radix2 82) by (replace (bpow radix2 82) with (bpow radix2 20 * bpow radix2 62) by (rewrite <- bpow_plus; reflexivity); apply Rmult_le_compat; lra).
      destruct (KurtProofs.mult_ok s k Fs Fk) as (F & V); [rewrite Rabs_pos_eq by exact P0; apply Rle_trans with (bpow radix2 82); [lra|apply bpow_le; lia]|]. split; [exact F|].
      assert (R0 : 0 <= B2R (Bmult mode_NE s k)). { rewrite V. rewrite <- (round_0 radix2 (FLT_exp (-149) 24) ZnearestE). apply round_le; [apply FLT_exp_valid; reflexivity|apply valid_rnd_N|exact P0]. }
      rewrite V in *. destruct (KurtProofs.rnd_parts (B2R s * B2R k)) as (e & h & He & Hh & _ & Er). apply eps_u in He. rewrite Er in *. apply Rabs_le_inv in He. apply Rabs_le_inv in Hh.
      assert (Pe : Rabs (B2R s * B2R k * e) <= / 16777216 * (B2R k * w)). { rewrite Rabs_mult, (Rabs_pos_eq (B2R s * B2R k)) by exact P0. rewrite Rmult_comm. apply Rmult_le_compat; [apply Rabs_pos|exact P0|apply Rabs_le; lra|exact Kw]. }
      apply Rabs_le_inv in Pe. split; [split; [exact R0|nra]|].
      assert (Kd : Rabs (B2R k * (B2R s - sigma xs)) <= B2R k * dev_error xs) by (rewrite Rabs_mult, (Rabs_pos_eq (B2R k)) by exact K0; now apply Rmult_le_compat_l). apply Rabs_le_inv in Kd.
      apply Rabs_le. replace (B2R s * B2R k * (1 + e) + h - B2R k * sigma xs) with (B2R k * (B2R s - sigma xs) + B2R s * B2R k * e + h) by ring. lra.
    Qed.
    Lemma bound_range (k : f32) p : is_finite k = true -> 0 <= B2R k <= bpow radix2 20 -> Rabs p <= B2R k * w * (1 + / 16777216) + / 1024 * b -> Rabs (B2R m + p) <= bpow radix2 127 /\ Rabs (B2R m + p) <= w + B2R k * w * (1 + / 16777216) + / 1024 * b.
    Proof.
      intros Fk (K0 & K1) Hp. destruct mean_close as (_ & _ & Wm). assert (A : Rabs (B2R m + p) <= w + B2R k * w * (1 + / 16777216) + / 1024 * b) by (eapply Rle_trans; [apply Rabs_triang|]; lra). split; [|exact A]. eapply Rle_trans; [exact A|].
      assert (Bk : B2R k * w <= bpow radix2 82) by (replace (bpow radix2 82) with (bpow radix2 20 * bpow radix2 62) by (rewrite <- bpow_plus; reflexivity); apply Rmult_le_compat; lra).
      assert (bpow radix2 62 <= bpow radix2 82) by (apply bpow_le; lia). assert (b <= bpow radix2 82) by (apply bpow_le; lia). apply Rle_trans with (bpow radix2 84); [|apply bpow_le; lia].
      replace (bpow radix2 84) with (4 * bpow radix2 82) by (change 4 with (bpow radix2 2); rewrite <- bpow_plus; reflexivity). lra.
    Qed.
    Lemma margin_holds k M P S0 p M' e : 0 <= k -> Rabs (M - M') <= / 524288 * rms xs + / 1024 * b -> Rabs (p - P) <= k * dev_error xs + / 16777216 * (k * w) + / 1024 * b -> S0 = M + p -> Rabs S0 <= w + k * w * (1 + / 16777216) + / 1024 * b -> Rabs e <= / 16777216 ->
      Rabs (S0 * (1 + e) - (M' + P)) <= clip_margin k xs.
    Proof.
      intros K0 Hm' Hp -> Hs' He. assert (Pe : Rabs ((M + p) * e) <= / 16777216 * (w + k * w * (1 + / 16777216) + / 1024 * b)).
      { rewrite Rabs_mult, Rmult_comm. apply Rmult_le_compat; auto using Rabs_pos. }
      replace ((M + p) * (1 + e) - (M' + P)) with ((M - M') + (p - P) + (M + p) * e) by ring. eapply Rle_trans; [apply Rabs_triang|]. eapply Rle_trans; [apply Rplus_le_compat_r, Rabs_triang|].
      unfold clip_margin. fold b. unfold w in *. clear - K0 Hm' Hp Pe b0 r0. set (r := rms xs) in *. set (de := dev_error xs) in *. clearbody r de b.
      assert (0 <= k * r) by now apply Rmult_le_pos. assert (0 <= k * b) by (apply Rmult_le_pos; lra).
      apply Rle_trans with (/ 524288 * r + / 1024 * b + (k * de + / 16777216 * (k * (101 / 100 * r + 2097152 * b)) + / 1024 * b) + / 16777216 * (101 / 100 * r + 2097152 * b + k * (101 / 100 * r + 2097152 * b) * (1 + / 16777216) + / 1024 * b)); [lra|]. nra.
    Qed.
    Lemma upper_close (k : f32) : is_finite k = true -> 0 <= B2R k <= bpow radix2 20 -> is_finite (Bplus mode_NE m (Bmult mode_NE s k)) = true /\
      Rabs (B2R (Bplus mode_NE m (Bmult mode_NE s k)) - (rmean xs + B2R k * sigma xs)) <= clip_margin (B2R k) xs.
    Proof.
      intros Fk Hk. destruct (product_close k Fk Hk) as (Fp & (P0 & P1) & Dp). destruct mean_close as (Fm & Dm & _). destruct (bound_range k (B2R (Bmult mode_NE s k)) Fk Hk) as (A1 & A2); [rewrite Rabs_pos_eq; assumption|].
      destruct (add_rel m (Bmult mode_NE s k) Fm Fp A1) as (F & e & He & ->). split; [exact F|]. eapply margin_holds; [apply Hk|exact Dm|exact Dp|reflexivity|exact A2|exact He].
    Qed.
    Lemma lower_close (k : f32) : is_finite k = true -> 0 <= B2R k <= bpow radix2 20 -> is_finite (Bminus mode_NE m (Bmult mode_NE s k)) = true /\
      Rabs (B2R (Bminus mode_NE m (Bmult mode_NE s k)) - (rmean xs - B2R k * sigma xs)) <= clip_margin (B2R k) xs.
    Proof.
      intros Fk Hk. destruct (product_close k Fk Hk) as (Fp & (P0 & P1) & Dp). destruct mean_close as (Fm & Dm & _). destruct (bound_range k (- B2R (Bmult mode_NE s k)) Fk Hk) as (A1 & A2); [rewrite Rabs_Ropp, Rabs_pos_eq; assumption|].
      destruct (sub_rel m (Bmult mode_NE s k) Fm Fp A1) as (F & e & He & ->). split; [exact F|]. unfold Rminus at 3. eapply (margin_holds (B2R k) (B2R m) (- (B2R k * sigma xs)) _ (- B2R (Bmult mode_NE s k))); [apply Hk|exact Dm| |reflexivity|exact A2|exact He].
      replace (- B2R (Bmult mode_NE s k) - - (B2R k * sigma xs)) with (- (B2R (Bmult mode_NE s k) - B2R k * sigma xs)) by ring. now rewrite Rabs_Ropp.
    Qed.
  End One.
End Bounds.
(** C107: a round flags the samples that are clearly outside of the exact bounds of the samples left, and no sample clearly inside. *)
Theorem C107_round : forall xs m s low high x, squares_in_reach xs -> xs <> [] -> stats_of xs m s -> is_finite x = true ->
  is_finite low = true -> (0 <= B2R low <= bpow radix2 20)%R -> is_finite high = true -> (0 <= B2R high <= bpow radix2 20)%R ->
  ((B2R x < rmean xs - B2R low * sigma xs - clip_margin (B2R low) xs)%R \/ (rmean xs + B2R high * sigma xs + clip_margin (B2R high) xs < B2R x)%R -> outside m s low high x <> 0) /\
  ((rmean xs - B2R low * sigma xs + clip_margin (B2R low) xs <= B2R x <= rmean xs + B2R high * sigma xs - clip_margin (B2R high) xs)%R -> outside m s low high x = 0).
Proof.
  intros xs m s low high x Sq Ne (St & _) Fx Fl Hl Fh Hh. destruct (St Sq Ne) as (Hm & Hs). assert (Hn : 1 <= zlen xs) by (destruct xs; [easy|unfold zlen; cbn [length]; lia]).
  destruct (lower_close xs m s Hn Sq Hm Hs low Fl Hl) as (FL & BL). destruct (upper_close xs m s Hn Sq Hm Hs high Fh Hh) as (FH & BH). apply Rabs_le_inv in BL. apply Rabs_le_inv in BH. unfold outside.
  pose proof (f32lt_real x _ Fx FL) as QL. pose proof (f32gt_real x _ Fx FH) as QH. destruct (f32lt x _), (f32gt x _); split; try (intros; lia); try (intros [K|K]); try intros (K1 & K2); exfalso.
  all: try (assert (B2R x < B2R (Bminus mode_NE m (Bmult mode_NE s low)))%R by (apply QL; reflexivity)); try (assert (B2R (Bplus mode_NE m (Bmult mode_NE s high)) < B2R x)%R by (apply QH; reflexivity)); try lra.
  all: try (assert (false = true) by (apply QL; lra); discriminate); try (assert (false = true) by (apply QH; lra); discriminate).
Qed.
Print Assumptions C107_round.

(** ** Small samples *)
(** The limit 1e-6 is absolute: means and deviations of samples of at most 2^-22 never differ by more. *)
Section Small.
  Local Open Scope R_scope.
  Definition small_samples (xs : list f32) : Prop := Forall (fun x => is_finite x = true /\ Rabs (B2R x) <= bpow radix2 (-22)) xs.
  Lemma small_squares xs : small_samples xs -> rsum (map (fun x => x * x) (map (@B2R 24 128) xs)) <= bpow radix2 (-44) * IZR (zlen xs).
  Proof.
    induction 1 as [|x xs (_ & H) _ IH]; cbn [map]; [rewrite rsum_nil; change (IZR (zlen (@nil f32))) with 0; rewrite Rmult_0_r; apply Rle_refl|]. rewrite rsum_cons. unfold zlen in *. cbn [length]. rewrite Nat2Z.inj_succ, succ_IZR.
    assert (B2R x * B2R x <= bpow radix2 (-44)). { replace (bpow radix2 (-44)) with (bpow radix2 (-22) * bpow radix2 (-22)) by (rewrite <- bpow_plus; reflexivity). apply Rabs_le_inv in H. pose proof (bpow_gt_0 radix2 (-22)). nra. } lra.
  Qed.
  Lemma small_reach xs : small_samples xs -> (zlen xs < 2 ^ 31)%Z -> squares_in_reach xs.
  Proof.
    intros H L. split; [eapply Forall_impl; [|exact H]; cbn; tauto|]. eapply Rle_trans; [now apply small_squares|]. apply IZR_lt in L. change (IZR (2 ^ 31)) with (bpow radix2 31) in L.
    apply Rle_trans with (bpow radix2 (-44) * bpow radix2 31); [apply Rmult_le_compat_l; [apply bpow_ge_0|lra]|]. rewrite <- bpow_plus. apply bpow_le. lia.
  Qed.
  Lemma small_rms xs : small_samples xs -> (1 <= zlen xs)%Z -> rms xs <= bpow radix2 (-22).
  Proof.
    intros H L. unfold rms, mean_square, vals. rewrite INR_IZR_INZ. fold (zlen xs). apply IZR_le in L. replace (bpow radix2 (-22)) with (sqrt (bpow radix2 (-44))); [|replace (bpow radix2 (-44)) with (bpow radix2 (-22) * bpow radix2 (-22)) by (rewrite <- bpow_plus; reflexivity); apply sqrt_square, bpow_ge_0].
    apply sqrt_le_1_alt, Rmult_le_reg_r with (IZR (zlen xs)); [lra|]. unfold Rdiv. rewrite Rmult_assoc, Rinv_l, Rmult_1_r by lra. now apply small_squares.
  Qed.
  Lemma eps_real : is_finite eps32 = true /\ B2R eps32 = 8796093 * bpow radix2 (-43).
  Proof. split; [vm_compute; reflexivity|]. assert (E : B2SF eps32 = SpecFloat.S754_finite false 8796093 (-43)) by (vm_compute; reflexivity). rewrite <- SF2R_B2SF, E. reflexivity. Qed.
  Lemma small_is_small (a b : f32) : is_finite a = true -> is_finite b = true -> Rabs (B2R a) <= 103 / 100 * bpow radix2 (-22) -> Rabs (B2R b) <= 103 / 100 * bpow radix2 (-22) -> small_change a b = true.
  Proof.
    intros Fa Fb Ha Hb. apply Rabs_le_inv in Ha. apply Rabs_le_inv in Hb. pose proof (bpow_gt_0 radix2 (-22)) as P. assert (B1 : bpow radix2 (-22) <= 1) by (change 1 with (bpow radix2 0); apply bpow_le; lia).
    destruct (sub_rel b a Fb Fa) as (F & e & He & E). { apply Rle_trans with 3; [apply Rabs_le; lra|]. apply Rle_trans with (bpow radix2 2); [change (bpow radix2 2) with 4; lra|apply bpow_le; lia]. }
    unfold small_change. destruct eps_real as (Fe & Ee). apply f32lt_real; [now rewrite is_finite_Babs|exact Fe|]. rewrite B2R_Babs, E, Ee. replace (bpow radix2 (-43)) with (bpow radix2 (-22) * / 2097152) by (change (/ 2097152) with (bpow radix2 (-21)); rewrite <- bpow_plus; reflexivity).
    rewrite Rabs_mult. assert (Rabs (B2R b - B2R a) <= 206 / 100 * bpow radix2 (-22)) by (apply Rabs_le; lra). assert (Rabs (1 + e) <= 101 / 100) by (apply Rabs_le_inv in He; apply Rabs_le; lra).
    apply Rle_lt_trans with (206 / 100 * bpow radix2 (-22) * (101 / 100)); [apply Rmult_le_compat; auto using Rabs_pos|]. lra.
  Qed.
  Lemma small_stats xs m s : small_samples xs -> (1 <= zlen xs < 2 ^ 31)%Z -> stats_of xs m s ->
    is_finite m = true /\ is_finite s = true /\ Rabs (B2R m) <= 103 / 100 * bpow radix2 (-22) /\ Rabs (B2R s) <= 103 / 100 * bpow radix2 (-22).
  Proof.
    intros H (L1 & L2) (St & _). pose proof (small_reach xs H L2) as Sq. pose proof (small_rms xs H L1) as Hr. destruct (St Sq) as (Hm & Hs); [intros ->; change (1 <= 0)%Z in L1; lia|].
    destruct (mean_close xs m L1 Sq Hm) as (Fm & _ & Bm). destruct (dev_close xs s L1 Sq Hs) as (Fs & (S0 & Bs) & _).
    assert (T : 2097152 * bpow radix2 (-88) <= / 100 * bpow radix2 (-22)).
    { change 2097152 with (bpow radix2 21). rewrite <- bpow_plus. apply Rle_trans with (bpow radix2 (-7) * bpow radix2 (-22)); [rewrite <- bpow_plus; apply bpow_le; lia|]. apply Rmult_le_compat_r; [apply bpow_ge_0|]. change (bpow radix2 (-7)) with (/ 128). lra. }
    split; [exact Fm|]. split; [exact Fs|]. rewrite (Rabs_pos_eq (B2R s)) by exact S0. split; lra.
  Qed.
End Small.
Lemma left_small n S F : (forall i, 0 <= i < n -> is_finite (S i) = true /\ (Rabs (B2R (S i)) <= bpow radix2 (-22))%R) -> small_samples (left n S F).
Proof. intros H. apply Forall_forall. intros v Hv. unfold left in Hv. apply in_map_iff in Hv as (i & <- & Hi). apply filter_In in Hi as (Hi & _). apply H. now apply in_zrange. Qed.
Lemma left_few n S F : 0 <= n -> zlen (left n S F) <= n.
Proof. intros Hn. unfold left, zlen. rewrite map_length. pose proof (zrange_length n) as K. unfold zlen in K. assert (Q : forall l, Nat.le (length (filter (fun i => F i =? 0) l)) (length l)) by (induction l as [|a l IH]; cbn; [lia|destruct (F a =? 0); cbn; lia]). specialize (Q (zrange n)). lia. Qed.
(** C107: "clipping repeats until the flags settle, whatever the units of the samples" is false: if no sample exceeds 2^-22 the first round is the last, however many are asked for, unless it flags every sample. *)
Theorem C107_small_samples_refuted : forall cx cd junk jz n x S max_iter low high,
  1 <= n < 2 ^ 31 -> zlen x = n -> (forall i, 0 <= i < n -> znth x i = Some (S i)) -> 1 <= max_iter ->
  (forall i, 0 <= i < n -> is_finite (S i) = true /\ (Rabs (B2R (S i)) <= bpow radix2 (-22))%R) ->
  forall o, gpu_sigmaclip_array cx cd junk jz (dense [n], x) max_iter low high o ->
    exists F, rounds n S low high 1 F /\ (left n S F = [] \/ exists r, o = Ok (dense [n], r) /\ zlen r = n /\ forall i, 0 <= i < n -> znth r i = Some (32 * F i)).
Proof.
  intros cx cd junk jz n x S max_iter low high Hn Hx HS Hi Sm o (m & s & o1 & St & L & ->). cbn [fst] in St, L. change (l_shape (dense [n])) with [n] in St, L. assert (Ez : zprod [n] = n) by (change (zprod [n]) with (n * 1); lia).
  assert (Lz : forall k, 0 <= k -> zlen (map (fun _ => 0) (zrange k)) = k) by (intros k Hk; unfold zlen; rewrite map_length; pose proof (zrange_length k) as K; unfold zlen in K; lia).
  destruct (line_stats cx cd junk jz n x S Hn Hx HS (zero_bytes [n]) (fun _ => 0)) as (_ & K); [unfold zero_bytes; rewrite Lz; lia|intros i Hi'; unfold zero_bytes; now rewrite znth_map_zrange by lia|]. specialize (K m s St).
  pose proof (next_round n S low high 0 _ m s (no_round n S low high) K) as R1. exists (fun i => outside m s low high (S i)). split; [exact R1|].
  destruct (left n S (fun i => outside m s low high (S i))) as [|v vs] eqn:El; [now left|right].
  assert (Ei : exists k, Z.to_nat max_iter = Datatypes.S k) by (exists (Z.to_nat (max_iter - 1)); lia). destruct Ei as (k & Ei). rewrite Ei in L. destruct (rfi_line junk jz n x S low high Hn Hx HS m s) as (r & E & Lr & V).
  assert (HF : forall i, 0 <= outside m s low high (S i) <= 2) by (intros; apply outside_range).
  assert (Hc : forall m' s', gpu_stats cx cd (dense [n], x) (dense [n], r) m' s' -> small_change m m' && small_change s s' = true).
  { intros m' s' St'. destruct (line_stats cx cd junk jz n x S Hn Hx HS r (fun i => outside m s low high (S i)) ltac:(lia) V) as (_ & K'). specialize (K' m' s' St'). rewrite El in K'.
    assert (L0 : 1 <= zlen (left n S (fun _ => 0)) < 2 ^ 31).
    { pose proof (left_few n S (fun _ => 0)) as K1. split; [|lia]. unfold left, zlen. rewrite map_length. replace (filter (fun i => 0 =? 0) (zrange n)) with (zrange n); [pose proof (zrange_length n) as K2; unfold zlen in K2; lia|]. clear. induction (zrange n) as [|a l IH]; [reflexivity|]. cbn [filter]. change (0 =? 0) with true in *. cbn iota. now f_equal. }
    destruct (small_stats _ m s (left_small n S _ Sm) L0 K) as (Fm & Fs & Bm & Bs).
    destruct (small_stats (v :: vs) m' s') as (Fm' & Fs' & Bm' & Bs'); [rewrite <- El; now apply left_small|rewrite <- El; pose proof (left_few n S (fun i => outside m s low high (S i))) as K1; split; [rewrite El; unfold zlen; cbn [length]; lia|lia]|exact K'|].
    apply andb_true_intro. split; now apply small_is_small. }
  symmetry in E. inversion L; match goal with H : clip_rfi _ _ _ _ _ _ _ = _ |- _ => pose proof (eq_trans E H) as H'; try discriminate H'; injection H' as H'; match type of H' with _ = ?v => subst v end end.
  - cbn [obind]. destruct (scale_line jz n r _ Hn Lr V HF) as (r2 & E2 & L2 & V2). exists r2. split; [exact E2|]. split; [exact L2|exact V2].
  - exfalso. match goal with H : gpu_stats _ _ _ _ _ _ |- _ => apply Hc in H end. congruence.
Qed.
Print Assumptions C107_small_samples_refuted.

(** The hypotheses hold of three samples 2^-30, 0, 0 with bounds at three deviations: as a line for up to five rounds, and, repeated, as a channel of two spectra. *)
Definition faint : mem f32 := [Bldexp mode_NE (f32_of_Z 1) (-30); f32_of_Z 0; f32_of_Z 0].
Definition faint_at (i : Z) : f32 := match znth faint i with Some v => v | None => f32_of_Z 0 end.
Lemma faint_real : B2R (faint_at 0) = bpow radix2 (-30) /\ B2R (faint_at 1) = 0%R /\ B2R (faint_at 2) = 0%R.
Proof.
  split; [|split; exact (proj1 (f32_of_Z_ok 0 ltac:(lia)))]. assert (E : B2SF (faint_at 0) = SpecFloat.S754_finite false 8388608 (-53)) by (vm_compute; reflexivity). rewrite <- SF2R_B2SF, E. cbn [SF2R]. unfold F2R. cbn [Fnum Fexp cond_Zopp].
  change (IZR (Zpos 8388608)) with (bpow radix2 23). rewrite <- bpow_plus. reflexivity.
Qed.
Example C107_case : posl [2; 3] /\ 2 <= zlen [2; 3] <= 4 /\ zlen (faint ++ faint) = 2 * 3 /\ zlen faint = 3 /\ (forall i, 0 <= i < 3 -> znth faint i = Some (faint_at i)) /\
  (forall i, 0 <= i < 3 -> is_finite (faint_at i) = true /\ (Rabs (B2R (faint_at i)) <= bpow radix2 (-22))%R) /\
  squares_in_reach (left 3 faint_at (fun _ => 0)) /\ left 3 faint_at (fun _ => 0) <> [] /\ (exists m s, stats_of (left 3 faint_at (fun _ => 0)) m s) /\
  is_finite (f32_of_Z 3) = true /\ (0 <= B2R (f32_of_Z 3) <= bpow radix2 20)%R /\
  (exists o, gpu_sigmaclip_array true false (fun _ => f32_of_Z 0) (fun _ => 0) (dense [3], faint) 5 (f32_of_Z 3) (f32_of_Z 3) o).
Proof.
  assert (V : forall i, 0 <= i < 3 -> znth faint i = Some (faint_at i)) by (intros i Hi; unfold faint_at; assert (C : i = 0 \/ i = 1 \/ i = 2) by lia; destruct C as [-> | [-> | ->] ]; reflexivity).
  assert (Fi : forall i, 0 <= i < 3 -> is_finite (faint_at i) = true /\ (Rabs (B2R (faint_at i)) <= bpow radix2 (-22))%R).
  { intros i Hi. destruct faint_real as (A & B & C). assert (K : i = 0 \/ i = 1 \/ i = 2) by lia. destruct K as [-> | [-> | ->] ]; (split; [vm_compute; reflexivity|]).
    - rewrite A, Rabs_pos_eq by apply bpow_ge_0. apply bpow_le. lia.
    - rewrite B, Rabs_R0. apply bpow_ge_0.
    - rewrite C, Rabs_R0. apply bpow_ge_0. }
  assert (N3 : 1 <= 3 < 2 ^ 31) by (split; [lia|reflexivity]).
  split; [repeat constructor|]. split; [vm_compute; split; discriminate|]. split; [reflexivity|]. split; [reflexivity|]. split; [exact V|]. split; [exact Fi|].
  split; [apply small_reach; [now apply left_small|reflexivity]|]. split; [discriminate|]. split.
  - destruct (first_stats true false [3] faint) as (m & s & St); [repeat constructor|vm_compute; discriminate|reflexivity|reflexivity|]. exists m, s. change (l_shape (fst (dense [3], faint))) with [3] in St.
    refine (proj2 (line_stats true false (fun _ => f32_of_Z 0) (fun _ => 0) 3 faint faint_at N3 eq_refl V (zero_bytes [3]) (fun _ => 0) _ _) m s St); [vm_compute; discriminate|].
    intros i Hi. unfold zero_bytes. rewrite znth_map_zrange; [reflexivity|]. change (4 * zprod [3]) with 12. lia.
  - split; [reflexivity|]. split; [rewrite (proj1 (f32_of_Z_ok 3 ltac:(lia))); split; [lra|]; apply Rle_trans with (bpow radix2 2); [change (bpow radix2 2) with 4%R; lra|apply bpow_le; lia]|].
    exact (proj1 (C107_lines true false (fun _ => f32_of_Z 0) (fun _ => 0) 3 faint faint_at 5 (f32_of_Z 3) (f32_of_Z 3) N3 eq_refl V ltac:(lia))).
Qed.
