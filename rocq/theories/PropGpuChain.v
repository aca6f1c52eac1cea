(** C104: what a search on CUDA detects when the noise is estimated on the GPU too, from sample powers to protohits. *)
From Verif Require Import PropGred GredReal GredExact GredKernels GaccRel GvarModel PropGacc GvarProofs PropGvar.
From Verif Require Import FlagProofs.
From Verif Require Import CcCudaSpec CcCudaClass CcCudaProofs PropCcCuda GpuSearchModel GpuSensProofs.
From Verif Require Import DriftAgree PipeModel DriftSearchProofs DriftProofs CudaOffsetProofs CcSpec PropDrift PropCc PropPipe FsumModel FsumProofs FsumProofs2.
From Verif Require Import DsumProofs SensProofs PropDsum PropSens PropGpuSens.
From Coq Require Import ZifyBool ZifyNat Lia Permutation Reals Lra Psatz.
From Flocq Require Import Core Plus_error BinarySingleNaN.
Local Open Scope Z_scope.

(** ** What is expected *)
(** The samples that are not flagged vary enough for their noise to be known up to the fraction [eps] after a GPU has estimated it, and are not too strong. *)
Definition clear_spread (eps : R) (S : Z -> Z -> f32) (es : list (Z * Z)) : Prop :=
  (0 <= eps <= / 4 /\ IZR (zlen es) * exact_square S es <= bpow radix2 122 /\ / 131072 * exact_square S es + bpow radix2 (-135) <= eps * exact_variance S es)%R.
(** What the estimate of the floor may be off. *)
Definition floor_error (mu : R) : R := (/ 524288 * mu + bpow radix2 (-140))%R.
Section Exact.
  Variables (o : search_options) (T N : Z) (S : Z -> Z -> f32) (mu sigma eps : R).
  (** The bin may pass the threshold, and passes it for sure, given the exact floor and noise. *)
  Definition may_pass (c : coord) : Prop :=
    (B2R (s_threshold o) * line_noise o T sigma c * ((1 - eps) * (1 - bpow radix2 (-22))) <= met_average o T N S c - mu + met_rounding o T N S c + floor_error mu)%R.
  Definition must_pass (c : coord) : Prop :=
    (B2R (s_threshold o) * line_noise o T sigma c * ((1 + eps) * (1 + bpow radix2 (-21))) + met_rounding o T N S c + floor_error mu <= met_average o T N S c - mu)%R.
  (** The table of protohits has room for all bins that may pass. *)
  Definition room_for_passing : Prop :=
    forall ps, NoDup ps -> (forall c, In c ps -> reportable o N c /\ may_pass c) -> 8 + zlen ps <= Z.quot (grid_size (s_low o) (s_high o) (s_step o) * N) (s_distance o * s_distance o).
End Exact.

(** ** The estimate *)
Section Estimate.
  Local Open Scope R_scope.
  Lemma gpu_estimate eps (S : Z -> Z -> f32) es floor power : (1 <= zlen es)%Z -> (forall t c, In (t, c) es -> is_finite (S t c) = true /\ 0 <= B2R (S t c) <= bpow radix2 100) -> clear_spread eps S es ->
    let xs : list f32 := map (fun tc => S (fst tc) (snd tc)) es in
    (squares_in_reach xs -> xs <> [] -> gpu_mean_of xs floor /\ gpu_dev_of xs power) ->
    let mu := exact_mean S es in let sigma := sqrt (exact_variance S es) in
    is_finite floor = true /\ is_finite power = true /\ 0 <= mu <= bpow radix2 100 /\ bpow radix2 (-70) <= sigma <= bpow radix2 61 /\
    Rabs (B2R floor - mu) <= floor_error mu /\ Rabs (B2R power - sigma) <= eps * sigma.
  Proof.
    intros Hn Hb (He & Hsq & Hv) xs H mu sigma.
    assert (N1 : 1 <= IZR (zlen es)) by (apply IZR_le; lia).
    assert (Ne : xs <> []) by (unfold xs; destruct es; [unfold zlen in Hn; cbn in Hn; lia|discriminate]).
    assert (Lx : INR (length xs) = IZR (zlen es)) by apply samples_len.
    assert (Lz : IZR (zlen xs) = IZR (zlen es)) by (unfold xs, zlen; now rewrite map_length).
    assert (Qx : mean_square xs = exact_square S es) by apply square_samples. assert (Vx : variance xs = exact_variance S es) by apply variance_samples.
    assert (Sum2 : rsum (map (fun x => x * x) (map (@B2R 24 128) xs)) = IZR (zlen es) * exact_square S es).
    { rewrite <- Qx. unfold mean_square. rewrite Lx. unfold vals. field. lra. }
    assert (Sq : squares_in_reach xs). { split; [|rewrite Sum2; exact Hsq]. apply Forall_map, Forall_forall. intros (t & c) Hi. now apply Hb. }
    destruct (H Sq Ne) as ((F1 & B1) & (F2 & P2 & B2)).
    assert (Abs : rsum (map Rabs (map (@B2R 24 128) xs)) = rsum (map (@B2R 24 128) xs)).
    { f_equal. rewrite <- (map_id (map (@B2R 24 128) xs)) at 2. apply map_ext_in. intros y Hy. apply in_map_iff in Hy as (x & <- & Hx). apply in_map_iff in Hx as ((t & c) & <- & Hi). apply Rabs_pos_eq. now apply Hb. }
    assert (Mx : rsum (map (@B2R 24 128) xs) / IZR (zlen xs) = mu).
    { rewrite Lz. rewrite <- Lx. apply mean_samples. }
    rewrite Abs, Mx in B1.
    assert (U0 : 0 <= mu <= bpow radix2 100).
    { destruct (total_between S es 0 (bpow radix2 100)) as (A1 & A2); [intros t c Hi; apply Hb; exact Hi|]. unfold mu, exact_mean. split.
      - unfold Rdiv. apply Rmult_le_pos; [lra|]. left. apply Rinv_0_lt_compat. lra.
      - apply Rmult_le_reg_r with (IZR (zlen es)); [lra|]. replace (total S es / IZR (zlen es) * IZR (zlen es)) with (total S es) by (field; lra). lra. }
    unfold var_margin in B2. rewrite Vx, Qx in B2.
    assert (Q0 : 0 <= exact_square S es). { unfold exact_square, Rdiv. apply Rmult_le_pos; [|left; apply Rinv_0_lt_compat; lra]. clear. induction es as [|e es IH]; cbn [fold_right]; [lra|nra]. }
    assert (V1 : bpow radix2 (-140) <= exact_variance S es <= bpow radix2 122).
    { split.
      - assert (bpow radix2 (-135) <= / 4 * exact_variance S es) by (clear - Hv He Q0; pose proof (bpow_gt_0 radix2 (-135)); set (b := bpow radix2 (-135)) in *; set (v := exact_variance S es) in *; set (q := exact_square S es) in *; clearbody b v q; destruct (Rle_lt_dec v 0); nra). apply Rle_trans with (bpow radix2 (-135)); [apply bpow_le; lia|]. pose proof (bpow_gt_0 radix2 (-135)). lra.
      - apply Rle_trans with (exact_square S es); [unfold exact_variance; pose proof (Rle_0_sqr (exact_mean S es)) as Q; unfold Rsqr in Q; lra|].
        apply Rle_trans with (2 := Hsq). rewrite <- (Rmult_1_l (exact_square S es)) at 1. now apply Rmult_le_compat_r. }
    assert (V0 : 0 < exact_variance S es) by (pose proof (bpow_gt_0 radix2 (-140)); lra).
    assert (Sg : sigma * sigma = exact_variance S es) by (apply sqrt_sqrt; lra).
    assert (S0 : 0 < sigma) by (apply sqrt_lt_R0; exact V0).
    split; [exact F1|]. split; [exact F2|]. split; [exact U0|]. split; [|split; [exact B1|]].
    - replace (bpow radix2 (-70)) with (sqrt (bpow radix2 (-140))); [replace (bpow radix2 61) with (sqrt (bpow radix2 122)); [split; apply sqrt_le_1_alt; lra|]|].
      + replace (bpow radix2 122) with (bpow radix2 61 * bpow radix2 61) by (rewrite <- bpow_plus; reflexivity). apply sqrt_square, bpow_ge_0.
      + replace (bpow radix2 (-140)) with (bpow radix2 (-70) * bpow radix2 (-70)) by (rewrite <- bpow_plus; reflexivity). apply sqrt_square, bpow_ge_0.
    - rewrite <- Sg in B2, Hv. clear - B2 Hv P2 S0. set (p := B2R power) in *. clearbody p sigma. set (q := / 131072 * exact_square S es + bpow radix2 (-135)) in *. clearbody q.
      replace (p * p - sigma * sigma) with ((p - sigma) * (p + sigma)) in B2 by ring. rewrite Rabs_mult, (Rabs_pos_eq (p + sigma)) in B2 by lra.
      apply Rmult_le_reg_r with sigma; [exact S0|]. pose proof (Rabs_pos (p - sigma)) as A. set (a := Rabs (p - sigma)) in *. clearbody a. nra.
  Qed.
End Estimate.

(** The estimates, and that they suit the search. *)
Definition noise_estimated (o : search_options) (T N : Z) (S : Z -> Z -> f32) (mu sigma eps : R) (floor power : f32) : Prop :=
  (0 <= eps <= / 4)%R /\ (bpow radix2 (-70) <= sigma)%R /\ (Rabs (B2R floor - mu) <= floor_error mu)%R /\ (Rabs (B2R power - sigma) <= eps * sigma)%R /\ cuda_usable o T N S floor power.
Lemma noise_from_gpu cx cd o data mask T N S M es eps :
  channel_of data T N S -> channel_of mask T N M -> T * N < 2 ^ 31 -> unflagged T N M es -> es <> [] -> clear_spread eps S es -> bright T N S ->
  cuda_grid o T N -> short_lines o T -> is_finite (s_threshold o) = true -> (bpow radix2 (-125) <= B2R (s_threshold o))%R ->
  gpu_yields (gv_mmean_stddev cx cd) (dense [T; N]) (dense [T; N]) [] data mask (fun out => exists floor power, out 0 [0] = Some floor /\ out 1 [0] = Some power /\
    noise_estimated o T N S (exact_mean S es) (sqrt (exact_variance S es)) eps floor power).
Proof.
  intros Hd Hm HTN Hu Hne Hsp Hb Hg Hs Ft Bt. set (mu := exact_mean S es). set (sigma := sqrt (exact_variance S es)).
  assert (TN : 2 <= T /\ 0 < N) by (destruct Hg as (? & ? & _); lia). destruct TN as (T2 & N1).
  destruct Hd as (Hd & Ld). destruct Hm as (Hm & Lm).
  assert (Hp2 : posl [T; N]) by (repeat constructor; lia).
  destruct (PropGred.dense_ok data [T; N] []) as (Hok & Hun); [exact Hp2|vm_compute; discriminate|split; constructor|reflexivity|rewrite Ld; unfold zprod; cbn; ring|].
  destruct (PropGred.dense_ok mask [T; N] []) as (Hokm & Hunm); [exact Hp2|vm_compute; discriminate|split; constructor|reflexivity|rewrite Lm; unfold zprod; cbn; ring|].
  assert (Few : few_outputs data (dense [T; N]) []).
  { split; [exact Hok|]. split; [exact Hun|]. split; [vm_compute; discriminate|]. assert (E : red_factor (dense [T; N]) [] = T * N) by (unfold red_factor; change (Base.zprod [T; N] = T * N); unfold Base.zprod; cbn; ring). lia. }
  assert (Mok : mask_ok (dense [T; N]) (dense [T; N]) mask) by (destruct Hokm as ((Hw & _ & _ & _ & Hi) & _); split; [exact Hw|split; [reflexivity|split; [exact Hunm|exact Hi]]]).
  eapply gpu_weaken; [|apply (C103_gpu_masked cx cd (dense [T; N]) (dense [T; N]) [] data mask Few Mok)]. cbn beta. intros out Ho.
  assert (Hall : enumerates [T; N] [] [0] (all_indices [T; N])).
  { split; [apply all_indices_nodup|]. intros idx. rewrite in_all_indices. split; [intros R; split; [exact R|]|tauto]. apply in_range2 in R as (t & c & -> & _). reflexivity. }
  set (pair2 := fun idx : list Z => match idx with [t; c] => (t, c) | _ => (0, 0) end).
  set (fs := unmasked (dense [T; N]) mask (all_indices [T; N])).
  assert (Hfs : forall idx, In idx fs <-> exists t c, idx = [t; c] /\ 0 <= t < T /\ 0 <= c < N /\ M t c = 0).
  { intros idx. unfold fs, unmasked. rewrite filter_In, in_all_indices, in_range2. split.
    - intros ((t & c & -> & Ht & Hc) & Hz). exists t, c. destruct Hm as (_ & _ & _ & Hm). rewrite (Hm t c Ht Hc) in Hz. repeat split; auto; lia.
    - intros (t & c & -> & Ht & Hc & Hz). split; [eauto 6|]. destruct Hm as (_ & _ & _ & Hm). rewrite (Hm t c Ht Hc). lia. }
  assert (Hnd : NoDup fs) by (unfold fs, unmasked; apply NoDup_filter, all_indices_nodup).
  assert (Huf : unflagged T N M (map pair2 fs)).
  { split.
    - assert (Q : forall l, (forall idx, In idx l -> exists t c, idx = [t; c]) -> NoDup l -> NoDup (map pair2 l)).
      { induction l as [|x l IH]; intros H1 H2; [constructor|]. inversion H2; subst. cbn. constructor; [|apply IH; [intros; apply H1; now right|auto]].
        intros Hin. apply in_map_iff in Hin as (y & Ey & Hy). destruct (H1 x (or_introl eq_refl)) as (t & c & ->). destruct (H1 y (or_intror Hy)) as (t' & c' & ->).
        cbn in Ey. injection Ey as -> ->. auto. }
      apply Q; [|exact Hnd]. intros idx Hin. apply Hfs in Hin as (t & c & -> & _). eauto.
    - intros t c. rewrite in_map_iff. split.
      + intros (idx & E1 & Hin). apply Hfs in Hin as (t' & c' & -> & H). cbn in E1. injection E1 as -> ->. exact H.
      + intros H. exists [t; c]. split; [reflexivity|]. apply Hfs. eauto. }
  set (gs := map pair2 fs) in *.
  assert (Rd : reads data (dense [T; N]) fs (map (fun tc => S (fst tc) (snd tc)) gs)).
  { unfold gs. rewrite map_map. assert (Q : forall l, (forall idx, In idx l -> In idx fs) -> reads data (dense [T; N]) l (map (fun x => S (fst (pair2 x)) (snd (pair2 x))) l)).
    { induction l as [|x l IH]; intros Hi; [constructor|]. constructor; [|apply IH; intros; apply Hi; now right]. destruct (proj1 (Hfs x) (Hi x (or_introl eq_refl))) as (t & c & -> & Ht & Hc & _). destruct Hd as (_ & _ & _ & Hd). exact (Hd t c Ht Hc). }
    apply Q. auto. }
  destruct (Ho [0] (all_indices [T; N]) _ ltac:(repeat constructor; lia) Hall Rd) as (v & Hv & Hgood).
  pose proof (unflagged_perm T N M es gs Hu Huf) as Pm.
  assert (Em : exact_mean S gs = mu) by (symmetry; apply mean_perm, Pm). assert (Eq : exact_square S gs = exact_square S es) by (symmetry; apply square_perm, Pm).
  assert (Ev : exact_variance S gs = exact_variance S es) by (unfold exact_variance; now rewrite Eq, Em).
  assert (El : zlen gs = zlen es) by (unfold zlen; now rewrite (Permutation_length Pm)).
  destruct (gpu_estimate eps S gs (v 0%nat) (v 1%nat)) as (F1 & F2 & U0 & Sg & B1 & B2).
  { rewrite El. unfold zlen. destruct es; [contradiction|cbn [length]; lia]. }
  { intros t c Hi. apply Huf in Hi as (H1 & H2 & _). now apply Hb. }
  { unfold clear_spread. rewrite El, Eq, Ev. exact Hsp. }
  { exact Hgood. }
  rewrite Em in B1, U0. rewrite Ev in B2, Sg. fold sigma in B2, Sg.
  pose proof (Hv 0%nat ltac:(lia)) as V0. pose proof (Hv 1%nat ltac:(lia)) as V1. change (Z.of_nat 0) with 0 in V0. change (Z.of_nat 1) with 1 in V1.
  set (floor := v 0%nat) in *. set (power := v 1%nat) in *. clearbody floor power. clear v Hv Hgood Ho Rd Huf Hnd Hfs Hall.
  exists floor, power. split; [exact V0|]. split; [exact V1|].
  destruct Hsp as (He & _). pose proof (bpow_gt_0 radix2 (-70)) as P70. pose proof B1 as B1'. pose proof B2 as B2'. apply Rabs_le_inv in B1'. apply Rabs_le_inv in B2'.
  split; [exact He|]. split; [apply Sg|]. split; [exact B1|]. split; [exact B2|].
  { split; [exact Hg|]. split; [exact Hs|]. split; [exact Hb|]. split; [exact Ft|]. split; [exact Bt|]. split; [exact F1|]. split; [|split; [exact F2|split]].
    - replace (B2R floor) with ((B2R floor - mu) + mu)%R by ring. eapply Rle_trans; [apply Rabs_triang|]. rewrite (Rabs_pos_eq mu) by lra. apply Rle_trans with (floor_error mu + mu)%R; [lra|]. unfold floor_error.
      assert (bpow radix2 (-140) <= / 4 * bpow radix2 100)%R. { replace (/ 4 * bpow radix2 100)%R with (bpow radix2 98); [apply bpow_le; lia|]. change (/ 4)%R with (bpow radix2 (-2)). rewrite <- bpow_plus. reflexivity. }
      change 101 with (100 + 1). rewrite bpow_plus_1. change (IZR radix2) with 2%R. lra.
    - apply Rle_trans with (/ 2 * sigma)%R; [|nra]. apply Rle_trans with (bpow radix2 (-71)); [apply bpow_le; lia|]. replace (bpow radix2 (-71)) with (/ 2 * bpow radix2 (-70))%R; [lra|]. change (/ 2)%R with (bpow radix2 (-1)). rewrite <- bpow_plus. reflexivity.
    - apply Rle_trans with (2 * sigma)%R; [nra|]. apply Rle_trans with (bpow radix2 62); [|apply bpow_le; lia]. replace (bpow radix2 62) with (2 * bpow radix2 61)%R; [lra|]. change 2%R with (bpow radix2 1). rewrite <- bpow_plus. reflexivity. }
Qed.
(** ** From samples to protohits *)
Theorem C104_cuda_from_samples : forall cx cd o data mask T N S M es eps,
  channel_of data T N S -> channel_of mask T N M -> T * N < 2 ^ 31 -> unflagged T N M es -> es <> [] -> clear_spread eps S es -> bright T N S ->
  cuda_grid o T N -> short_lines o T -> is_finite (s_threshold o) = true -> (bpow radix2 (-125) <= B2R (s_threshold o))%R ->
  let mu := exact_mean S es in let sigma := sqrt (exact_variance S es) in let D := grid_size (s_low o) (s_high o) (s_step o) in
  room_for_passing o T N S mu sigma eps ->
  gpu_yields (gv_mmean_stddev cx cd) (dense [T; N]) (dense [T; N]) [] data mask (fun out => exists floor power, out 0 [0] = Some floor /\ out 1 [0] = Some power /\
    (Rabs (B2R floor - mu) <= floor_error mu)%R /\ (Rabs (B2R power - sigma) <= eps * sigma)%R /\
    (forall junk blocks bdim G, 0 < blocks -> 0 < bdim -> 0 < G -> exists res, cuda_search o floor power T N data mask junk blocks bdim G res) /\
    forall res, cuda_found o T N S floor power res ->
      NoDup res /\
      (forall x, In x res -> exists c, x = Some (fst c * N + snd c) /\ reportable o N c /\ may_pass o T N S mu sigma eps c) /\
      (forall c, reportable o N c -> must_pass o T N S mu sigma eps c -> (forall d, bin D N d -> ~ reportable o N d -> ~ may_pass o T N S mu sigma eps d) ->
        exists w, reported N res w /\ reportable o N w /\ may_pass o T N S mu sigma eps w /\ f32gt (gpu_snr o T N S floor power c) (gpu_snr o T N S floor power w) = false)).
Proof.
  intros cx cd o data mask T N S M es eps Hd Hm HTN Hu Hne Hsp Hb Hg Hs Ft Bt mu sigma D Hroom.
  assert (TN : 2 <= T /\ 0 < N) by (destruct Hg as (? & ? & _); lia). destruct TN as (T2 & N1).
  eapply gpu_weaken; [|exact (noise_from_gpu cx cd o data mask T N S M es eps Hd Hm HTN Hu Hne Hsp Hb Hg Hs Ft Bt)]. cbn beta. intros out (floor & power & V0 & V1 & He & Sg & B1 & B2 & Us).
  fold mu in B1. fold sigma in B2, Sg. destruct Hd as (Hd & _). destruct Hm as (Hm & _). exists floor, power. split; [exact V0|]. split; [exact V1|]. split; [exact B1|]. split; [exact B2|].
  pose proof (bpow_gt_0 radix2 (-70)) as P70. pose proof B1 as B1'. pose proof B2 as B2'. apply Rabs_le_inv in B1'. apply Rabs_le_inv in B2'.
  assert (Tp : (0 < B2R (s_threshold o))%R) by (pose proof (bpow_gt_0 radix2 (-125)); lra).
  assert (HL : 2 <= s_distance o) by (destruct Hg as (_ & _ & _ & _ & _ & HL); exact HL).
  assert (Nz : forall c, bin D N c -> (0 < line_noise o T sigma c /\ line_noise o T sigma c * (1 - eps) <= line_noise o T (B2R power) c <= line_noise o T sigma c * (1 + eps))%R).
  { intros c Hc. destruct (met_count o T N S floor power Us c Hc) as (_ & _ & (C1 & _) & _). assert (I : (0 < / sqrt (line_count o T c))%R) by (apply Rinv_0_lt_compat, sqrt_lt_R0; lra). unfold line_noise, Rdiv.
    split; [apply Rmult_lt_0_compat; lra|]. set (q := (/ sqrt (line_count o T c))%R) in *. clearbody q. split.
    - replace (sigma * q * (1 - eps))%R with ((sigma - eps * sigma) * q)%R by ring. apply Rmult_le_compat_r; lra.
    - replace (sigma * q * (1 + eps))%R with ((sigma + eps * sigma) * q)%R by ring. apply Rmult_le_compat_r; lra. }
  assert (Pass : forall c, bin D N c -> f32gt (gpu_snr o T N S floor power c) (s_threshold o) = true -> may_pass o T N S mu sigma eps c).
  { intros c Hc Gc. pose proof (gpu_exceeded o T N S floor power Us c Hc Gc) as E. destruct (Nz c Hc) as (N1' & N2 & _). unfold may_pass.
    assert (B2R (s_threshold o) * line_noise o T sigma c * ((1 - eps) * (1 - bpow radix2 (-22))) <= B2R (s_threshold o) * line_noise o T (B2R power) c * (1 - bpow radix2 (-22)))%R; [|lra].
    rewrite !Rmult_assoc. apply Rmult_le_compat_l; [lra|]. rewrite <- Rmult_assoc. apply Rmult_le_compat_r; [|exact N2]. change (bpow radix2 (-22)) with (/ IZR 4194304)%R. lra. }
  assert (Must : forall c, bin D N c -> must_pass o T N S mu sigma eps c -> (B2R (s_threshold o) * line_noise o T (B2R power) c * (1 + bpow radix2 (-21)) + met_rounding o T N S c <= met_average o T N S c - B2R floor)%R).
  { intros c Hc H. unfold must_pass in H. destruct (Nz c Hc) as (N1' & _ & N3).
    assert (B2R (s_threshold o) * line_noise o T (B2R power) c * (1 + bpow radix2 (-21)) <= B2R (s_threshold o) * line_noise o T sigma c * ((1 + eps) * (1 + bpow radix2 (-21))))%R; [|lra].
    rewrite !Rmult_assoc. apply Rmult_le_compat_l; [lra|]. rewrite <- Rmult_assoc. apply Rmult_le_compat_r; [|exact N3]. pose proof (bpow_gt_0 radix2 (-21)). lra. }
  assert (Rb : forall c, reportable o N c -> bin D N c) by (intros c Hc; destruct Hg as (_ & HN & _ & HD & _); unfold reportable in Hc; fold D in Hc; unfold bin; lia).
  assert (Room : enough_room o T N S floor power).
  { intros ps Hn Hps. apply (Hroom ps Hn). intros c Hc. destruct (Hps c Hc) as (((H1 & H2 & _) & _) & H3). split; [apply (reportable_inner o N c HL); exact H2|]. apply Pass; [exact H1|exact H3]. }
  split; [intros junk blocks bdim G Hbl Hbd HG; exact (C95_completes o T N S floor power Us Room data mask junk blocks bdim G M Hd Hm Hbl Hbd HG)|].
  intros res Hf. destruct (C95_reports_are_real o T N S floor power res Us Room Hf) as (Hn & Hreal). split; [exact Hn|].
  assert (Real : forall c, reported N res c -> may_pass o T N S mu sigma eps c).
  { intros c (Hc & Hi). destruct (Hreal _ Hi) as (d & E & (Hd2 & _) & Hr & Gd & _). injection E as E. assert (c = d).
    { destruct c as (a1 & a2), d as (b1 & b2). cbn [fst snd] in *. assert (b1 = a1) by (clear - E Hc Hd2 N1; nia). assert (b2 = a2) by (clear - E H; nia). congruence. }
    subst d. apply Pass; [now apply Rb|exact Gd]. }
  split.
  - intros x Hx. destruct (Hreal x Hx) as (c & -> & Hrep & Hr & Gc & _). exists c. split; [reflexivity|]. split; [exact Hr|]. now apply Real.
  - intros c Hc H Hbord. destruct (C95_quiet_border o T N S floor power res Us Room Hf c Hc (Must c (Rb c Hc) H)) as (w & Hw & Hrw & Gw).
    + intros d Hdb Hnr. specialize (Hbord d Hdb Hnr). unfold may_pass in Hbord. apply Rnot_le_lt in Hbord. destruct (Nz d Hdb) as (N1' & N2 & _).
      assert (B2R (s_threshold o) * line_noise o T sigma d * ((1 - eps) * (1 - bpow radix2 (-22))) <= B2R (s_threshold o) * line_noise o T (B2R power) d * (1 - bpow radix2 (-22)))%R; [|lra].
      rewrite !Rmult_assoc. apply Rmult_le_compat_l; [lra|]. rewrite <- Rmult_assoc. apply Rmult_le_compat_r; [|exact N2]. change (bpow radix2 (-22)) with (/ IZR 4194304)%R. lra.
    + exists w. split; [exact Hw|]. split; [exact Hrw|]. split; [now apply Real|exact Gw].
Qed.
Print Assumptions C104_cuda_from_samples.

(** ** A case: the channel of C95 with its first column flagged and a threshold of 4. *)
Definition h_opts : search_options := Options (-2) 3 1 false ConnectedComponents (f32_of_Z 4) 2.
Definition h_flags (t c : Z) : Z := if c =? 0 then 1 else 0.
Definition h_clear : list (Z * Z) := filter (fun tc => h_flags (fst tc) (snd tc) =? 0) (list_prod (zrange 2) (zrange 16)).
Lemma h_unflagged : unflagged 2 16 h_flags h_clear.
Proof.
  split; [vm_compute; repeat (constructor; [cbn; intuition discriminate|]); constructor|]. intros t c. unfold h_clear. rewrite filter_In, in_prod_iff, !in_zrange. cbn [fst snd]. lia.
Qed.
Lemma h_stats : exact_mean g_line h_clear = (20 / 3)%R /\ exact_square g_line h_clear = (2000 / 3)%R /\ exact_variance g_line h_clear = (5600 / 9)%R.
Proof.
  assert (A : exact_mean g_line h_clear = (20 / 3)%R).
  { unfold exact_mean. rewrite (total_ints _ g_int) by (intros; apply g_val). replace (isum g_int h_clear) with 200 by (vm_compute; reflexivity). replace (zlen h_clear) with 30 by (vm_compute; reflexivity). lra. }
  assert (B : exact_square g_line h_clear = (2000 / 3)%R).
  { rewrite (square_ints _ g_int) by (intros; apply g_val). replace (isum (fun t c => g_int t c * g_int t c) h_clear) with 20000 by (vm_compute; reflexivity). replace (zlen h_clear) with 30 by (vm_compute; reflexivity). lra. }
  split; [exact A|]. split; [exact B|]. unfold exact_variance. rewrite A, B. lra.
Qed.
Lemma h_noise d f : (17 <= line_noise h_opts 2 (sqrt (exact_variance g_line h_clear)) (d, f) <= 18)%R /\ line_count h_opts 2 (d, f) = 2%R.
Proof.
  assert (E : line_count h_opts 2 (d, f) = 2%R) by reflexivity. split; [|exact E]. unfold line_noise. rewrite E. destruct h_stats as (_ & _ & ->).
  assert (Q : (0 < sqrt 2)%R) by (apply sqrt_lt_R0; lra). pose proof (sqrt_sqrt 2 ltac:(lra)) as Q2. set (q := sqrt 2) in *. assert (1414 / 1000 <= q <= 1415 / 1000)%R by (split; apply Rnot_lt_le; intros; nra).
  pose proof (sqrt_sqrt (5600 / 9) ltac:(lra)) as P2. pose proof (sqrt_pos (5600 / 9)) as P0. set (p := sqrt (5600 / 9)) in *. assert (249 / 10 <= p <= 250 / 10)%R by (split; apply Rnot_lt_le; intros; nra).
  split; (apply Rmult_le_reg_r with q; [exact Q|]; replace (p / q * q)%R with p by (field; lra); lra).
Qed.
Lemma h_average c : met_average h_opts 2 16 g_line c = met_average (g_opts 2) 2 16 g_line c /\ met_rounding h_opts 2 16 g_line c = met_rounding (g_opts 2) 2 16 g_line c.
Proof. split; reflexivity. Qed.
Lemma h_eps : (0 < bpow radix2 (-150) <= / 16777216 /\ 0 < bpow radix2 (-140) <= / 16777216)%R.
Proof. change (/ 16777216)%R with (bpow radix2 (-24)). split; (split; [apply bpow_gt_0|apply bpow_le; lia]). Qed.
Lemma h_below d f : 0 <= d < 5 -> 0 <= f < 16 -> (d, f) <> (2, 6) -> ~ may_pass h_opts 2 16 g_line (exact_mean g_line h_clear) (sqrt (exact_variance g_line h_clear)) (/ 100) (d, f).
Proof.
  intros Hd Hf Hn. unfold may_pass. apply Rlt_not_le. pose proof (g_half 2 d f Hd Hf Hn) as A. destruct (h_noise d f) as (B & C). destruct (h_average (d, f)) as (E1 & _). unfold met_rounding. rewrite E1, C. unfold floor_error. destruct h_stats as (-> & _).
  change (s_threshold h_opts) with (f32_of_Z 4). rewrite (proj1 (f32_of_Z_ok 4 ltac:(lia))). destruct h_eps as (P & Q). set (a := met_average _ _ _ _ _) in *. set (w := line_noise _ _ _ _) in *. clearbody a w.
  set (p := bpow radix2 (-150)) in *. set (q := bpow radix2 (-140)) in *. clearbody p q. change (bpow radix2 (-24)) with (/ IZR 16777216)%R. change (bpow radix2 (-22)) with (/ IZR 4194304)%R. lra.
Qed.
Example C104_case : channel_of (PropPipe.rows 2 16 g_line) 2 16 g_line /\ channel_of (PropPipe.rows 2 16 h_flags) 2 16 h_flags /\ unflagged 2 16 h_flags h_clear /\ h_clear <> [] /\ clear_spread (/ 100) g_line h_clear /\ bright 2 16 g_line /\
  cuda_grid h_opts 2 16 /\ short_lines h_opts 2 /\ is_finite (s_threshold h_opts) = true /\ (bpow radix2 (-125) <= B2R (s_threshold h_opts))%R /\
  (let mu := exact_mean g_line h_clear in let sigma := sqrt (exact_variance g_line h_clear) in room_for_passing h_opts 2 16 g_line mu sigma (/ 100) /\
    reportable h_opts 16 (2, 6) /\ must_pass h_opts 2 16 g_line mu sigma (/ 100) (2, 6) /\ (forall d, bin 5 16 d -> ~ reportable h_opts 16 d -> ~ may_pass h_opts 2 16 g_line mu sigma (/ 100) d)).
Proof.
  destruct (g_usable 2 ltac:(lia)) as (Hu & _). assert (Rc : reportable h_opts 16 (2, 6)) by (unfold reportable; change (grid_size _ _ _) with 5; cbn; lia). destruct (f32_of_Z_ok 4 ltac:(lia)) as (Vt & Ft).
  split; [apply rows_channel; lia|]. split; [apply rows_channel; lia|]. split; [exact h_unflagged|]. split; [vm_compute; discriminate|]. split; [|split; [apply Hu|split; [exact (proj1 Hu)|split; [exact (proj1 (proj2 Hu))|split; [exact Ft|split]]]]].
  - destruct h_stats as (_ & E2 & E3). unfold clear_spread. rewrite E2, E3. replace (zlen h_clear) with 30 by (vm_compute; reflexivity). split; [lra|]. split.
    + apply Rle_trans with (bpow radix2 20); [change (bpow radix2 20) with (IZR 1048576); lra|apply bpow_le; lia].
    + assert (bpow radix2 (-135) <= bpow radix2 0)%R by (apply bpow_le; lia). change (bpow radix2 0) with 1%R in *. lra.
  - change (s_threshold h_opts) with (f32_of_Z 4). rewrite Vt. apply Rle_trans with (bpow radix2 0); [apply bpow_le; lia|change (bpow radix2 0) with 1%R; lra].
  - intros mu sigma. split; [|split; [exact Rc|split]].
    + intros ps Hnd Hps. assert (L1 : (length ps <= length [((2, 6)%Z : coord)])%nat).
      { apply NoDup_incl_length; [exact Hnd|]. intros (d & f) Hc. destruct (Hps _ Hc) as (Hr & Hp). left. unfold reportable in Hr. change (grid_size _ _ _) with 5 in Hr. change (s_distance h_opts) with 2 in Hr. cbn [fst snd] in Hr.
        destruct (Z.eq_dec d 2) as [->|Nd]; [destruct (Z.eq_dec f 6) as [->|Nf]; [reflexivity|]|]; exfalso; revert Hp; apply h_below; try lia; congruence. }
      change (Z.quot _ _) with 20. unfold zlen. cbn [length] in L1. lia.
    + unfold must_pass, floor_error. destruct (h_noise 2 6) as (B & C). destruct (h_average (2, 6)) as (E1 & _). unfold met_rounding. rewrite E1, C, g_average by lia. replace (isum g_int (g_met 2 6)) with 200 by (vm_compute; reflexivity). replace (zlen (g_met 2 6)) with 2 by (vm_compute; reflexivity).
      unfold mu. destruct h_stats as (-> & _). change (s_threshold h_opts) with (f32_of_Z 4). rewrite Vt. fold sigma in B. destruct h_eps as (P & Q). set (w := line_noise _ _ _ _) in *. clearbody w.
      set (p := bpow radix2 (-150)) in *. set (q := bpow radix2 (-140)) in *. clearbody p q. change (bpow radix2 (-24)) with (/ IZR 16777216)%R. change (bpow radix2 (-21)) with (/ IZR 2097152)%R. lra.
    + intros (d & f) (H1 & H2) Hn. cbn [fst snd] in *. apply h_below; [lia|lia|]. intros E. apply Hn. rewrite E. exact Rc.
Qed.

(** "Samples that vary have noise" is false when the variation is small against the power: a GPU finds no noise in 4096, 4097, contracted or not;
    an average above the floor is then infinitely strong. *)
Definition near (t c : Z) : f32 := f32_of_Z (4096 + c).
Theorem C104_small_variation_refuted : channel_of (PropPipe.rows 1 2 near) 1 2 near /\ channel_of (PropPipe.rows 1 2 (fun _ _ => 0)) 1 2 (fun _ _ => 0) /\ exact_variance near [(0, 0); (0, 1)] = (/ 4)%R /\
  (forall cx cd, gpu_yields (gv_mmean_stddev cx cd) (dense [1; 2]) (dense [1; 2]) [] (PropPipe.rows 1 2 near) (PropPipe.rows 1 2 (fun _ _ => 0)) (fun out => out 1 [0] = Some (f32_of_Z 0))) /\
  (forall floor x thr : f32, is_finite floor = true -> is_finite x = true -> is_finite thr = true -> (B2R floor < B2R x)%R -> f32gt (f32snr floor x (f32_of_Z 0)) thr = true).
Proof.
  assert (R1 : forall V (S : Z -> Z -> V), channel_of (PropPipe.rows 1 2 S) 1 2 S) by (intros; apply rows_channel; lia).
  assert (Vn : forall c, 0 <= c < 2 -> B2R (near 0 c) = IZR (4096 + c)) by (intros c Hc; unfold near; apply f32_of_Z_ok; lia).
  split; [apply R1|]. split; [apply R1|]. split; [|split].
  - unfold exact_variance, exact_square, exact_mean, total. cbn [fold_right fst snd]. change (zlen _) with 2. rewrite !Vn by lia. change (4096 + 0) with 4096. change (4096 + 1) with 4097. lra.
  - intros cx cd. set (x := PropPipe.rows 1 2 near). set (m := PropPipe.rows 1 2 (fun _ _ => 0)). assert (Hp : posl [1; 2]) by (repeat constructor; lia).
    destruct (PropGred.dense_ok x [1; 2] []) as ((Hr & HP & Hn) & U); [exact Hp|vm_compute; discriminate|split; constructor|reflexivity|reflexivity|].
    destruct (PropGred.dense_ok m [1; 2] []) as ((Hr2 & _) & U2); [exact Hp|vm_compute; discriminate|split; constructor|reflexivity|reflexivity|].
    pose proof (unsliced_eq _ U) as El. assert (Hr' : red_hyps x (unshift (dense [1; 2])) []) by now rewrite El.
    assert (Hm : wf (dense [1; 2]) /\ l_shape (dense [1; 2]) = l_shape (dense [1; 2]) /\ inside (unshift (dense [1; 2])) (zlen m)) by (rewrite El; destruct Hr2 as (Hw & _ & _ & _ & Hi); split; [exact Hw|split; [reflexivity|exact Hi]]).
    destruct (gpu_reduce (gv_mmean_stddev cx cd) (dense [1; 2]) (dense [1; 2]) [] x m (proj1 Hr) Hr' HP Hn (fun _ => Hm) ltac:(discriminate) (f32_of_Z 0)) as (Hy & _).
    eapply gpu_weaken; [|exact Hy]. cbn beta. intros out Ho. change (out 1 [0]) with (out (Z.of_nat 1) [0]). rewrite (Ho [0] 1%nat (mstdv cd)); [|repeat constructor; cbn; lia|reflexivity]. f_equal. destruct cx, cd; vm_compute; reflexivity.
  - intros floor x thr Ff Fx Ft Hlt. change (f32_of_Z 0) with (B754_zero false : f32). unfold f32snr.
    assert (Z : exists s, (s = B754_infinity false \/ exists mm e h, s = B754_finite false mm e h) /\ Bminus mode_NE x floor = s).
    { pose proof (Bminus_correct 24 128 _ _ mode_NE x floor Fx Ff) as C. set (rr := round radix2 _ _ (B2R x - B2R floor)) in C. assert (N0 : (rr <> 0)%R).
      { apply round_plus_neq_0; [exact (fexp_correct 24 128 prec24)|exact (@monotone_exp_not_FTZ _ (fexp_correct 24 128 prec24) (fexp_monotone 24 128))|apply valid_rnd_round_mode|apply generic_format_B2R|apply generic_format_opp, generic_format_B2R|lra]. }
      assert (P0 : (0 <= rr)%R) by (apply round_ge_generic; [exact (fexp_correct 24 128 prec24)|apply valid_rnd_round_mode|apply generic_format_0|lra]). clearbody rr. destruct (Rlt_bool_spec (Rabs rr) (bpow radix2 128)) as [Hb|Hb].
      - destruct C as (V & F & _). assert (P : (0 < B2R (Bminus mode_NE x floor))%R).
        { rewrite V. lra. }
        destruct (Bminus mode_NE x floor) as [s|s| |s mm e h]; try discriminate; [cbn in P; lra|]. destruct s; [|eauto 8]. exfalso. revert P. cbn [B2R]. intros P. assert (Q : (F2R (Float radix2 (Zneg mm) e) < 0)%R) by (apply F2R_lt_0; reflexivity). unfold cond_Zopp in P. change (- Z.pos mm) with (Z.neg mm) in P. lra.
      - destruct C as (V & Sg). assert (Bsign x = false).
        { destruct x as [s|s| |s mm e h]; destruct floor as [s'|s'| |s' mm' e' h']; try discriminate; cbn in Sg |- *; destruct s, s'; try discriminate; try reflexivity; exfalso; cbn [B2R cond_Zopp] in Hlt;
            try lra; repeat match goal with H : context [F2R (Float radix2 (- Z.pos ?p) ?e)] |- _ => pose proof (F2R_lt_0 radix2 (Float radix2 (- Z.pos p) e) eq_refl); set (F2R (Float radix2 (- Z.pos p) e)) in *
              | H : context [F2R (Float radix2 (Z.pos ?p) ?e)] |- _ => pose proof (F2R_gt_0 radix2 (Float radix2 (Z.pos p) e) eq_refl); set (F2R (Float radix2 (Z.pos p) e)) in * end; lra. }
        rewrite H in V. cbn in V. destruct (Bminus mode_NE x floor) as [s|s| |s mm e h]; try discriminate. injection V as ->. eauto. }
    destruct Z as (s & Hs & ->). assert (E : Bdiv mode_NE s (B754_zero false : f32) = B754_infinity false) by (destruct Hs as [->|(mm & e & h & ->)]; reflexivity). rewrite E. unfold f32gt. destruct thr as [[|]|[|]| |[|] mm e h]; try discriminate; reflexivity.
Qed.
Print Assumptions C104_small_variation_refuted.
