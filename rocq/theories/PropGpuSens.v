(** C95: what the search on CUDA detects, from sample powers to protohits. *)
From Verif Require Import CcCudaSpec CcCudaClass CcCudaProofs PropCcCuda GpuSearchModel GpuSensProofs.
From Verif Require Import DriftAgree PipeModel DriftSearchProofs DriftProofs CudaOffsetProofs CcSpec PropDrift PropCc PropPipe FsumModel FsumProofs FsumProofs2.
From Verif Require Import DsumProofs SensProofs PropDsum PropSens.
From Coq Require Import ZifyBool ZifyNat Lia Reals Lra Psatz.
From Flocq Require Import Core BinarySingleNaN.
Local Open Scope Z_scope.

(** ** What is expected *)
Section Gpu.
  Variables (o : search_options) (T N : Z) (S : Z -> Z -> f32) (floor power : f32).
  Notation D := (grid_size (s_low o) (s_high o) (s_step o)).
  Notation L := (s_distance o).
  (** A drift grid that is not empty; lines may be longer than the channel. *)
  Definition cuda_grid : Prop := 2 <= T <= 2 ^ 24 /\ 0 < N /\ s_step o <> 0 /\ 0 < D /\ DriftSearchProofs.moderate (s_low o) (s_high o) (s_step o) /\ 2 <= L.
  (** The samples that the line of a bin meets in the band, and their exact average. *)
  Definition met (c : coord) : list (Z * Z) := track_in_band N T (cuda_rate T (s_desmear o) (line_span o c)) (snd c).
  Definition met_average (c : coord) : R := (total S (met c) / IZR (zlen (met c)))%R.
  Definition met_rounding (c : coord) : R := ((2 * line_count o T c + 4) * bpow radix2 (-24) * met_average c + 4 * bpow radix2 (-150))%R.
  (** The bins the search can report: at least [L] drifts after the first and before the end, and as many channels (one less at the lower end). *)
  Definition reportable (c : coord) : Prop := L <= fst c <= D - L /\ L - 1 <= snd c <= N - L.
  Definition gpu_power (c : coord) : f32 := cuda_value (f32_of_Z 0) add32 f32_div_int T N S (cuda_rate T (s_desmear o) (line_span o c)) (snd c).
  Definition gpu_snr (c : coord) : f32 := f32snr floor (gpu_power c) (bin_noise o T power (fst c)).
  Definition cuda_usable : Prop := cuda_grid /\ short_lines o T /\ bright T N S /\
    is_finite (s_threshold o) = true /\ (bpow radix2 (-125) <= B2R (s_threshold o))%R /\
    is_finite floor = true /\ (Rabs (B2R floor) <= bpow radix2 101)%R /\ is_finite power = true /\ (bpow radix2 (-80) <= B2R power <= bpow radix2 90)%R.
  (** The table of protohits has room for all peaks. *)
  Definition enough_room : Prop := forall ps, NoDup ps -> (forall c, In c ps -> peak f32gt (s_threshold o) (f32half (s_threshold o)) D N L gpu_snr c) -> 8 + zlen ps <= Z.quot (D * N) (L * L).
End Gpu.

(** ** Facts *)
Lemma reportable_inner o N c : 2 <= s_distance o -> inner (grid_size (s_low o) (s_high o) (s_step o)) N (s_distance o) c <-> reportable o N c.
Proof.
  intros HL. set (D := grid_size _ _ _). unfold inner, reportable. fold D. set (L := s_distance o) in *. destruct c as (d & f). unfold nb, bin. cbn [fst snd]. split.
  - intros H. pose proof (H (d - L, f)) as H1. pose proof (H (d + L - 1, f)) as H2. pose proof (H (d, f - (L - 1))) as H3. pose proof (H (d, f + (L - 1))) as H4. cbn [fst snd] in *. clear H. lia.
  - intros H (d' & f') Hn. cbn [fst snd] in *. lia.
Qed.
Section Facts.
  Variables (o : search_options) (T N : Z) (S : Z -> Z -> f32) (floor power : f32).
  Notation D := (grid_size (s_low o) (s_high o) (s_step o)).
  Notation L := (s_distance o).
  Hypothesis Hu : cuda_usable o T N S floor power.
  Local Open Scope R_scope.
  Lemma met_count c : bin D N c -> (0 < zlen (met o T N c))%Z /\ IZR (zlen (met o T N c)) <= line_count o T c /\ 1 <= line_count o T c <= bpow radix2 21 /\ short_rate T (cuda_rate T (s_desmear o) (line_span o c)).
  Proof.
    destruct Hu as ((HT & HN & _ & HD & Hm & HL) & Hs & _). intros (Hd & Hf). pose proof (Hs (fst c) Hd) as Hl. change (width T (s_desmear o) (grid_span (s_low o) (s_step o) (fst c))) with (line_width o T c) in Hl.
    assert (W : (1 <= line_width o T c)%Z) by (unfold line_width; apply width_pos). set (r := cuda_rate T (s_desmear o) (line_span o c)).
    assert (Sr : short_rate T r) by (split; [exact W|exact Hl]). split; [|split; [|split; [|exact Sr]]].
    - assert (H0 : In (0%Z, snd c) (met o T N c)).
      { unfold met, track_in_band. apply filter_In. split; [|cbn [snd]; lia]. apply in_map_iff. exists (0%Z, 0%Z). split.
        - cbn [fst snd]. f_equal. unfold track_channel. fold r. unfold r. rewrite cuda_rate_off by lia. rewrite offc_0. destruct (r_nonneg _); lia.
        - fold r. apply in_steps. change (r_desmear r) with (line_width o T c). lia. }
      destruct (met o T N c) as [|x l]; [destruct H0|]. unfold zlen. cbn [length]. lia.
    - apply IZR_le. unfold met. fold r. apply (band_short N T r); cbn [r r_desmear cuda_rate]; [lia|]. unfold line_width in W. lia.
    - unfold line_count. split; [apply IZR_le; nia|]. change (bpow radix2 21) with (IZR (2 ^ 21)). apply IZR_le. exact Hl.
  Qed.
  Lemma met_in c t ch : In (t, ch) (met o T N c) -> (0 <= t < T)%Z /\ (0 <= ch < N)%Z.
  Proof. unfold met. apply band_bins. Qed.
  Lemma met_bounds c lo hi : bin D N c -> (forall t ch, In (t, ch) (met o T N c) -> lo <= B2R (S t ch) <= hi) -> lo <= met_average o T N S c <= hi.
  Proof.
    intros Hc H. destruct (met_count c Hc) as (P & _). apply IZR_lt in P. pose proof (total_between S (met o T N c) lo hi H) as (A1 & A2). unfold met_average.
    split; apply Rmult_le_reg_r with (IZR (zlen (met o T N c))); try lra; replace (total S (met o T N c) / IZR (zlen (met o T N c)) * IZR (zlen (met o T N c))) with (total S (met o T N c)) by (field; lra); lra.
  Qed.
  Lemma gpu_close c : bin D N c -> let x := gpu_power o T N S c in is_finite x = true /\ Rabs (B2R x - met_average o T N S c) <= met_rounding o T N S c /\ Rabs (B2R x) <= bpow radix2 101 /\ 0 <= met_average o T N S c.
  Proof.
    intros Hc x. destruct (met_count c Hc) as (P & Lb & (C1 & C2) & Sr). destruct Hu as ((HT & _) & _ & Hb & _).
    assert (Tm : tame T N S) by (intros t ch Ht Hch; destruct (Hb t ch Ht Hch) as (F & P1 & P2); split; [exact F|]; now rewrite Rabs_pos_eq).
    pose proof (cuda_average T N S (cuda_rate T (s_desmear o) (line_span o c)) (snd c) ltac:(lia) Sr Tm P) as V. fold (met o T N c) in V.
    change (cuda_value f0 fplus fdiv T N S (cuda_rate T (s_desmear o) (line_span o c)) (snd c)) with x in V.
    assert (Ps : forall t ch, In (t, ch) (met o T N c) -> 0 <= B2R (S t ch)) by (intros t ch Hi; apply Hb; apply (met_in _ _ _ Hi)).
    pose proof (C92_relative S _ _ _ x Ps V) as B. destruct V as (F & _).
    destruct (met_bounds c 0 (bpow radix2 100) Hc) as (A1 & A2); [intros t ch Hi; apply Hb; apply (met_in _ _ _ Hi)|]. fold (met_average o T N S c) in B.
    pose proof (bpow_gt_0 radix2 (-24)) as U. pose proof (bpow_gt_0 radix2 (-150)) as H.
    assert (B' : Rabs (B2R x - met_average o T N S c) <= met_rounding o T N S c).
    { eapply Rle_trans; [exact B|]. unfold met_rounding. apply Rplus_le_compat; [|apply Rle_refl]. apply Rmult_le_compat_r; [exact A1|]. apply Rmult_le_compat_r; lra. }
    split; [exact F|]. split; [exact B'|]. split; [|exact A1].
    assert (E1 : 0 <= (2 * line_count o T c + 4) * bpow radix2 (-24) <= / 2). { split; [apply Rmult_le_pos; lra|]. change (bpow radix2 21) with (IZR 2097152) in C2. change (bpow radix2 (-24)) with (/ IZR 16777216). lra. }
    assert (E3 : 4 * bpow radix2 (-150) <= bpow radix2 (-100)). { replace (bpow radix2 (-100)) with (bpow radix2 50 * bpow radix2 (-150)) by (rewrite <- bpow_plus; reflexivity). apply Rmult_le_compat_r; [lra|]. change (bpow radix2 50) with (IZR 1125899906842624). lra. }
    assert (E4 : bpow radix2 (-100) <= / 4 * bpow radix2 100). { replace (/ 4 * bpow radix2 100) with (bpow radix2 98); [apply bpow_le; lia|]. change (/ 4) with (bpow radix2 (-2)). rewrite <- bpow_plus. reflexivity. }
    replace (B2R x) with ((B2R x - met_average o T N S c) + met_average o T N S c) by ring. eapply Rle_trans; [apply Rabs_triang|]. rewrite (Rabs_pos_eq (met_average o T N S c)) by exact A1.
    unfold met_rounding in B'. change 101%Z with (100 + 1)%Z. rewrite bpow_plus_1. change (IZR radix2) with 2. assert ((2 * line_count o T c + 4) * bpow radix2 (-24) * met_average o T N S c <= / 2 * bpow radix2 100) by (apply Rmult_le_compat; lra). lra.
  Qed.
  Lemma gpu_noise c : bin D N c -> let w := bin_noise o T power (fst c) in let sigma := line_noise o T (B2R power) c in
    is_finite w = true /\ Rabs (B2R w - sigma) <= 2 * u32 * sigma /\ 0 < sigma /\ 0 < B2R w.
  Proof.
    intros Hc w sigma. destruct (met_count c Hc) as (_ & _ & (C1 & C2) & _). destruct Hu as ((HT & _) & Hs & _ & _ & _ & _ & _ & Fp & Bp). pose proof u32_pos as U. pose proof u32_small as U'.
    assert (W : (1 <= line_width o T c)%Z) by (unfold line_width; apply width_pos). destruct Hc as (Hd & _). pose proof (Hs (fst c) Hd) as Hl. change (width T (s_desmear o) (grid_span (s_low o) (s_step o) (fst c))) with (line_width o T c) in Hl.
    destruct (C78_noise_accuracy power T (line_width o T c) Fp Bp ltac:(nia)) as (F & B). change (mean_noise power T (line_width o T c)) with w in F, B. change (IZR (T * line_width o T c)) with (line_count o T c) in B. fold (line_noise o T (B2R power) c) in B. fold sigma in B.
    assert (P : 0 < sigma). { unfold sigma, line_noise, Rdiv. apply Rmult_lt_0_compat; [pose proof (bpow_gt_0 radix2 (-80)); lra|]. apply Rinv_0_lt_compat, sqrt_lt_R0. lra. }
    change (bpow radix2 (-23)) with (/ IZR 8388608) in B. assert (B' : Rabs (B2R w - sigma) <= 2 * u32 * sigma) by (rewrite u32_val; lra).
    split; [exact F|]. split; [exact B'|]. split; [exact P|]. apply Rabs_le_inv in B'. nra.
  Qed.
  Lemma gpu_number c : bin D N c -> is_nan (gpu_snr o T N S floor power c) = false.
  Proof.
    intros Hc. destruct (gpu_close c Hc) as (Fx & _ & Bx & _). destruct (gpu_noise c Hc) as (Fw & _ & _ & Pw). destruct Hu as (_ & _ & _ & _ & _ & Ff & Bf & _).
    destruct (difference _ _ Fx Ff Bx Bf) as (Fd & _). exact (proj1 (quotient _ _ Fd Fw Pw)).
  Qed.
  Lemma gpu_exceeds c : bin D N c -> B2R (s_threshold o) * line_noise o T (B2R power) c * (1 + bpow radix2 (-21)) + met_rounding o T N S c <= met_average o T N S c - B2R floor -> f32gt (gpu_snr o T N S floor power c) (s_threshold o) = true.
  Proof.
    intros Hc H. destruct (gpu_close c Hc) as (Fx & Ex & Bx & _). destruct (gpu_noise c Hc) as (Fw & Ew & Ps & Pw). destruct Hu as (_ & _ & _ & Ft & Bt & Ff & Bf & _). pose proof u32_pos as U. pose proof u32_small as U'.
    assert (Bt' : bpow radix2 (-126) <= B2R (s_threshold o)) by (apply Rle_trans with (2 := Bt); apply bpow_le; lia). pose proof (bpow_gt_0 radix2 (-126)) as P.
    apply exceeds; try assumption. apply Rabs_le_inv in Ex. apply Rabs_le_inv in Ew. apply Rle_trans with (met_average o T N S c - met_rounding o T N S c - B2R floor); [|lra].
    apply Rle_trans with (B2R (s_threshold o) * line_noise o T (B2R power) c * (1 + bpow radix2 (-21))); [|lra]. rewrite !Rmult_assoc. apply Rmult_le_compat_l; [lra|].
    apply Rle_trans with (line_noise o T (B2R power) c * (1 + 2 * u32) * (1 + 4 * u32)); [apply Rmult_le_compat_r; lra|]. rewrite Rmult_assoc. apply Rmult_le_compat_l; [lra|].
    change (bpow radix2 (-21)) with (/ IZR 2097152). replace (/ IZR 2097152) with (8 * u32) by (rewrite u32_val; lra). nra.
  Qed.
  Lemma gpu_exceeded c : bin D N c -> f32gt (gpu_snr o T N S floor power c) (s_threshold o) = true -> B2R (s_threshold o) * line_noise o T (B2R power) c * (1 - bpow radix2 (-22)) - met_rounding o T N S c <= met_average o T N S c - B2R floor.
  Proof.
    intros Hc Gt. destruct (gpu_close c Hc) as (Fx & Ex & Bx & _). destruct (gpu_noise c Hc) as (Fw & Ew & Ps & Pw). destruct Hu as (_ & _ & _ & Ft & Bt & Ff & Bf & _). pose proof u32_pos as U. pose proof u32_small as U'.
    pose proof (bpow_gt_0 radix2 (-125)) as P.
    pose proof (exceeded _ _ _ _ Fx Ff Fw Ft Bx Bf Pw ltac:(lra) Gt) as R1. apply Rabs_le_inv in Ex. apply Rabs_le_inv in Ew.
    apply Rle_trans with (B2R (gpu_power o T N S c) - met_rounding o T N S c - B2R floor); [|lra].
    assert (B2R (s_threshold o) * line_noise o T (B2R power) c * (1 - bpow radix2 (-22)) <= B2R (s_threshold o) * B2R (bin_noise o T power (fst c)) * (1 - u32)); [|lra].
    rewrite !Rmult_assoc. apply Rmult_le_compat_l; [lra|]. apply Rle_trans with (line_noise o T (B2R power) c * (1 - 2 * u32) * (1 - u32)); [|apply Rmult_le_compat_r; lra]. rewrite Rmult_assoc. apply Rmult_le_compat_l; [lra|].
    change (bpow radix2 (-22)) with (/ IZR 4194304). replace (/ IZR 4194304) with (4 * u32) by (rewrite u32_val; lra). nra.
  Qed.
End Facts.

(** ** From samples to protohits *)
Lemma gsteps_snoc {A V} (eqb : A -> A -> bool) (c c1 c2 : smem * list (prog A V)) : gsteps eqb c (Ok c1) -> gstep eqb c1 (Ok c2) -> gsteps eqb c (Ok c2).
Proof.
  intros H. remember (Ok c1) as x eqn:E. revert E. induction H as [c|c c' x Hst H IH|c Hst]; intros E Hl; [injection E as ->; econstructor 2; [exact Hl|constructor]|econstructor 2; eauto|discriminate].
Qed.
Section Search.
  Variables (o : search_options) (T N : Z) (S : Z -> Z -> f32) (M : Z -> Z -> Z) (floor power : f32).
  Notation D := (grid_size (s_low o) (s_high o) (s_step o)).
  Notation L := (s_distance o).
  Notation thr := (s_threshold o).
  Hypothesis Hu : cuda_usable o T N S floor power.
  Hypothesis Hr : enough_room o T N S floor power.
  Variables (spec : mem f32) (mask : mem Z) (junk : Z -> f32) (blocks bdim G : Z).
  Hypotheses (Hs : holds (dense [T; N]) spec T N S) (Hm : holds (dense [T; N]) mask T N M).
  Hypotheses (Hb : 0 < blocks) (Hd : 0 < bdim) (HG : 0 < G).
  Definition cuda_rates : list rate := map (fun d => cuda_rate T (s_desmear o) (grid_span (s_low o) (s_step o) d)) (zrange D).
  Notation X := (gpu_power o T N S).
  Notation W := (bin_noise o T power).

  Lemma drifts_ok : compute_drifts T (s_low o) (s_high o) (s_step o) (s_desmear o) = Ok (map (drift_of T (s_low o) (s_step o) (s_desmear o)) (zrange D)).
  Proof. destruct Hu as ((HT & HN & Hst & HD & Hmo & HL) & _). apply compute_drifts_ok; auto; lia. Qed.
  Lemma rates_ok : mapM (kernel_rate cuda_offset T) (map (drift_of T (s_low o) (s_step o) (s_desmear o)) (zrange D)) = Ok cuda_rates.
  Proof. destruct Hu as ((HT & HN & Hst & HD & Hmo & HL) & _). unfold cuda_rates. rewrite mapM_map. apply mapM_ok. intros i Hi. apply in_zrange in Hi. apply kernel_rate_cuda; auto. Qed.
  Lemma rates_len : zlen cuda_rates = D.
  Proof. destruct Hu as ((_ & _ & _ & HD & _) & _). unfold cuda_rates, zlen. rewrite map_length. pose proof (zrange_length D). unfold zlen in *. lia. Qed.
  Lemma rates_at d : 0 <= d < D -> znth cuda_rates d = Some (cuda_rate T (s_desmear o) (grid_span (s_low o) (s_step o) d)).
  Proof. intros H. unfold cuda_rates, znth. replace (d <? 0) with false by lia. rewrite nth_error_map, nth_error_zrange by exact H. reflexivity. Qed.
  Lemma noise_at d : 0 <= d < D -> znth (map (adjusted_noise power T) (map (drift_of T (s_low o) (s_step o) (s_desmear o)) (zrange D))) d = Some (W d).
  Proof. intros H. rewrite map_map. unfold znth. replace (d <? 0) with false by lia. rewrite nth_error_map, nth_error_zrange by exact H. reflexivity. Qed.

  Lemma plane_ok m ps : gsteps addr_eqb (cuda_init spec mask junk (D * N), cuda_threads (f32_of_Z 0) add32 f32_div_int N T blocks bdim cuda_rates) (Ok (m, ps)) -> finished ps ->
    forall c, bin D N c -> m (BPlane, fst c * N + snd c) = Some (CF (X c)).
  Proof.
    intros Hg Hf (d & f) (Hdd & Hff). cbn [fst snd] in *. assert (HN : 0 <= N) by (destruct Hu as ((_ & HN & _) & _); lia). rewrite <- rates_len in Hg.
    destruct (C25_every_schedule f32 (f32_of_Z 0) add32 f32_div_int spec mask junk T N S M cuda_rates Hs Hm HN blocks bdim Hb Hd _ Hg) as (m' & ps' & E & _ & H). injection E as <- <-.
    exact (proj1 (H Hf d _ f (rates_at d Hdd) Hff)).
  Qed.
  Lemma inputs_ok plane : plane_holds (dense [D; N]) plane D N X -> gpu_inputs (f32snr floor) f32gt thr (f32half thr) D N L plane (map (adjusted_noise power T) (map (drift_of T (s_low o) (s_step o) (s_desmear o)) (zrange D))) X W.
  Proof.
    clear Hs Hm Hb Hd HG.
    intros Hp. assert (Hn : forall c, bin D N c -> is_nan (gpu_snr o T N S floor power c) = false) by (intros c; apply gpu_number; exact Hu). unfold gpu_snr in Hn. destruct Hu as ((HT & HN & Hst & HD & Hmo & HL) & _).
    split; [exact Hp|]. split; [exact noise_at|]. split; [lia|]. split; [exact HN|]. split; [exact HL|]. split; [|exact Hr].
    split; [apply f32gt_irrefl|]. split; [intros x y z; apply f32gt_trans|].
    intros c d e Hc Hdd He. rewrite !f32gt_val. intros (A & B & C).
    destruct (Rlt_le_dec (fval (f32snr floor (X e) (W (fst e)))) (fval (f32snr floor (X c) (W (fst c))))); [left|right]; repeat split; auto. lra.
  Qed.
  Lemma reports res : cuda_search o floor power T N spec mask junk blocks bdim G res ->
    exists ps, res = map (fun p => Some (fst p * N + snd p)) ps /\ NoDup ps /\ forall c, In c ps <-> winner f32gt thr (f32half thr) D N L (gpu_snr o T N S floor power) c.
  Proof.
    intros Hc. destruct Hc as [ds rates m ps plane g E1 E2 Hg Hf Lp Hp Hrun]. rewrite drifts_ok in E1. injection E1 as <-. rewrite rates_ok in E2. injection E2 as <-. rewrite rates_len in *.
    assert (HN : 0 < N) by (destruct Hu as ((_ & HN & _) & _); lia).
    assert (Hpl : plane_holds (dense [D; N]) plane D N X).
    { split; [reflexivity|]. intros c Hc. rewrite lin_dense. pose proof (plane_ok m ps Hg Hf c Hc) as E. destruct Hc as (Hc1 & Hc2).
      destruct (znth plane (fst c * N + snd c)) as [v|] eqn:Ev; [|exfalso; unfold znth in Ev; destruct (Z.ltb_spec (fst c * N + snd c) 0); [nia|]; apply nth_error_None in Ev; unfold zlen in Lp; nia].
      rewrite (Hp _ _ Ev) in E. injection E as ->. reflexivity. }
    exact (C32_survivors f32 (f32snr floor) f32gt thr (f32half thr) D N L plane _ X W G g (inputs_ok plane Hpl) HG Hrun).
  Qed.
  Lemma completes : exists res, cuda_search o floor power T N spec mask junk blocks bdim G res.
  Proof.
    assert (HN : 0 < N) by (destruct Hu as ((_ & HN & _) & _); lia). assert (HD : 0 < D) by (destruct Hu as ((_ & _ & _ & HD & _) & _); lia).
    set (start := (cuda_init spec mask junk (zlen cuda_rates * N), cuda_threads (f32_of_Z 0) add32 f32_div_int N T blocks bdim cuda_rates)).
    assert (Hrun : exists m ps, gsteps addr_eqb start (Ok (m, ps)) /\ finished ps).
    { pose proof (C25_terminates f32 (f32_of_Z 0) add32 f32_div_int spec mask junk T N S M cuda_rates Hs Hm ltac:(lia) blocks bdim Hb Hd) as A. fold start in A.
      assert (B : forall c, Acc (fun c' c => gstep addr_eqb c (Ok c')) c -> gsteps addr_eqb start (Ok c) -> exists m ps, gsteps addr_eqb start (Ok (m, ps)) /\ finished ps).
      { clear A. induction 1 as [c _ IH]. intros Hc. destruct (C25_every_schedule f32 (f32_of_Z 0) add32 f32_div_int spec mask junk T N S M cuda_rates Hs Hm ltac:(lia) blocks bdim Hb Hd _ Hc) as (m & ps & E & [Hf|(c' & Hst)] & _).
        - injection E as ->. eauto.
        - injection E as ->. apply (IH c' Hst). eapply gsteps_snoc; eauto. }
      apply (B start A). constructor. }
    destruct Hrun as (m & ps & Hg & Hf). set (plane := map (fun i => X (coord_of N i)) (zrange (D * N))).
    assert (Lp : zlen plane = D * N) by (unfold plane, zlen; rewrite map_length; pose proof (zrange_length (D * N)); unfold zlen in *; nia).
    assert (At : forall i, 0 <= i < D * N -> znth plane i = Some (X (coord_of N i))) by (intros i Hi; unfold plane, znth; replace (i <? 0) with false by lia; rewrite nth_error_map, nth_error_zrange by exact Hi; reflexivity).
    assert (Hpl : plane_holds (dense [D; N]) plane D N X).
    { split; [reflexivity|]. intros c Hc. rewrite lin_dense. change (fst c * N + snd c) with (index_of_coord N c). rewrite At by (apply (ix_range D N c Hc)). now rewrite (coord_ix D N c Hc). }
    destruct (C32_every_schedule_ends f32 (f32snr floor) f32gt thr (f32half thr) D N L plane _ X W G (inputs_ok plane Hpl) HG) as (_ & (g & Hrun) & _).
    exists (survivors g). eapply Cuda_search; [exact drifts_ok|exact rates_ok|exact Hg|exact Hf|rewrite rates_len; exact Lp| |rewrite rates_len; exact Hrun].
    intros i v E. assert (Hi : 0 <= i < D * N). { unfold znth in E. destruct (Z.ltb_spec i 0); [discriminate|]. assert (H' : (Z.to_nat i < length plane)%nat) by (apply nth_error_Some; congruence). unfold zlen in Lp. lia. }
    rewrite (At i Hi) in E. injection E as <-. unfold start in Hg. rewrite rates_len in Hg. pose proof (plane_ok m ps Hg Hf (coord_of N i) (coord_bin D N i HN Hi)) as E.
    change (fst (coord_of N i) * N + snd (coord_of N i)) with (index_of_coord N (coord_of N i)) in E. rewrite (ix_coord D N i HN Hi) in E. exact E.
  Qed.
End Search.

(** ** What the search detects *)
(** The CUDA search of the samples [S]: any schedule, thread counts and start contents of the buffers. *)
Definition cuda_found (o : search_options) (T N : Z) (S : Z -> Z -> f32) (floor power : f32) (res : list (option Z)) : Prop :=
  exists spec mask junk blocks bdim G M, holds (dense [T; N]) spec T N S /\ holds (dense [T; N]) mask T N M /\ 0 < blocks /\ 0 < bdim /\ 0 < G /\
    cuda_search o floor power T N spec mask junk blocks bdim G res.
(** The bin [c] is reported. *)
Definition reported (N : Z) (res : list (option Z)) (c : coord) : Prop := 0 <= snd c < N /\ In (Some (fst c * N + snd c)) res.

Lemma found_winners o T N S floor power res : cuda_usable o T N S floor power -> enough_room o T N S floor power -> cuda_found o T N S floor power res ->
  exists ps, res = map (fun p => Some (fst p * N + snd p)) ps /\ NoDup ps /\ forall c, In c ps <-> winner f32gt (s_threshold o) (f32half (s_threshold o)) (grid_size (s_low o) (s_high o) (s_step o)) N (s_distance o) (gpu_snr o T N S floor power) c.
Proof.
  intros Hu Hr (spec & mask & junk & blocks & bdim & G & M & Hs & Hm & Hb & Hd & HG & Hc). exact (reports o T N S M floor power Hu Hr spec mask junk blocks bdim G Hs Hm Hb Hd HG res Hc).
Qed.
(** The search completes for every thread count and start contents of the buffers. *)
Theorem C95_completes : forall o T N S floor power, cuda_usable o T N S floor power -> enough_room o T N S floor power ->
  forall spec mask junk blocks bdim G M, holds (dense [T; N]) spec T N S -> holds (dense [T; N]) mask T N M -> 0 < blocks -> 0 < bdim -> 0 < G ->
  exists res, cuda_search o floor power T N spec mask junk blocks bdim G res.
Proof. intros o T N S floor power Hu Hr spec mask junk blocks bdim G M Hs Hm Hb Hd HG. exact (completes o T N S M floor power Hu Hr spec mask junk blocks bdim G Hs Hm Hb Hd HG). Qed.
Print Assumptions C95_completes.
(** Everything reported is reportable, reported once, and stands out of the floor by the threshold, up to rounding. *)
Theorem C95_reports_are_real : forall o T N S floor power res, cuda_usable o T N S floor power -> enough_room o T N S floor power -> cuda_found o T N S floor power res ->
  NoDup res /\ forall x, In x res -> exists c, x = Some (fst c * N + snd c) /\ reported N res c /\ reportable o N c /\ f32gt (gpu_snr o T N S floor power c) (s_threshold o) = true /\
    (B2R (s_threshold o) * line_noise o T (B2R power) c * (1 - bpow radix2 (-22)) - met_rounding o T N S c <= met_average o T N S c - B2R floor)%R.
Proof.
  intros o T N S floor power res Hu Hr Hf. destruct (found_winners o T N S floor power res Hu Hr Hf) as (ps & -> & Hn & Hw). set (D := grid_size (s_low o) (s_high o) (s_step o)) in *.
  assert (HL : 2 <= s_distance o) by (destruct Hu as ((_ & _ & _ & _ & _ & HL) & _); exact HL).
  assert (Hall : forall c, In c ps -> bin D N c /\ reportable o N c /\ f32gt (gpu_snr o T N S floor power c) (s_threshold o) = true).
  { intros c Hc. apply Hw in Hc as ((((H1 & H2 & _) & _) & H3) & _). split; [exact H1|]. split; [|exact H3]. apply (reportable_inner o N c HL). exact H2. }
  split.
  - clear Hw Hf Hr Hu. induction Hn as [|a l Ha Hn IH]; [constructor|]. cbn [map]. constructor; [|apply IH; intros c Hc; apply Hall; now right].
    intros Hi. apply in_map_iff in Hi as (b & E & Hi). injection E as E. apply Ha. destruct (Hall a (or_introl eq_refl)) as ((_ & A) & _). destruct (Hall b (or_intror Hi)) as ((_ & B) & _).
    assert (a = b); [|congruence]. destruct a as (a1 & a2), b as (b1 & b2). cbn [fst snd] in *. assert (b1 = a1) by nia. assert (b2 = a2) by nia. congruence.
  - intros x Hx. apply in_map_iff in Hx as (c & <- & Hc). destruct (Hall c Hc) as (H1 & H2 & H3). exists c. split; [reflexivity|]. split; [split; [apply H1|apply in_map_iff; exists c; auto]|]. split; [exact H2|]. split; [exact H3|].
    exact (gpu_exceeded o T N S floor power Hu c H1 H3).
Qed.
Print Assumptions C95_reports_are_real.
(** A reportable line that stands out of the floor by the threshold, up to rounding, is accounted for by a bin at least as strong, unless a line
    that is not reportable is stronger. *)
Theorem C95_detects : forall o T N S floor power res, cuda_usable o T N S floor power -> enough_room o T N S floor power -> cuda_found o T N S floor power res ->
  forall c, reportable o N c ->
  (B2R (s_threshold o) * line_noise o T (B2R power) c * (1 + bpow radix2 (-21)) + met_rounding o T N S c <= met_average o T N S c - B2R floor)%R ->
  (forall d, bin (grid_size (s_low o) (s_high o) (s_step o)) N d -> ~ reportable o N d -> f32gt (gpu_snr o T N S floor power d) (gpu_snr o T N S floor power c) = false) ->
  exists w, reported N res w /\ reportable o N w /\ f32gt (gpu_snr o T N S floor power c) (gpu_snr o T N S floor power w) = false.
Proof.
  intros o T N S floor power res Hu Hr Hf c Hc H Hb. destruct (found_winners o T N S floor power res Hu Hr Hf) as (ps & -> & Hn & Hw). set (D := grid_size (s_low o) (s_high o) (s_step o)) in *.
  assert (HG : cuda_grid o T N) by apply Hu. destruct HG as (HT & HN & _ & HD & _ & HL). fold D in HD.
  assert (Bc : bin D N c) by (unfold reportable in Hc; fold D in Hc; unfold bin; lia).
  set (X := gpu_power o T N S). set (W := bin_noise o T power). set (plane := map (fun i => X (coord_of N i)) (zrange (D * N))).
  assert (Hpl : plane_holds (dense [D; N]) plane D N X).
  { split; [reflexivity|]. intros e He. rewrite lin_dense. change (fst e * N + snd e) with (index_of_coord N e). unfold plane, znth. pose proof (ix_range D N e He). replace (index_of_coord N e <? 0) with false by lia.
    rewrite nth_error_map, nth_error_zrange by assumption. cbn [option_map]. now rewrite (coord_ix D N e He). }
  destruct (inputs_ok o T N S (fun _ _ => 0) floor power Hu Hr (fun _ => floor) 0 plane Hpl) as (_ & Hnoise & _ & _ & _ & Hord & _).
  assert (Ft : is_finite (s_threshold o) = true) by apply Hu. assert (Bt : (0 <= B2R (s_threshold o))%R) by (pose proof (bpow_gt_0 radix2 (-125)); destruct Hu as (_ & _ & _ & _ & Bt & _); lra).
  destruct (represented (f32snr floor) f32gt (s_threshold o) (f32half (s_threshold o)) D N (s_distance o) plane _ X W Hpl Hnoise HN Hord) with (c := c) as (w & Hwin & Gw).
  - intros x. now apply thr_half.
  - exact Bc.
  - now apply reportable_inner.
  - exact (gpu_exceeds o T N S floor power Hu c Bc H).
  - intros d Hd Hni. apply Hb; [exact Hd|]. intros Hrd. apply Hni. now apply reportable_inner.
  - exists w. assert (Hw2 := proj1 Hwin). destruct Hw2 as (((H1 & H2 & _) & _) & _). split; [split; [apply H1|apply in_map_iff; exists w; split; [reflexivity|apply Hw; exact Hwin]]|]. split; [apply (reportable_inner o N w HL); exact H2|exact Gw].
Qed.
Print Assumptions C95_detects.
(** So it is found when the lines that are not reportable stay below the threshold. *)
Theorem C95_quiet_border : forall o T N S floor power res, cuda_usable o T N S floor power -> enough_room o T N S floor power -> cuda_found o T N S floor power res ->
  forall c, reportable o N c ->
  (B2R (s_threshold o) * line_noise o T (B2R power) c * (1 + bpow radix2 (-21)) + met_rounding o T N S c <= met_average o T N S c - B2R floor)%R ->
  (forall d, bin (grid_size (s_low o) (s_high o) (s_step o)) N d -> ~ reportable o N d -> (met_average o T N S d - B2R floor + met_rounding o T N S d < B2R (s_threshold o) * line_noise o T (B2R power) d * (1 - bpow radix2 (-22)))%R) ->
  exists w, reported N res w /\ reportable o N w /\ f32gt (gpu_snr o T N S floor power c) (gpu_snr o T N S floor power w) = false.
Proof.
  intros o T N S floor power res Hu Hr Hf c Hc H Hb. apply (C95_detects o T N S floor power res Hu Hr Hf c Hc H). intros d Hd Hnr. specialize (Hb d Hd Hnr).
  assert (Bc : bin (grid_size (s_low o) (s_high o) (s_step o)) N c) by (assert (HG : cuda_grid o T N) by apply Hu; destruct HG as (_ & HN & _ & HD & _ & HL); unfold reportable in Hc; unfold bin; lia).
  pose proof (gpu_exceeds o T N S floor power Hu c Bc H) as Gc. destruct (f32gt (gpu_snr o T N S floor power d) (gpu_snr o T N S floor power c)) eqn:G; [|reflexivity]. exfalso.
  pose proof (gpu_exceeded o T N S floor power Hu d Hd (f32gt_trans _ _ _ G Gc)) as E. lra.
Qed.
Print Assumptions C95_quiet_border.
(** In particular a line whose samples in the band all reach [P], however few they are. *)
Theorem C95_strong_line : forall o T N S floor power res, cuda_usable o T N S floor power -> enough_room o T N S floor power -> cuda_found o T N S floor power res ->
  forall c P, reportable o N c -> (forall t ch, In (t, ch) (met o T N c) -> (P <= B2R (S t ch))%R) ->
  (B2R (s_threshold o) * line_noise o T (B2R power) c * (1 + bpow radix2 (-21)) + (2 * line_count o T c + 4) * bpow radix2 (-24) * P + 4 * bpow radix2 (-150) <= P - B2R floor)%R ->
  (forall d, bin (grid_size (s_low o) (s_high o) (s_step o)) N d -> ~ reportable o N d -> f32gt (gpu_snr o T N S floor power d) (gpu_snr o T N S floor power c) = false) ->
  exists w, reported N res w /\ reportable o N w /\ f32gt (gpu_snr o T N S floor power c) (gpu_snr o T N S floor power w) = false.
Proof.
  intros o T N S floor power res Hu Hr Hf c P Hc HP H Hb. apply (C95_detects o T N S floor power res Hu Hr Hf c Hc); [|exact Hb].
  assert (Bc : bin (grid_size (s_low o) (s_high o) (s_step o)) N c) by (assert (HG : cuda_grid o T N) by apply Hu; destruct HG as (_ & HN & _ & HD & _ & HL); unfold reportable in Hc; unfold bin; lia).
  destruct (met_bounds o T N S floor power Hu c P (bpow radix2 100) Bc) as (A & _); [intros t ch Hi; split; [now apply HP|]; assert (Hbr : bright T N S) by apply Hu; apply Hbr; apply (met_in o T N _ _ _ Hi)|].
  destruct (met_count o T N S floor power Hu c Bc) as (_ & _ & (C1 & C2) & _). unfold met_rounding. change (bpow radix2 21) with (IZR 2097152) in C2. change (bpow radix2 (-24)) with (/ IZR 16777216)%R in *. nra.
Qed.
Print Assumptions C95_strong_line.
(** A channel whose samples all stay below [Q] has no protohits, ... *)
Theorem C95_quiet_channel : forall o T N S floor power res, cuda_usable o T N S floor power -> enough_room o T N S floor power -> cuda_found o T N S floor power res ->
  forall Q, (forall t ch, 0 <= t < T -> 0 <= ch < N -> (B2R (S t ch) <= Q)%R) ->
  (forall c, reportable o N c -> Q - B2R floor + (2 * line_count o T c + 4) * bpow radix2 (-24) * Q + 4 * bpow radix2 (-150) < B2R (s_threshold o) * line_noise o T (B2R power) c * (1 - bpow radix2 (-22)))%R ->
  res = [].
Proof.
  intros o T N S floor power res Hu Hr Hf Q HQ H. destruct res as [|x res]; [reflexivity|exfalso].
  destruct (proj2 (C95_reports_are_real o T N S floor power _ Hu Hr Hf) x (or_introl eq_refl)) as (c & _ & _ & Hc & _ & E). specialize (H c Hc).
  assert (Bc : bin (grid_size (s_low o) (s_high o) (s_step o)) N c) by (assert (HG : cuda_grid o T N) by apply Hu; destruct HG as (_ & HN & _ & HD & _ & HL); unfold reportable in Hc; unfold bin; lia).
  destruct (met_bounds o T N S floor power Hu c 0%R Q Bc) as (A & A'); [intros t ch Hi; destruct (met_in o T N _ _ _ Hi) as (I1 & I2); split; [|now apply HQ]; assert (Hbr : bright T N S) by apply Hu; now apply Hbr|].
  destruct (met_count o T N S floor power Hu c Bc) as (_ & _ & (C1 & C2) & _). unfold met_rounding in E. change (bpow radix2 21) with (IZR 2097152) in C2. change (bpow radix2 (-24)) with (/ IZR 16777216)%R in *. nra.
Qed.
Print Assumptions C95_quiet_channel.
(** ... and neither has one with fewer drift rates than twice the neighbour distance, whatever its samples. *)
Theorem C95_few_drifts_refuted : forall o T N S floor power res, cuda_usable o T N S floor power -> enough_room o T N S floor power -> cuda_found o T N S floor power res ->
  grid_size (s_low o) (s_high o) (s_step o) < 2 * s_distance o \/ N < 2 * s_distance o - 1 -> res = [].
Proof.
  intros o T N S floor power res Hu Hr Hf H. destruct res as [|x res]; [reflexivity|exfalso].
  destruct (proj2 (C95_reports_are_real o T N S floor power _ Hu Hr Hf) x (or_introl eq_refl)) as (c & _ & _ & Hc & _). unfold reportable in Hc. lia.
Qed.
Print Assumptions C95_few_drifts_refuted.
(** The ratio that is computed for a line is the exact one of the samples met, up to rounding. *)
Theorem C95_snr_accuracy : forall o T N S floor power, cuda_usable o T N S floor power -> forall c, bin (grid_size (s_low o) (s_high o) (s_step o)) N c ->
  let rho := ((met_average o T N S c - B2R floor) / line_noise o T (B2R power) c)%R in let err := (met_rounding o T N S c / line_noise o T (B2R power) c)%R in
  (Rabs rho + err <= bpow radix2 120)%R -> let s := gpu_snr o T N S floor power c in
  is_finite s = true /\ (Rabs (B2R s - rho) <= bpow radix2 (-21) * Rabs rho + 2 * err + bpow radix2 (-150))%R.
Proof.
  intros o T N S floor power Hu c Hc rho err Hr s. destruct (gpu_close o T N S floor power Hu c Hc) as (Fx & Ex & Bx & _). destruct (gpu_noise o T N S floor power Hu c Hc) as (Fw & Ew & Ps & Pw).
  destruct Hu as (_ & _ & _ & Ft & Bt & Ff & Bf & _). assert (E0 : (0 <= met_rounding o T N S c)%R) by (eapply Rle_trans; [apply Rabs_pos|exact Ex]).
  destruct (ratio _ _ _ _ Fx Ff Fw Ft Bx Bf Pw _ _ _ Ps Ew E0 Ex Hr) as (F & B). split; [exact F|]. eapply Rle_trans; [exact B|]. fold rho err. fold h32. change (bpow radix2 (-21)) with (/ IZR 2097152)%R. rewrite u32_val. lra.
Qed.
Print Assumptions C95_snr_accuracy.

(** ** Cases *)
(** Two spectra of 16 channels; channel 6 has power 100.  Spans from -2 to 2. *)
Definition g_opts (dist : Z) : search_options := Options (-2) 3 1 false ConnectedComponents (f32_of_Z 80) dist.
Definition g_int (t c : Z) : Z := if c =? 6 then 100 else 0.
Definition g_line (t c : Z) : f32 := f32_of_Z (g_int t c).
Definition g_met (d f : Z) : list (Z * Z) := filter (fun tc => (0 <=? snd tc) && (snd tc <? 16)) [(0, f); (1, f + (d - 2))].
Lemma g_val t c : B2R (g_line t c) = IZR (g_int t c) /\ is_finite (g_line t c) = true /\ 0 <= g_int t c <= 100.
Proof. unfold g_line, g_int. destruct (c =? 6); [destruct (f32_of_Z_ok 100 ltac:(lia)) as (V & F)|destruct (f32_of_Z_ok 0 ltac:(lia)) as (V & F)]; (split; [exact V|split; [exact F|lia]]). Qed.
Lemma g_span dist d f : line_span (g_opts dist) (d, f) = d - 2.
Proof. unfold line_span, grid_span. cbn [g_opts s_low s_step fst]. lia. Qed.
Lemma g_met_is dist d f : 0 <= d < 5 -> met (g_opts dist) 2 16 (d, f) = g_met d f.
Proof.
  intros Hd. unfold met. rewrite g_span. cbn [snd g_opts s_desmear]. unfold track_in_band, track_steps, g_met. change (r_desmear (cuda_rate 2 false (d - 2))) with 1. change (list_prod (zrange 2) (zrange 1)) with [(0, 0); (1, 0)]. cbn [map fst snd].
  unfold track_channel. rewrite !cuda_rate_off by lia. rewrite offc_0. replace (offc 2 (d - 2) 1) with (d - 2) by (symmetry; apply (offc_last 2 (d - 2)); lia). destruct (r_nonneg _); rewrite ?Z.add_0_r, ?Z.sub_0_r; reflexivity.
Qed.
Lemma g_usable dist : 2 <= dist -> cuda_usable (g_opts dist) 2 16 g_line ex_floor ex_power /\ usable (g_opts dist) 2 16 g_line ex_floor ex_power.
Proof.
  intros HL. assert (Vf : B2R ex_floor = 0%R) by apply (f32_of_Z_ok 0 ltac:(lia)). assert (Vp : B2R ex_power = 1%R) by apply (f32_of_Z_ok 1 ltac:(lia)). destruct (f32_of_Z_ok 80 ltac:(lia)) as (Vt & Ft).
  assert (Hmo : DriftSearchProofs.moderate (-2) 3 1) by (apply moderate_ends; cbn; lia).
  assert (Hsh : short_lines (g_opts dist) 2) by (intros d Hd; cbn [g_opts s_desmear width]; lia).
  assert (Hbr : bright 2 16 g_line). { intros t c _ _. destruct (g_val t c) as (V & F & B). split; [exact F|]. rewrite V. split; [apply IZR_le; lia|]. apply Rle_trans with (IZR 100); [apply IZR_le; lia|]. apply Rle_trans with (bpow radix2 7); [change (bpow radix2 7) with (IZR 128); lra|apply bpow_le; lia]. }
  assert (R : is_finite (s_threshold (g_opts dist)) = true /\ (bpow radix2 (-125) <= B2R (s_threshold (g_opts dist)))%R /\ is_finite ex_floor = true /\ (Rabs (B2R ex_floor) <= bpow radix2 101)%R /\ is_finite ex_power = true /\ (bpow radix2 (-80) <= B2R ex_power <= bpow radix2 90)%R).
  { split; [exact Ft|]. split; [change (s_threshold (g_opts dist)) with (f32_of_Z 80); rewrite Vt; apply Rle_trans with (bpow radix2 0); [apply bpow_le; lia|change (bpow radix2 0) with 1%R; lra]|]. split; [reflexivity|]. rewrite Vf, Rabs_R0, Vp. split; [apply bpow_ge_0|]. split; [reflexivity|]. change 1%R with (bpow radix2 0). split; apply bpow_le; lia. }
  split; (split; [|split; [exact Hsh|split; [exact Hbr|exact R]]]).
  - split; [lia|]. split; [lia|]. split; [discriminate|]. split; [reflexivity|]. split; [exact Hmo|exact HL].
  - split; [lia|]. split; [lia|]. split; [discriminate|]. split; [reflexivity|]. split; [exact Hmo|]. split; [reflexivity|]. intros d Hd. change (grid_size _ _ _) with 5 in Hd. cbn [g_opts s_desmear width s_low s_step]. unfold grid_span. lia.
Qed.
Lemma g_average dist d f : 0 <= d < 5 -> met_average (g_opts dist) 2 16 g_line (d, f) = (IZR (isum g_int (g_met d f)) / IZR (zlen (g_met d f)))%R.
Proof. intros Hd. unfold met_average. rewrite g_met_is by exact Hd. rewrite (total_ints _ g_int) by (intros; apply g_val). reflexivity. Qed.
Lemma g_check : forallb (fun d => forallb (fun f => (d =? 2) && (f =? 6) || (0 <? zlen (g_met d f)) && (2 * isum g_int (g_met d f) <=? 100 * zlen (g_met d f))) (zrange 16)) (zrange 5) = true.
Proof. vm_compute. reflexivity. Qed.
Lemma g_half dist d f : 0 <= d < 5 -> 0 <= f < 16 -> (d, f) <> (2, 6) -> (met_average (g_opts dist) 2 16 g_line (d, f) <= 50)%R.
Proof.
  intros Hd Hf Hn. pose proof g_check as C. rewrite forallb_forall in C. specialize (C d ltac:(apply in_zrange; lia)). rewrite forallb_forall in C. specialize (C f ltac:(apply in_zrange; lia)). apply orb_prop in C as [C|C].
  - exfalso. apply Hn. f_equal; lia.
  - apply andb_prop in C as (C1 & C2). rewrite g_average by exact Hd. apply Z.ltb_lt, IZR_lt in C1. apply Z.leb_le, IZR_le in C2. rewrite !mult_IZR in C2.
    apply Rmult_le_reg_r with (IZR (zlen (g_met d f))); [exact C1|]. replace (IZR (isum g_int (g_met d f)) / IZR (zlen (g_met d f)) * IZR (zlen (g_met d f)))%R with (IZR (isum g_int (g_met d f))) by (field; lra). lra.
Qed.
Lemma g_noise dist d f : (7 / 10 <= line_noise (g_opts dist) 2 (B2R ex_power) (d, f) <= 72 / 100)%R /\ line_count (g_opts dist) 2 (d, f) = 2%R.
Proof.
  assert (Vp : B2R ex_power = 1%R) by apply (f32_of_Z_ok 1 ltac:(lia)). assert (E : line_count (g_opts dist) 2 (d, f) = 2%R) by reflexivity. split; [|exact E]. unfold line_noise. rewrite E, Vp.
  assert (Q : (0 < sqrt 2)%R) by (apply sqrt_lt_R0; lra). pose proof (sqrt_sqrt 2 ltac:(lra)) as Q2. set (q := sqrt 2) in *. assert (139 / 100 <= q <= 142 / 100)%R by (split; apply Rnot_lt_le; intros; nra).
  split; (apply Rmult_le_reg_r with q; [exact Q|]; replace (1 / q * q)%R with 1%R by (field; lra); lra).
Qed.
Lemma g_below dist d f : 0 <= d < 5 -> 0 <= f < 16 -> (d, f) <> (2, 6) ->
  (met_average (g_opts dist) 2 16 g_line (d, f) - B2R ex_floor + met_rounding (g_opts dist) 2 16 g_line (d, f) < B2R (s_threshold (g_opts dist)) * line_noise (g_opts dist) 2 (B2R ex_power) (d, f) * (1 - bpow radix2 (-22)))%R.
Proof.
  intros Hd Hf Hn. pose proof (g_half dist d f Hd Hf Hn) as A. destruct (g_noise dist d f) as (B & C). unfold met_rounding. rewrite C. assert (Vf : B2R ex_floor = 0%R) by apply (f32_of_Z_ok 0 ltac:(lia)). rewrite Vf. change (s_threshold (g_opts dist)) with (f32_of_Z 80). rewrite (proj1 (f32_of_Z_ok 80 ltac:(lia))).
  assert (0 < bpow radix2 (-150) <= bpow radix2 (-24))%R by (split; [apply bpow_gt_0|apply bpow_le; lia]). set (a := met_average _ _ _ _ _) in *. set (w := line_noise _ _ _ _) in *. clearbody a w. set (h := bpow radix2 (-150)) in *. clearbody h. change (bpow radix2 (-24)) with (/ IZR 16777216)%R in *. change (bpow radix2 (-22)) with (/ IZR 4194304)%R. lra.
Qed.
Lemma g_room dist : 2 <= dist -> 9 <= Z.quot (5 * 16) (dist * dist) \/ dist = 3 -> enough_room (g_opts dist) 2 16 g_line ex_floor ex_power.
Proof.
  intros HL Hq ps Hnd Hps. change (grid_size _ _ _) with 5 in *. change (s_distance (g_opts dist)) with dist in *. destruct (g_usable dist HL) as (Hu & _).
  assert (Hin : forall c, In c ps -> c = (2, 6) /\ dist <> 3).
  { intros c Hc. specialize (Hps c Hc). destruct Hps as (((Hb & Hi & _) & _) & Hg). assert (Hr : reportable (g_opts dist) 16 c) by (apply reportable_inner; [exact HL|exact Hi]). unfold reportable in Hr. change (s_distance (g_opts dist)) with dist in Hr. change (grid_size _ _ _) with 5 in Hr.
    split; [|lia]. destruct c as (d & f). cbn [fst snd] in *. destruct (Z.eq_dec d 2) as [->|Nd]; [destruct (Z.eq_dec f 6) as [->|Nf]; [reflexivity|]|];
      exfalso; pose proof (gpu_exceeded _ _ _ _ _ _ Hu _ Hb Hg) as E; destruct Hb as (B1 & B2); cbn [fst snd] in *; match type of E with context [met_average _ _ _ _ (?d, ?f)] => pose proof (g_below dist d f ltac:(lia) ltac:(lia) ltac:(congruence)) end; lra. }
  destruct Hq as [Hq| ->].
  - assert (L1 : (length ps <= length [((2, 6)%Z : coord)])%nat) by (apply NoDup_incl_length; [exact Hnd|intros c Hc; left; symmetry; apply (Hin c Hc)]). unfold zlen. cbn [length] in L1. lia.
  - destruct ps as [|c ps]; [vm_compute; discriminate|]. exfalso. now apply (proj2 (Hin c (or_introl eq_refl))).
Qed.
(** With a neighbour distance of 2 the line without drift is found, ... *)
Example C95_case : cuda_usable (g_opts 2) 2 16 g_line ex_floor ex_power /\ enough_room (g_opts 2) 2 16 g_line ex_floor ex_power /\ (exists res, cuda_found (g_opts 2) 2 16 g_line ex_floor ex_power res) /\ reportable (g_opts 2) 16 (2, 6) /\
  (B2R (s_threshold (g_opts 2)) * line_noise (g_opts 2) 2 (B2R ex_power) (2%Z, 6%Z) * (1 + bpow radix2 (-21)) + met_rounding (g_opts 2) 2 16 g_line (2%Z, 6%Z) <= met_average (g_opts 2) 2 16 g_line (2%Z, 6%Z) - B2R ex_floor)%R /\
  (forall d, bin 5 16 d -> ~ reportable (g_opts 2) 16 d -> (met_average (g_opts 2) 2 16 g_line d - B2R ex_floor + met_rounding (g_opts 2) 2 16 g_line d < B2R (s_threshold (g_opts 2)) * line_noise (g_opts 2) 2 (B2R ex_power) d * (1 - bpow radix2 (-22)))%R) /\
  (forall res, cuda_found (g_opts 2) 2 16 g_line ex_floor ex_power res -> res = [Some 38]).
Proof.
  assert (Hu : cuda_usable (g_opts 2) 2 16 g_line ex_floor ex_power) by (apply g_usable; lia). assert (Hr : enough_room (g_opts 2) 2 16 g_line ex_floor ex_power) by (apply g_room; [lia|left; vm_compute; discriminate]).
  assert (Rc : reportable (g_opts 2) 16 (2, 6)) by (unfold reportable; change (grid_size _ _ _) with 5; cbn; lia).
  assert (Mg : (B2R (s_threshold (g_opts 2)) * line_noise (g_opts 2) 2 (B2R ex_power) (2%Z, 6%Z) * (1 + bpow radix2 (-21)) + met_rounding (g_opts 2) 2 16 g_line (2%Z, 6%Z) <= met_average (g_opts 2) 2 16 g_line (2%Z, 6%Z) - B2R ex_floor)%R).
  { destruct (g_noise 2 2 6) as (B & C). unfold met_rounding. rewrite C, g_average by lia. replace (isum g_int (g_met 2 6)) with 200 by (vm_compute; reflexivity). replace (zlen (g_met 2 6)) with 2 by (vm_compute; reflexivity).
    assert (Vf : B2R ex_floor = 0%R) by apply (f32_of_Z_ok 0 ltac:(lia)). rewrite Vf. change (s_threshold (g_opts 2)) with (f32_of_Z 80). rewrite (proj1 (f32_of_Z_ok 80 ltac:(lia))).
    assert (0 < bpow radix2 (-150) <= bpow radix2 (-24))%R by (split; [apply bpow_gt_0|apply bpow_le; lia]). set (w := line_noise _ _ _ _) in *. clearbody w. set (h := bpow radix2 (-150)) in *. clearbody h. change (bpow radix2 (-24)) with (/ IZR 16777216)%R in *. change (bpow radix2 (-21)) with (/ IZR 2097152)%R. lra. }
  assert (Bd : forall d, bin 5 16 d -> ~ reportable (g_opts 2) 16 d -> (met_average (g_opts 2) 2 16 g_line d - B2R ex_floor + met_rounding (g_opts 2) 2 16 g_line d < B2R (s_threshold (g_opts 2)) * line_noise (g_opts 2) 2 (B2R ex_power) d * (1 - bpow radix2 (-22)))%R).
  { intros (d & f) (H1 & H2) Hn. cbn [fst snd] in *. apply g_below; [lia|lia|]. intros E. apply Hn. rewrite E. exact Rc. }
  split; [exact Hu|]. split; [exact Hr|]. split; [|split; [exact Rc|split; [exact Mg|split; [exact Bd|]]]].
  - pose proof (proj1 (rows_channel 2 16 g_line ltac:(lia) ltac:(lia))) as H1. pose proof (proj1 (rows_channel 2 16 (fun _ _ => 0) ltac:(lia) ltac:(lia))) as H2.
    destruct (C95_completes (g_opts 2) 2 16 g_line ex_floor ex_power Hu Hr _ _ (fun _ => f0) 2 3 5 _ H1 H2 ltac:(lia) ltac:(lia) ltac:(lia)) as (res & Hres).
    exists res, (PropPipe.rows 2 16 g_line), (PropPipe.rows 2 16 (fun _ _ => 0)), (fun _ => f0), 2, 3, 5, (fun _ _ => 0). split; [exact H1|]. split; [exact H2|]. split; [lia|]. split; [lia|]. split; [lia|exact Hres].
  - intros res Hf. destruct (C95_reports_are_real _ _ _ _ _ _ _ Hu Hr Hf) as (Hn & Hall).
    assert (Only : forall x, In x res -> x = Some 38).
    { intros x Hx. destruct (Hall x Hx) as (c & -> & _ & Hc & _ & E). destruct c as (d & f). unfold reportable in Hc. change (grid_size _ _ _) with 5 in Hc. change (s_distance (g_opts 2)) with 2 in Hc. cbn [fst snd] in *.
      destruct (Z.eq_dec d 2) as [->|Nd]; [destruct (Z.eq_dec f 6) as [->|Nf]; [reflexivity|]|]; exfalso; match type of E with context [met_average _ _ _ _ (?d, ?f)] => pose proof (g_below 2 d f ltac:(lia) ltac:(lia) ltac:(congruence)) end; lra. }
    destruct (C95_quiet_border _ _ _ _ _ _ _ Hu Hr Hf _ Rc Mg Bd) as (w & (_ & Hw) & _).
    destruct res as [|x [|y res]]; [destruct Hw|f_equal; apply Only; now left|]. exfalso. inversion Hn as [|? ? Hx _]. apply Hx. left. rewrite (Only x), (Only y); [reflexivity|right; now left|now left].
Qed.
(** ... while with a distance of 3, more than half of the 5 drift rates, it is not; the CPU finds it either way. *)
Theorem C95_backends_differ_refuted : exists o T N S floor power, usable o T N S floor power /\ cuda_usable o T N S floor power /\ enough_room o T N S floor power /\
  (forall i M comps hs, found i o T N S M floor power comps hs -> hs <> []) /\ (forall res, cuda_found o T N S floor power res -> res = []).
Proof.
  exists (g_opts 3), 2, 16, g_line, ex_floor, ex_power. destruct (g_usable 3 ltac:(lia)) as (Hc & Hu). assert (Hr : enough_room (g_opts 3) 2 16 g_line ex_floor ex_power) by (apply g_room; [lia|now right]).
  split; [exact Hu|]. split; [exact Hc|]. split; [exact Hr|]. split.
  - intros i M comps hs Hf E. subst hs. destruct (C93_strong_line i (g_opts 3) 2 16 g_line M ex_floor ex_power comps [] Hu Hf (2, 6) 100%R) as (h & [] & _); [change (grid_size _ _ _) with 5; split; cbn [fst snd]; lia| | |].
    + split; [|left; rewrite g_span; lia]. rewrite g_span. change (2 - 2) with 0. change (s_desmear (g_opts 3)) with false. intros t k Ht Hk. change (r_desmear (cpu_rate 2 false 0)) with 1 in Hk. unfold track_channel. rewrite cpu_rate_off by exact Ht.
      destruct (off_between 2 0 ltac:(lia) ltac:(lia) t Ht) as (A & _). specialize (A ltac:(lia)). cbn [snd]. destruct (r_nonneg _); lia.
    + unfold on_line. rewrite g_span. change (2 - 2) with 0. cbn [snd]. intros t ch Hi. apply C18_track_bins in Hi as (k & H1 & H2 & H3 & H4). destruct (g_val t ch) as (-> & _). rewrite cpu_rate_off in H4 by exact H1.
      destruct (off_between 2 0 ltac:(lia) ltac:(lia) t H1) as (A & _). specialize (A ltac:(lia)). change (r_desmear (cpu_rate 2 (s_desmear (g_opts 3)) 0)) with 1 in H2. unfold g_int. replace (ch =? 6) with true by (destruct H4 as [(_ & H4)|(_ & H4 & _)]; lia). lra.
    + destruct (g_noise 3 2 6) as (B & C). unfold rel_error, abs_error. rewrite C. change (line_width (g_opts 3) 2 (2, 6)) with 1. assert (Vf : B2R ex_floor = 0%R) by apply (f32_of_Z_ok 0 ltac:(lia)). rewrite Vf. change (s_threshold (g_opts 3)) with (f32_of_Z 80). rewrite (proj1 (f32_of_Z_ok 80 ltac:(lia))).
      assert (0 < bpow radix2 (-150) <= bpow radix2 (-24))%R by (split; [apply bpow_gt_0|apply bpow_le; lia]). set (w := line_noise _ _ _ _) in *. clearbody w. set (h := bpow radix2 (-150)) in *. clearbody h. change (bpow radix2 (-24)) with (/ IZR 16777216)%R in *. change (bpow radix2 (-21)) with (/ IZR 2097152)%R. lra.
  - intros res Hf. apply (C95_few_drifts_refuted _ _ _ _ _ _ _ Hc Hr Hf). left. vm_compute. reflexivity.
Qed.
Print Assumptions C95_backends_differ_refuted.
