(** C93: what the search detects, from sample powers to hits. *)
From Verif Require Import DriftAgree PipeModel DriftSearchProofs DriftProofs CcSpec PropDrift PropCc PropHit PropPipe FsumModel FsumProofs FsumProofs2.
From Verif Require Import DsumProofs SensProofs PropDsum.
From Coq Require Import ZifyBool ZifyNat Lia Reals Lra Psatz Permutation.
From Flocq Require Import Core BinarySingleNaN.
Local Open Scope Z_scope.

(** ** What is expected *)
(** Powers are not negative and at most 2^100. *)
Definition bright (T N : Z) (S : Z -> Z -> f32) : Prop :=
  forall t c, 0 <= t < T -> 0 <= c < N -> is_finite (S t c) = true /\ (0 <= B2R (S t c) <= bpow radix2 100)%R.
Section Sens.
  Variables (o : search_options) (T N : Z) (S : Z -> Z -> f32).
  Local Open Scope R_scope.
  Definition line_span (c : coord) : Z := grid_span (s_low o) (s_step o) (fst c).
  (** Channels per spectrum that the line of a bin covers, and samples altogether. *)
  Definition line_width (c : coord) : Z := width T (s_desmear o) (line_span c).
  Definition line_count (c : coord) : R := IZR (T * line_width c).
  (** At most 2^21 samples on a line. *)
  Definition short_lines : Prop := forall d, (0 <= d < grid_size (s_low o) (s_high o) (s_step o))%Z -> (T * width T (s_desmear o) (grid_span (s_low o) (s_step o) d) <= 2 ^ 21)%Z.
  (** The exact average power on the line; samples outside of the band count as zero. *)
  Definition line_average (c : coord) : R := total S (track N T (cpu_rate T (s_desmear o) (line_span c)) (snd c)) / line_count c.
  (** The exact noise of such an average. *)
  Definition line_noise (sigma : R) (c : coord) : R := sigma / sqrt (line_count c).
  (** What rounding may change of the average. *)
  Definition rel_error (c : coord) : R := (2 * line_count c + 4) * bpow radix2 (-24).
  Definition abs_error (c : coord) : R := (3 * IZR (line_width c) + 1) * bpow radix2 (-150).
  Definition rounding (c : coord) : R := rel_error c * line_average c + abs_error c.
  (** All of the line lies in the band, where the CPU integrates it. *)
  Definition in_band (c : coord) : Prop :=
    whole_track N T (cpu_rate T (s_desmear o) (line_span c)) (snd c) /\ ((0 <= line_span c)%Z \/ (- line_span c <= snd c)%Z).
  (** Samples of the line. *)
  Definition on_line (c : coord) (t ch : Z) : Prop := In (t, ch) (track N T (cpu_rate T (s_desmear o) (line_span c)) (snd c)).
End Sens.

(** ** Facts *)
Section Facts.
  Local Open Scope R_scope.
  Lemma total_between S bins lo hi : (forall t c, In (t, c) bins -> lo <= B2R (S t c) <= hi) -> IZR (zlen bins) * lo <= total S bins <= IZR (zlen bins) * hi.
  Proof.
    unfold total, zlen. induction bins as [|(t & c) bins IH]; intros H; [cbn [length fold_right]; change (IZR (Z.of_nat 0)) with 0; lra|]. cbn [length fold_right fst snd]. rewrite Nat2Z.inj_succ, succ_IZR.
    pose proof (H t c (or_introl eq_refl)). assert (IH' := IH (fun t' c' Hi => H t' c' (or_intror Hi))). clear IH. lra.
  Qed.
  Lemma track_in N T r f t c : In (t, c) (track N T r f) -> (0 <= t < T)%Z /\ (0 <= c < N)%Z.
  Proof. intros Hi. apply C18_track_bins in Hi as (k & H1 & _ & H3 & _). auto. Qed.
  Variables (o : search_options) (T N : Z) (S : Z -> Z -> f32).
  Notation D := (grid_size (s_low o) (s_high o) (s_step o)).
  Hypotheses (Hg : good_grid o T N) (Hs : short_lines o T) (Hb : bright T N S).
  Lemma count_bounds c : bin D N c -> (1 <= line_width o T c)%Z /\ (T * line_width o T c <= 2 ^ 21)%Z /\ 1 <= line_count o T c <= bpow radix2 21.
  Proof.
    intros (Hd & _). destruct Hg as ((T2 & _) & _). assert (W : (1 <= line_width o T c)%Z) by (unfold line_width, width; destruct (s_desmear o); lia).
    pose proof (Hs (fst c) Hd) as L. fold (line_span o c) in L. fold (line_width o T c) in L. split; [exact W|]. split; [exact L|]. unfold line_count. split; [apply IZR_le; nia|].
    change (bpow radix2 21) with (IZR (2 ^ 21)). apply IZR_le. exact L.
  Qed.
  Lemma average_bounds c lo hi : bin D N c -> (forall t ch, on_line o T N c t ch -> lo <= B2R (S t ch) <= hi) -> 0 <= hi -> 0 <= line_average o T N S c <= hi /\ (in_band o T N c -> lo <= line_average o T N S c).
  Proof.
    intros Hc H Hh. destruct (count_bounds c Hc) as (W & L & C1 & C2). destruct Hg as ((T2 & _) & _). unfold line_average. set (r := cpu_rate T (s_desmear o) (line_span o c)). set (bins := track N T r (snd c)).
    assert (Rd : r_desmear r = line_width o T c) by reflexivity.
    assert (Lb : (zlen bins <= T * line_width o T c)%Z) by (rewrite <- Rd; apply track_short; lia). apply IZR_le in Lb. fold (line_count o T c) in Lb.
    assert (L0 : 0 <= IZR (zlen bins)) by (apply IZR_le; unfold zlen; lia). pose proof (total_between S bins lo hi H) as (A1 & A2).
    assert (P0 : 0 <= total S bins). { apply Rle_trans with (IZR (zlen bins) * 0); [lra|]. apply total_between with hi. intros t ch Hi. split; [|apply H; exact Hi]. apply Hb; apply (track_in _ _ _ _ _ _ Hi). }
    assert (Ic : 0 < / line_count o T c) by (apply Rinv_0_lt_compat; lra).
    assert (E : forall x y, x <= y * line_count o T c -> x / line_count o T c <= y). { intros x y Q. apply Rmult_le_reg_r with (line_count o T c); [lra|]. replace (x / line_count o T c * line_count o T c) with x by (field; lra). exact Q. }
    split; [split|].
    - unfold Rdiv. apply Rmult_le_pos; lra.
    - apply E. apply Rle_trans with (1 := A2). rewrite Rmult_comm. apply Rmult_le_compat_l; lra.
    - intros (B1 & B2). fold r in B1. assert (Z : zlen bins = (T * line_width o T c)%Z).
      { unfold bins. rewrite track_whole; [|exact B1|]. - rewrite full_track_len; [now rewrite Rd|lia|lia]. - cbn [r r_nonneg cpu_rate r_span]. destruct B2; [left|right]; lia. }
      rewrite Z in A1. fold (line_count o T c) in A1. apply Rmult_le_reg_r with (line_count o T c); [lra|]. replace (total S bins / line_count o T c * line_count o T c) with (total S bins) by (field; lra). lra.
  Qed.
  Lemma power_close c : bin D N c -> let x := bin_power o T N S c in is_finite x = true /\ Rabs (B2R x - line_average o T N S c) <= rounding o T N S c /\ Rabs (B2R x) <= bpow radix2 101 /\ 0 <= rel_error o T c <= / 2 /\ 0 <= abs_error o T c /\ 0 <= line_average o T N S c.
  Proof.
    intros Hc x. destruct (count_bounds c Hc) as (W & L & C1 & C2). destruct Hg as ((T2 & _) & _). set (r := cpu_rate T (s_desmear o) (line_span o c)).
    assert (Sr : short_rate T r) by (split; [exact W|exact L]).
    assert (Tm : tame T N S) by (intros t ch Ht Hch; destruct (Hb t ch Ht Hch) as (F & P1 & P2); split; [exact F|]; now rewrite Rabs_pos_eq).
    pose proof (plane_value T N S r (snd c) ltac:(lia) Sr Tm) as V. cbv zeta in V.
    change (fdiv (lsum fplus f0 (map (fun tc => fdiv (S (fst tc) (snd tc)) (r_desmear r)) (track N T r (snd c)))) T) with x in V.
    assert (Ps : forall t ch, In (t, ch) (track N T r (snd c)) -> 0 <= B2R (S t ch)) by (intros t ch Hi; apply Hb; apply (track_in _ _ _ _ _ _ Hi)).
    pose proof (C92_relative S _ _ _ x Ps V) as B. destruct V as (F & _).
    destruct (average_bounds c 0 (bpow radix2 100) Hc) as ((A1 & A2) & _); [intros t ch Hi; apply Hb; apply (track_in _ _ _ _ _ _ Hi)|apply bpow_ge_0|].
    assert (Lb : IZR (zlen (track N T r (snd c))) <= line_count o T c) by (apply IZR_le; apply track_short; cbn [r r_desmear cpu_rate]; [lia|unfold line_width in W; lia]).
    change (r_desmear r) with (line_width o T c) in B. rewrite (Z.mul_comm (line_width o T c) T) in B. fold (line_count o T c) in B. unfold r in B at 1 3. fold (line_average o T N S c) in B. fold r in B.
    pose proof (bpow_gt_0 radix2 (-24)) as U. pose proof (bpow_gt_0 radix2 (-150)) as H. assert (W' : 1 <= IZR (line_width o T c)) by (apply IZR_le; exact W).
    assert (E1 : 0 <= rel_error o T c <= / 2). { unfold rel_error. split; [apply Rmult_le_pos; lra|]. change (bpow radix2 21) with (IZR 2097152) in C2. change (bpow radix2 (-24)) with (/ IZR 16777216). lra. }
    assert (E2 : 0 <= abs_error o T c) by (unfold abs_error; apply Rmult_le_pos; lra).
    assert (B' : Rabs (B2R x - line_average o T N S c) <= rounding o T N S c).
    { eapply Rle_trans; [exact B|]. unfold rounding. apply Rplus_le_compat; [|unfold abs_error; rewrite plus_IZR, mult_IZR; lra]. apply Rmult_le_compat_r; [exact A1|]. unfold rel_error. apply Rmult_le_compat_r; lra. }
    split; [exact F|]. split; [exact B'|]. split; [|split; [exact E1|split; [exact E2|exact A1]]].
    assert (Wm : IZR (line_width o T c) <= bpow radix2 21) by (change (bpow radix2 21) with (IZR (2 ^ 21)); apply IZR_le; nia).
    assert (E3 : abs_error o T c <= bpow radix2 (-100)).
    { unfold abs_error. replace (bpow radix2 (-100)) with (bpow radix2 50 * bpow radix2 (-150)) by (rewrite <- bpow_plus; reflexivity). apply Rmult_le_compat_r; [lra|]. change (bpow radix2 21) with (IZR 2097152) in Wm. change (bpow radix2 50) with (IZR 1125899906842624). lra. }
    assert (E4 : bpow radix2 (-100) <= / 4 * bpow radix2 100). { replace (/ 4 * bpow radix2 100) with (bpow radix2 98); [apply bpow_le; lia|]. change (/ 4) with (bpow radix2 (-2)). rewrite <- bpow_plus. reflexivity. }
    replace (B2R x) with ((B2R x - line_average o T N S c) + line_average o T N S c) by ring. eapply Rle_trans; [apply Rabs_triang|]. rewrite (Rabs_pos_eq (line_average o T N S c)) by exact A1.
    unfold rounding in B'. change 101%Z with (100 + 1)%Z. rewrite bpow_plus_1. change (IZR radix2) with 2. assert (rel_error o T c * line_average o T N S c <= / 2 * bpow radix2 100) by (apply Rmult_le_compat; lra). lra.
  Qed.
  Lemma noise_close power c : bin D N c -> is_finite power = true -> bpow radix2 (-80) <= B2R power <= bpow radix2 90 -> let w := bin_noise o T power (fst c) in let sigma := line_noise o T (B2R power) c in
    is_finite w = true /\ Rabs (B2R w - sigma) <= 2 * u32 * sigma /\ 0 < sigma /\ 0 < B2R w.
  Proof.
    intros Hc Fp Bp w sigma. destruct (count_bounds c Hc) as (W & L & C1 & C2). destruct Hg as ((T2 & _) & _). pose proof u32_pos as U. pose proof u32_small as U'.
    destruct (C78_noise_accuracy power T (line_width o T c) Fp Bp ltac:(nia)) as (F & B). change (mean_noise power T (line_width o T c)) with w in F, B. change (IZR (T * line_width o T c)) with (line_count o T c) in B. fold (line_noise o T (B2R power) c) in B. fold sigma in B.
    assert (P : 0 < sigma). { unfold sigma, line_noise, Rdiv. apply Rmult_lt_0_compat; [pose proof (bpow_gt_0 radix2 (-80)); lra|]. apply Rinv_0_lt_compat, sqrt_lt_R0. lra. }
    change (bpow radix2 (-23)) with (/ IZR 8388608) in B. assert (B' : Rabs (B2R w - sigma) <= 2 * u32 * sigma) by (rewrite u32_val; lra).
    split; [exact F|]. split; [exact B'|]. split; [exact P|]. apply Rabs_le_inv in B'. nra.
  Qed.
End Facts.

(** ** Sensitivity *)
Section Claims.
  Variables (i : channel_info) (o : search_options) (T N : Z) (S : Z -> Z -> f32) (M : Z -> Z -> Z) (floor power : f32) (comps : list (list coord)) (hs : list hit).
  Notation D := (grid_size (s_low o) (s_high o) (s_step o)).
  Local Open Scope R_scope.
  (** A search of bright samples with a usable noise estimate and threshold. *)
  Definition usable : Prop := good_grid o T N /\ short_lines o T /\ bright T N S /\
    is_finite (s_threshold o) = true /\ bpow radix2 (-125) <= B2R (s_threshold o) /\
    is_finite floor = true /\ Rabs (B2R floor) <= bpow radix2 101 /\ is_finite power = true /\ bpow radix2 (-80) <= B2R power <= bpow radix2 90.
End Claims.
(** Every line whose average stands out of the floor by the threshold, up to rounding, has a hit at least as strong. *)
Theorem C93_detects : forall i o T N S M floor power comps hs, usable o T N S floor power -> found i o T N S M floor power comps hs -> forall c, bin (grid_size (s_low o) (s_high o) (s_step o)) N c ->
  (B2R (s_threshold o) * line_noise o T (B2R power) c * (1 + bpow radix2 (-21)) + rounding o T N S c <= line_average o T N S c - B2R floor)%R ->
  exists h, In h hs /\ f32gt (bin_snr o T N S floor power c) (h_snr h) = false.
Proof.
  intros i o T N S M floor power comps hs (Hg & Hs & Hb & Ft & Bt & Ff & Bf & Fp & Bp) Hfo c Hc H. apply (proj1 (C78_complete_and_sound _ _ _ _ _ _ _ _ _ _ Hfo)); [exact Hc|].
  destruct (power_close o T N S Hg Hs Hb c Hc) as (Fx & Ex & Bx & _). destruct (noise_close o T N Hg Hs power c Hc Fp Bp) as (Fw & Ew & Ps & Pw). pose proof u32_pos as U. pose proof u32_small as U'.
  
  assert (Bt' : (bpow radix2 (-126) <= B2R (s_threshold o))%R) by (apply Rle_trans with (2 := Bt); apply bpow_le; lia). pose proof (bpow_gt_0 radix2 (-126)) as P.
  apply exceeds; try assumption. apply Rabs_le_inv in Ex. apply Rabs_le_inv in Ew. apply Rle_trans with (line_average o T N S c - rounding o T N S c - B2R floor)%R; [|lra].
  apply Rle_trans with (B2R (s_threshold o) * line_noise o T (B2R power) c * (1 + bpow radix2 (-21)))%R; [|lra]. rewrite !Rmult_assoc. apply Rmult_le_compat_l; [lra|].
  apply Rle_trans with (line_noise o T (B2R power) c * (1 + 2 * u32) * (1 + 4 * u32))%R; [apply Rmult_le_compat_r; lra|]. rewrite Rmult_assoc. apply Rmult_le_compat_l; [lra|].
  change (bpow radix2 (-21)) with (/ IZR 2097152)%R. replace (/ IZR 2097152)%R with (8 * u32)%R by (rewrite u32_val; lra). nra.
Qed.
Print Assumptions C93_detects.
(** Every hit stands out of the floor by the threshold, up to rounding. *)
Theorem C93_hits_are_real : forall i o T N S M floor power comps hs, usable o T N S floor power -> found i o T N S M floor power comps hs -> forall h, In h hs ->
  exists c, bin (grid_size (s_low o) (s_high o) (s_step o)) N c /\ h_snr h = bin_snr o T N S floor power c /\ h_rate h = fst c /\ h_index h = snd c /\ h_drift h = line_hz (ci_foff i) (ci_tsamp i) T (line_span o c) /\
    (B2R (s_threshold o) * line_noise o T (B2R power) c * (1 - bpow radix2 (-22)) - rounding o T N S c <= line_average o T N S c - B2R floor)%R.
Proof.
  intros i o T N S M floor power comps hs (Hg & Hs & Hb & Ft & Bt & Ff & Bf & Fp & Bp) Hfo h Hi. destruct (proj2 (C78_complete_and_sound _ _ _ _ _ _ _ _ _ _ Hfo) h Hi) as (c & Hc & E1 & Gt & E2 & E3 & E4).
  exists c. split; [exact Hc|]. split; [exact E1|]. split; [exact E2|]. split; [exact E3|]. split; [exact E4|].
  destruct (power_close o T N S Hg Hs Hb c Hc) as (Fx & Ex & Bx & _). destruct (noise_close o T N Hg Hs power c Hc Fp Bp) as (Fw & Ew & Ps & Pw). pose proof u32_pos as U. pose proof u32_small as U'.
   pose proof (bpow_gt_0 radix2 (-125)) as P.
  pose proof (exceeded _ _ _ _ Fx Ff Fw Ft Bx Bf Pw ltac:(lra) Gt) as R1. apply Rabs_le_inv in Ex. apply Rabs_le_inv in Ew.
  apply Rle_trans with (B2R (bin_power o T N S c) - rounding o T N S c - B2R floor)%R; [|lra].
  assert (B2R (s_threshold o) * line_noise o T (B2R power) c * (1 - bpow radix2 (-22)) <= B2R (s_threshold o) * B2R (bin_noise o T power (fst c)) * (1 - u32))%R; [|lra].
  rewrite !Rmult_assoc. apply Rmult_le_compat_l; [lra|]. apply Rle_trans with (line_noise o T (B2R power) c * (1 - 2 * u32) * (1 - u32))%R; [|apply Rmult_le_compat_r; lra]. rewrite Rmult_assoc. apply Rmult_le_compat_l; [lra|].
  change (bpow radix2 (-22)) with (/ IZR 4194304)%R. replace (/ IZR 4194304)%R with (4 * u32)%R by (rewrite u32_val; lra). nra.
Qed.
Print Assumptions C93_hits_are_real.
(** The ratio that is computed for a line is its exact one up to rounding. *)
Theorem C93_snr_accuracy : forall o T N S floor power, usable o T N S floor power -> forall c, bin (grid_size (s_low o) (s_high o) (s_step o)) N c ->
  let rho := ((line_average o T N S c - B2R floor) / line_noise o T (B2R power) c)%R in let err := (rounding o T N S c / line_noise o T (B2R power) c)%R in
  (Rabs rho + err <= bpow radix2 120)%R -> let s := bin_snr o T N S floor power c in
  is_finite s = true /\ (Rabs (B2R s - rho) <= bpow radix2 (-21) * Rabs rho + 2 * err + bpow radix2 (-150))%R.
Proof.
  intros o T N S floor power (Hg & Hs & Hb & Ft & Bt & Ff & Bf & Fp & Bp) c Hc rho err Hr s.
  destruct (power_close o T N S Hg Hs Hb c Hc) as (Fx & Ex & Bx & _). destruct (noise_close o T N Hg Hs power c Hc Fp Bp) as (Fw & Ew & Ps & Pw). pose proof u32_pos as U.
  
  assert (E0 : (0 <= rounding o T N S c)%R) by (eapply Rle_trans; [apply Rabs_pos|exact Ex]).
  destruct (ratio _ _ _ _ Fx Ff Fw Ft Bx Bf Pw _ _ _ Ps Ew E0 Ex Hr) as (F & B). split; [exact F|]. eapply Rle_trans; [exact B|]. fold rho err. fold h32. change (bpow radix2 (-21)) with (/ IZR 2097152)%R. rewrite u32_val. lra.
Qed.
Print Assumptions C93_snr_accuracy.
(** In particular: a line in the band whose samples all reach [P] is found, ... *)
Theorem C93_strong_line : forall i o T N S M floor power comps hs, usable o T N S floor power -> found i o T N S M floor power comps hs -> forall c P, bin (grid_size (s_low o) (s_high o) (s_step o)) N c ->
  in_band o T N c -> (forall t ch, on_line o T N c t ch -> (P <= B2R (S t ch))%R) ->
  (B2R (s_threshold o) * line_noise o T (B2R power) c * (1 + bpow radix2 (-21)) + rel_error o T c * P + abs_error o T c <= P - B2R floor)%R ->
  exists h, In h hs /\ f32gt (bin_snr o T N S floor power c) (h_snr h) = false.
Proof.
  intros i o T N S M floor power comps hs Hu Hfo c P Hc Hin HP H. apply (C93_detects i o T N S M floor power comps hs Hu Hfo c Hc). destruct Hu as (Hg & Hs & Hb & _).
  destruct (average_bounds o T N S Hg Hs Hb c P (bpow radix2 100) Hc) as (_ & A); [intros t ch Hi; split; [now apply HP|]; apply Hb; apply (track_in _ _ _ _ _ _ Hi)|apply bpow_ge_0|].
  specialize (A Hin). destruct (power_close o T N S Hg Hs Hb c Hc) as (_ & _ & _ & R & _). unfold rounding. nra.
Qed.
Print Assumptions C93_strong_line.
(** ... and a channel whose samples all stay below [Q] has no hits, lines that leave the band included. *)
Theorem C93_quiet_channel : forall i o T N S M floor power comps hs, usable o T N S floor power -> found i o T N S M floor power comps hs -> forall Q, (0 <= Q)%R ->
  (forall t ch, 0 <= t < T -> 0 <= ch < N -> (B2R (S t ch) <= Q)%R) ->
  (forall c, bin (grid_size (s_low o) (s_high o) (s_step o)) N c -> Q - B2R floor + rel_error o T c * Q + abs_error o T c < B2R (s_threshold o) * line_noise o T (B2R power) c * (1 - bpow radix2 (-22)))%R ->
  hs = [].
Proof.
  intros i o T N S M floor power comps hs Hu Hfo Q Q0 HQ H. destruct hs as [|h hs]; [reflexivity|exfalso].
  destruct (C93_hits_are_real i o T N S M floor power comps _ Hu Hfo h (or_introl eq_refl)) as (c & Hc & _ & _ & _ & _ & R1). destruct Hu as (Hg & Hs & Hb & _).
  destruct (average_bounds o T N S Hg Hs Hb c 0%R Q Hc) as ((A1 & A2) & _); [intros t ch Hi; destruct (track_in _ _ _ _ _ _ Hi) as (I1 & I2); split; [now apply Hb|now apply HQ]|exact Q0|].
  specialize (H c Hc). destruct (power_close o T N S Hg Hs Hb c Hc) as (_ & _ & _ & R & _). unfold rounding in R1. nra.
Qed.
Print Assumptions C93_quiet_channel.

(** ** From samples to hits *)
Section Samples.
  Local Open Scope R_scope.
  (** Exact mean, mean square and variance of the powers in some bins. *)
  Definition exact_mean (S : Z -> Z -> f32) (es : list (Z * Z)) : R := total S es / IZR (zlen es).
  Definition exact_square (S : Z -> Z -> f32) (es : list (Z * Z)) : R := fold_right (fun tc s => B2R (S (fst tc) (snd tc)) * B2R (S (fst tc) (snd tc)) + s) 0 es / IZR (zlen es).
  Definition exact_variance (S : Z -> Z -> f32) (es : list (Z * Z)) : R := exact_square S es - exact_mean S es * exact_mean S es.
  Notation samples S es := (map (fun tc => S (fst tc) (snd tc)) es).
  Lemma samples_len (S : Z -> Z -> f32) (es : list (Z * Z)) : INR (length (samples S es)) = IZR (zlen es).
  Proof. rewrite map_length. unfold zlen. apply INR_IZR_INZ. Qed.
  Lemma mean_samples S es : rmean (samples S es) = exact_mean S es.
  Proof. unfold rmean, exact_mean. now rewrite total_vals, samples_len. Qed.
  Lemma square_samples S es : mean_square (samples S es) = exact_square S es.
  Proof.
    unfold mean_square, exact_square. rewrite samples_len. f_equal. unfold vals. induction es as [|e es IH]; [reflexivity|]. cbn [map fold_right]. rewrite rsum_cons, IH. reflexivity.
  Qed.
  Lemma variance_samples S es : variance (samples S es) = exact_variance S es.
  Proof. unfold variance, exact_variance. now rewrite square_samples, mean_samples. Qed.
  Lemma total_perm S es fs : Permutation es fs -> total S es = total S fs.
  Proof. unfold total. induction 1; cbn [fold_right]; lra. Qed.
  Lemma square_perm S es fs : Permutation es fs -> exact_square S es = exact_square S fs.
  Proof. intros P. unfold exact_square. f_equal; [|unfold zlen; now rewrite (Permutation_length P)]. induction P; cbn [fold_right]; lra. Qed.
  Lemma mean_perm S es fs : Permutation es fs -> exact_mean S es = exact_mean S fs.
  Proof. intros P. unfold exact_mean. rewrite (total_perm S es fs P). unfold zlen. now rewrite (Permutation_length P). Qed.
  Lemma unflagged_perm T N M es fs : unflagged T N M es -> unflagged T N M fs -> Permutation es fs.
  Proof. intros (N1 & H1) (N2 & H2). apply NoDup_Permutation; [exact N1|exact N2|]. intros (t & c). now rewrite H1, H2. Qed.
  Lemma unflagged_len T N M es : (0 <= T)%Z -> (0 <= N)%Z -> unflagged T N M es -> (zlen es <= T * N)%Z.
  Proof.
    intros HT HN (ND & H). unfold zlen. assert (L : (length es <= length (list_prod (zrange T) (zrange N)))%nat).
    { apply NoDup_incl_length; [exact ND|]. intros (t & c) Hi. apply H in Hi as (A & B & _). apply in_prod; apply in_zrange; assumption. }
    rewrite prod_length in L. pose proof (zrange_length T). pose proof (zrange_length N). unfold zlen in *. nia.
  Qed.
End Samples.
(** The samples that are not flagged have a spread that double precision can resolve. *)
Definition spread (S : Z -> Z -> f32) (es : list (Z * Z)) : Prop :=
  let sigma := sqrt (exact_variance S es) in
  (bpow radix2 (-79) <= sigma <= bpow radix2 89 /\ (IZR (zlen es) + 2) * bpow radix2 (-50) * exact_square S es + bpow radix2 (-900) <= bpow radix2 (-12) * exact_variance S es)%R.
Lemma estimate_close (S : Z -> Z -> f32) es : 1 <= zlen es <= 2 ^ 26 -> (forall t c, In (t, c) es -> is_finite (S t c) = true /\ (0 <= B2R (S t c) <= bpow radix2 100)%R) -> spread S es ->
  let xs : list f32 := map (fun tc => S (fst tc) (snd tc)) es in let r := stat_fin ops64 sqrt64 narrow (fold_left (stat_add ops64 widen) xs (stat_zero ops64)) (zlen xs) in
  let mu := exact_mean S es in let sigma := sqrt (exact_variance S es) in
  is_finite (fst r) = true /\ is_finite (snd r) = true /\ (0 <= mu <= bpow radix2 100)%R /\
  (Rabs (B2R (fst r) - mu) <= bpow radix2 (-23) * mu + bpow radix2 (-149))%R /\ (Rabs (B2R (snd r) - sigma) <= bpow radix2 (-11) * sigma)%R.
Proof.
  intros Hn Hb (Hs & Hv) xs r mu sigma.
  assert (Lx : zlen (xs : list f32) = zlen es) by (unfold xs, zlen; now rewrite map_length). assert (Ln : 1 <= zlen (xs : list f32) < 2 ^ 31) by (rewrite Lx; clear - Hn; lia).
  assert (Mx : moderate xs). { apply Forall_map, Forall_forall. intros (t & c) Hi. destruct (Hb t c Hi) as (F & B1 & B2). split; [exact F|]. rewrite Rabs_pos_eq by exact B1. apply Rle_trans with (1 := B2). apply bpow_le. lia. }
  assert (E : r = (mean64 (fold_left add64 xs (B754_zero false)) (zlen xs), deviation64 (fold_left add_both xs (B754_zero false, B754_zero false)) (zlen xs))).
  { transitivity (mean64 (fst (fold_left add_both xs (B754_zero false, B754_zero false))) (zlen xs), deviation64 (fold_left add_both xs (B754_zero false, B754_zero false)) (zlen xs)); [reflexivity|].
    f_equal. f_equal. rewrite fold_add64. pose proof (fold_both xs (B754_zero false) (B754_zero false)) as FB. apply (f_equal fst) in FB. exact FB. }
  rewrite E. cbn [fst snd]. destruct (mean64_ok xs Mx Ln) as (F1 & B1). destruct (deviation64_ok xs Mx Ln) as [R1|(_ & R1)].
  2: { exfalso. unfold xs in R1. rewrite variance_samples, square_samples, samples_len in R1. unfold slack in R1. destruct Hs as (Hs & _).
    pose proof (bpow_gt_0 radix2 (-79)) as P. assert (0 < exact_variance S es)%R by (destruct (Rle_lt_dec (exact_variance S es) 0) as [Q|Q]; [rewrite sqrt_neg_0 in Hs by exact Q; lra|exact Q]).
    change (bpow radix2 (-12)) with (/ IZR 4096)%R in Hv. lra. }
  pose proof R1 as (F2 & _). destruct (rough_root_bound 2 xs _ Mx (proj1 Ln) R1) as (_ & B2). destruct Hs as (S1 & S2). pose proof (bpow_gt_0 radix2 (-79)) as P79.
  assert (V0 : (0 < exact_variance S es)%R) by (destruct (Rle_lt_dec (exact_variance S es) 0) as [Q|Q]; [rewrite sqrt_neg_0 in S1 by exact Q; lra|exact Q]).
  assert (Vx : variance xs = exact_variance S es) by apply variance_samples. assert (Qx : mean_square xs = exact_square S es) by apply square_samples. assert (Ix : INR (length xs) = IZR (zlen es)) by apply samples_len.
  assert (Ux : rmean xs = mu) by apply mean_samples. rewrite Vx, Qx, Ix in B2. specialize (B2 V0). fold sigma in S1, S2, B2. rewrite Ux, Ix in B1.
  assert (N1 : (1 <= IZR (zlen es))%R) by (apply IZR_le; lia).
  assert (U0 : (0 <= mu <= bpow radix2 100)%R).
  { destruct (total_between S es 0 (bpow radix2 100)) as (A1 & A2); [intros t c Hi; apply Hb; exact Hi|]. unfold mu, exact_mean. split.
    - unfold Rdiv. apply Rmult_le_pos; [lra|]. left. apply Rinv_0_lt_compat. lra.
    - apply Rmult_le_reg_r with (IZR (zlen es)); [lra|]. replace (total S es / IZR (zlen es) * IZR (zlen es))%R with (total S es) by (field; lra). lra. }
  assert (Mg : magnitude xs = mu).
  { unfold magnitude, mu, exact_mean. rewrite Ix. f_equal. unfold xs. rewrite magnitude_vals. unfold total_magnitude, total. clear - Hb. induction es as [|(t & c) es IH]; [reflexivity|]. cbn [fold_right fst snd].
    rewrite Rabs_pos_eq by (apply Hb; now left). rewrite IH by (intros t' c' Hi; apply Hb; now right). reflexivity. }
  rewrite Mg, (Rabs_pos_eq mu) in B1 by lra.
  split; [exact F1|]. split; [exact F2|]. split; [exact U0|]. split.
  - eapply Rle_trans; [exact B1|]. apply Rplus_le_compat_r. rewrite <- Rmult_plus_distr_r. apply Rmult_le_compat_r; [lra|].
    assert (N2 : (IZR (zlen es) <= IZR 67108864)%R) by (apply IZR_le; lia). change (bpow radix2 (-24)) with (/ IZR 16777216)%R. change (bpow radix2 (-51)) with (/ IZR 2251799813685248)%R. change (bpow radix2 (-23)) with (/ IZR 8388608)%R. lra.
  - eapply Rle_trans; [exact B2|]. set (B := slack _ _ _) in *. assert (HB : (B <= bpow radix2 (-12) * exact_variance S es)%R) by exact Hv.
    assert (Sg : (sigma * sigma = exact_variance S es)%R) by (apply sqrt_sqrt; lra). assert (HB' : (B / sigma <= bpow radix2 (-12) * sigma)%R).
    { apply Rmult_le_reg_r with sigma; [lra|]. replace (B / sigma * sigma)%R with B by (field; lra). rewrite Rmult_assoc, Sg. exact HB. }
    assert (T1 : (bpow radix2 (-149) <= bpow radix2 (-70) * sigma)%R). { replace (bpow radix2 (-149)) with (bpow radix2 (-70) * bpow radix2 (-79))%R by (rewrite <- bpow_plus; reflexivity). apply Rmult_le_compat_l; [apply bpow_ge_0|exact S1]. }
    assert (T2 : (bpow radix2 (-70) * sigma <= bpow radix2 (-20) * sigma)%R) by (apply Rmult_le_compat_r; [lra|apply bpow_le; lia]).
    change (bpow radix2 (-12)) with (/ IZR 4096)%R in HB'. change (bpow radix2 (-20)) with (/ IZR 1048576)%R in T2. change (bpow radix2 (-23)) with (/ IZR 8388608)%R. change (bpow radix2 (-11)) with (/ IZR 2048)%R. lra.
Qed.
(** The search finds the lines whose exact average stands out of the exact mean of the samples that are not flagged by the threshold times
    the exact noise, and no others, but for 0.1 per cent and the rounding of the averages. *)
Theorem C93_find_hits : forall jn jz junk i o data mask T N S M es,
  channel_of data T N S -> channel_of mask T N M -> T * N <= 2 ^ 26 -> unflagged T N M es -> es <> [] -> spread S es -> bright T N S ->
  good_grid o T N -> short_lines o T -> s_method o = ConnectedComponents -> is_finite (s_threshold o) = true -> (bpow radix2 (-125) <= B2R (s_threshold o))%R ->
  let mu := exact_mean S es in let sigma := sqrt (exact_variance S es) in let thr := B2R (s_threshold o) in let D := grid_size (s_low o) (s_high o) (s_step o) in
  let drop := (bpow radix2 (-23) * mu + bpow radix2 (-149))%R in
  exists floor power, (Rabs (B2R floor - mu) <= drop)%R /\ (Rabs (B2R power - sigma) <= bpow radix2 (-11) * sigma)%R /\
  exists fuel0, forall fuel, (fuel0 <= fuel)%nat -> exists hs,
    find_hits fuel junk jz jn i o (dense [T; N], data) (dense [T; N], mask) = Some (Ok hs) /\
    (forall c, bin D N c -> (thr * line_noise o T sigma c * (1 + bpow radix2 (-10)) + rounding o T N S c + drop <= line_average o T N S c - mu)%R ->
       exists h, In h hs /\ f32gt (bin_snr o T N S floor power c) (h_snr h) = false) /\
    (forall h, In h hs -> exists c, bin D N c /\ h_snr h = bin_snr o T N S floor power c /\ h_rate h = fst c /\ h_index h = snd c /\ h_drift h = line_hz (ci_foff i) (ci_tsamp i) T (line_span o c) /\
       (thr * line_noise o T sigma c * (1 - bpow radix2 (-10)) - rounding o T N S c - drop <= line_average o T N S c - mu)%R).
Proof.
  intros jn jz junk i o data mask T N S M es Hd Hm HTN Hu Hne Hsp Hb Hg Hs Hme Ft Bt mu sigma thr D drop.
  assert (T0 : 0 <= T /\ 0 <= N) by (destruct Hg as (? & ? & _); lia). destruct T0 as (T0 & N0).
  assert (Hex : exists t c, 0 <= t < T /\ 0 <= c < N /\ M t c = 0). { destruct es as [|(t & c) es']; [contradiction|]. exists t, c. apply Hu. now left. }
  destruct (C78_find_hits jn jz junk i o data mask T N S M Hd Hm ltac:(lia) Hex Hg Hme Ft Bt) as (fs & floor & power & Hf & E & fuel0 & HF).
  pose proof (unflagged_perm T N M es fs Hu Hf) as Pm.
  assert (Ln : 1 <= zlen fs <= 2 ^ 26). { split; [|pose proof (unflagged_len T N M fs T0 N0 Hf); lia]. unfold zlen. rewrite <- (Permutation_length Pm). destruct es; [contradiction|cbn [length]; lia]. }
  assert (Em : exact_mean S fs = mu) by (symmetry; apply mean_perm, Pm). assert (Eq : exact_square S fs = exact_square S es) by (symmetry; apply square_perm, Pm).
  assert (Ev : exact_variance S fs = exact_variance S es) by (unfold exact_variance; now rewrite Eq, Em).
  assert (El : zlen fs = zlen es) by (unfold zlen; now rewrite (Permutation_length Pm)).
  destruct (estimate_close S fs Ln) as (F1 & F2 & U0 & B1 & B2).
  { intros t c Hi. apply Hf in Hi as (H1 & H2 & _). now apply Hb. }
  { unfold spread. rewrite El, Eq, Ev. exact Hsp. }
  cbv zeta in E. rewrite <- E in F1, F2, B1, B2. cbn [fst snd] in F1, F2, B1, B2. rewrite Em in B1, U0. rewrite Ev in B2. fold sigma in B2. fold drop in B1.
  exists floor, power. split; [exact B1|]. split; [exact B2|]. exists fuel0. intros fuel Hfu. destruct (HF fuel Hfu) as (comps & hs & Eh & Hfo). exists hs. split; [exact Eh|].
  destruct Hsp as ((S1 & S2) & _). fold sigma in S1, S2. pose proof (bpow_gt_0 radix2 (-79)) as P79. pose proof B1 as B1'. pose proof B2 as B2'. apply Rabs_le_inv in B1'. apply Rabs_le_inv in B2'.
  change (bpow radix2 (-11)) with (/ IZR 2048)%R in B2'.
  assert (Us : usable o T N S floor power).
  { split; [exact Hg|]. split; [exact Hs|]. split; [exact Hb|]. split; [exact Ft|]. split; [exact Bt|]. split; [exact F1|]. split; [|split; [exact F2|split]].
    - replace (B2R floor) with ((B2R floor - mu) + mu)%R by ring. eapply Rle_trans; [apply Rabs_triang|]. rewrite (Rabs_pos_eq mu) by lra. apply Rle_trans with (drop + mu)%R; [lra|]. unfold drop.
      assert (bpow radix2 (-149) <= / 4 * bpow radix2 100)%R. { replace (/ 4 * bpow radix2 100)%R with (bpow radix2 98); [apply bpow_le; lia|]. change (/ 4)%R with (bpow radix2 (-2)). rewrite <- bpow_plus. reflexivity. }
      change (bpow radix2 (-23)) with (/ IZR 8388608)%R. change 101 with (100 + 1). rewrite bpow_plus_1. change (IZR radix2) with 2%R. lra.
    - apply Rle_trans with (/ 2 * sigma)%R; [|lra]. replace (bpow radix2 (-80)) with (/ 2 * bpow radix2 (-79))%R; [lra|]. change (/ 2)%R with (bpow radix2 (-1)). rewrite <- bpow_plus. reflexivity.
    - apply Rle_trans with (2 * sigma)%R; [lra|]. replace (bpow radix2 90) with (2 * bpow radix2 89)%R; [lra|]. change 2%R with (bpow radix2 1). rewrite <- bpow_plus. reflexivity. }
  assert (Tp : (0 < thr)%R) by (pose proof (bpow_gt_0 radix2 (-125)); unfold thr; lra).
  assert (Nz : forall c, bin D N c -> (0 < line_noise o T sigma c /\ line_noise o T sigma c * (1 - / IZR 2048) <= line_noise o T (B2R power) c <= line_noise o T sigma c * (1 + / IZR 2048))%R).
  { intros c Hc. destruct (count_bounds o T N Hg Hs c Hc) as (_ & _ & C1 & _). assert (I : (0 < / sqrt (line_count o T c))%R) by (apply Rinv_0_lt_compat, sqrt_lt_R0; lra). unfold line_noise, Rdiv.
    split; [apply Rmult_lt_0_compat; lra|]. set (q := (/ sqrt (line_count o T c))%R) in *. clearbody q. split.
    - replace (sigma * q * (1 - / IZR 2048))%R with ((sigma - / IZR 2048 * sigma) * q)%R by ring. apply Rmult_le_compat_r; lra.
    - replace (sigma * q * (1 + / IZR 2048))%R with ((sigma + / IZR 2048 * sigma) * q)%R by ring. apply Rmult_le_compat_r; lra. }
  change (bpow radix2 (-10)) with (/ IZR 1024)%R. split.
  - intros c Hc H. apply (C93_detects i o T N S M floor power comps hs Us Hfo c Hc). destruct (Nz c Hc) as (N1 & N2 & N3). fold thr.
    assert (thr * line_noise o T (B2R power) c * (1 + bpow radix2 (-21)) <= thr * line_noise o T sigma c * (1 + / IZR 1024))%R; [|lra].
    rewrite !Rmult_assoc. apply Rmult_le_compat_l; [lra|]. change (bpow radix2 (-21)) with (/ IZR 2097152)%R. apply Rle_trans with (line_noise o T sigma c * (1 + / IZR 2048) * (1 + / IZR 2097152))%R; [apply Rmult_le_compat_r; lra|]. rewrite Rmult_assoc. apply Rmult_le_compat_l; lra.
  - intros h Hi. destruct (C93_hits_are_real i o T N S M floor power comps hs Us Hfo h Hi) as (c & Hc & E1 & E2 & E3 & E4 & H). exists c. split; [exact Hc|]. split; [exact E1|]. split; [exact E2|]. split; [exact E3|]. split; [exact E4|].
    destruct (Nz c Hc) as (N1 & N2 & N3). fold thr in H. assert (thr * line_noise o T sigma c * (1 - / IZR 1024) <= thr * line_noise o T (B2R power) c * (1 - bpow radix2 (-22)))%R; [|lra].
    rewrite !Rmult_assoc. apply Rmult_le_compat_l; [lra|]. change (bpow radix2 (-22)) with (/ IZR 4194304)%R. apply Rle_trans with (line_noise o T sigma c * (1 - / IZR 2048) * (1 - / IZR 4194304))%R; [|apply Rmult_le_compat_r; lra]. rewrite Rmult_assoc. apply Rmult_le_compat_l; lra.
Qed.
Print Assumptions C93_find_hits.
(** Samples outside of the band count as zero: a line of which only [k] of [n] samples are in the band is not reported unless these are [n / k]
    times as strong. *)
Theorem C93_clipped_line : forall i o T N S M floor power comps hs, usable o T N S floor power -> found i o T N S M floor power comps hs -> forall c Q, bin (grid_size (s_low o) (s_high o) (s_step o)) N c ->
  (forall t ch, on_line o T N c t ch -> (B2R (S t ch) <= Q)%R) ->
  let share := (IZR (zlen (track N T (cpu_rate T (s_desmear o) (line_span o c)) (snd c))) / line_count o T c)%R in
  (share * Q * (1 + rel_error o T c) + abs_error o T c - B2R floor < B2R (s_threshold o) * line_noise o T (B2R power) c * (1 - bpow radix2 (-22)))%R ->
  ~ exists h, In h hs /\ h_rate h = fst c /\ h_index h = snd c.
Proof.
  intros i o T N S M floor power comps hs Hu Hfo c Q Hc HQ share H (h & Hi & E1 & E2).
  destruct (C93_hits_are_real i o T N S M floor power comps hs Hu Hfo h Hi) as (c' & _ & _ & E3 & E4 & _ & R1). assert (c' = c) by (destruct c, c'; cbn [fst snd] in *; congruence). subst c'.
  destruct Hu as (Hg & Hs & Hb & _). destruct (power_close o T N S Hg Hs Hb c Hc) as (_ & _ & _ & R & _ & A0). destruct (count_bounds o T N Hg Hs c Hc) as (_ & _ & C1 & _).
  assert (A : (line_average o T N S c <= share * Q)%R).
  { unfold line_average, share. apply Rmult_le_reg_r with (line_count o T c); [lra|]. set (bins := track _ _ _ _). destruct (total_between S bins 0%R Q) as (_ & B); [intros t ch Hj; split; [apply Hb; apply (track_in _ _ _ _ _ _ Hj)|now apply HQ]|].
    replace (total S bins / line_count o T c * line_count o T c)%R with (total S bins) by (field; lra). replace (IZR (zlen bins) / line_count o T c * Q * line_count o T c)%R with (IZR (zlen bins) * Q)%R by (field; lra). exact B. }
  unfold rounding in R1. clear - H R1 R A0 A. set (a := line_average o T N S c) in *. set (e := rel_error o T c) in *. set (q := (share * Q)%R) in *. clearbody a e q. nra.
Qed.
Print Assumptions C93_clipped_line.

(** ** Cases *)
Section Cases.
  Local Open Scope R_scope.
  Definition isum (g : Z -> Z -> Z) (es : list (Z * Z)) : Z := fold_right (fun tc s => (g (fst tc) (snd tc) + s)%Z) 0%Z es.
  Lemma total_ints S g es : (forall t c, In (t, c) es -> B2R (S t c) = IZR (g t c)) -> total S es = IZR (isum g es).
  Proof.
    unfold total, isum. induction es as [|(t & c) es IH]; intros H; [reflexivity|]. cbn [fold_right fst snd]. rewrite plus_IZR, (H t c) by now left. rewrite IH by (intros; apply H; now right). reflexivity.
  Qed.
  Lemma square_ints S g es : (forall t c, In (t, c) es -> B2R (S t c) = IZR (g t c)) -> exact_square S es = IZR (isum (fun t c => (g t c * g t c)%Z) es) / IZR (zlen es).
  Proof.
    intros H. unfold exact_square. f_equal. unfold isum. induction es as [|(t & c) es IH]; [reflexivity|]. cbn [fold_right fst snd]. rewrite plus_IZR, mult_IZR, (H t c) by now left. rewrite IH by (intros; apply H; now right). reflexivity.
  Qed.
End Cases.
Definition ex_int (t c : Z) : Z := if c =? 2 + t then 100 else 1 + (t + c) mod 2.
Lemma ex_val t c : B2R (ex_line t c) = IZR (ex_int t c) /\ is_finite (ex_line t c) = true /\ 1 <= ex_int t c <= 100.
Proof.
  unfold ex_line, ex_int. pose proof (Z.mod_pos_bound (t + c) 2 ltac:(lia)). destruct (c =? 2 + t).
  - destruct (f32_of_Z_ok 100 ltac:(lia)) as (V & F). split; [exact V|split; [exact F|lia]].
  - destruct (f32_of_Z_ok (1 + (t + c) mod 2) ltac:(lia)) as (V & F). split; [exact V|split; [exact F|lia]].
Qed.
Definition ex_clear : list (Z * Z) := filter (fun tc => ex_flags (fst tc) (snd tc) =? 0) (list_prod (zrange 4) (zrange 12)).
Lemma ex_bright : bright 4 12 ex_line.
Proof.
  intros t c _ _. destruct (ex_val t c) as (V & F & B). split; [exact F|]. rewrite V. split; [apply IZR_le; lia|]. apply Rle_trans with (IZR 100); [apply IZR_le; lia|]. apply Rle_trans with (bpow radix2 7); [change (bpow radix2 7) with (IZR 128); lra|apply bpow_le; lia].
Qed.
Lemma ex_short : short_lines ex_opts 4.
Proof.
  intros d Hd. change (grid_size _ _ _) with 6 in Hd. assert (d = 0 \/ d = 1 \/ d = 2 \/ d = 3 \/ d = 4 \/ d = 5) as H by lia. repeat (destruct H as [->|H]; [vm_compute; discriminate|]). subst. vm_compute. discriminate.
Qed.
Definition pair_dec (a b : Z * Z) : {a = b} + {a <> b}. Proof. decide equality; apply Z.eq_dec. Defined.
Lemma ex_unflagged : unflagged 4 12 ex_flags ex_clear.
Proof.
  split.
  - assert (E : nodup pair_dec ex_clear = ex_clear) by (vm_compute; reflexivity). rewrite <- E. apply NoDup_nodup.
  - intros t c. unfold ex_clear. rewrite filter_In, in_prod_iff, !in_zrange. cbn [fst snd]. rewrite Z.eqb_eq. tauto.
Qed.
Lemma ex_totals : exact_mean ex_line ex_clear = (466 / 47)%R /\ exact_square ex_line ex_clear = (40112 / 47)%R.
Proof.
  split.
  - unfold exact_mean. rewrite (total_ints _ ex_int) by (intros; apply ex_val). replace (isum ex_int ex_clear) with 466 by (vm_compute; reflexivity). reflexivity.
  - rewrite (square_ints _ ex_int) by (intros; apply ex_val). replace (isum _ ex_clear) with 40112 by (vm_compute; reflexivity). reflexivity.
Qed.
Lemma ex_variance : exact_variance ex_line ex_clear = (1668108 / 2209)%R.
Proof. unfold exact_variance. destruct ex_totals as (-> & ->). field. Qed.
Lemma ex_sigma : (27 <= sqrt (exact_variance ex_line ex_clear) <= 28)%R.
Proof. rewrite ex_variance. split; [rewrite <- (sqrt_square 27) by lra|rewrite <- (sqrt_square 28) by lra]; apply sqrt_le_1_alt; lra. Qed.
Lemma ex_spread : spread ex_line ex_clear.
Proof.
  unfold spread. split.
  - pose proof ex_sigma. split; [apply Rle_trans with 1%R; [change 1%R with (bpow radix2 0); apply bpow_le; lia|lra]|apply Rle_trans with (bpow radix2 5); [change (bpow radix2 5) with 32%R; lra|apply bpow_le; lia]].
  - rewrite ex_variance. destruct ex_totals as (_ & ->). replace (zlen ex_clear) with 47 by (vm_compute; reflexivity). assert (bpow radix2 (-900) <= bpow radix2 (-50))%R by (apply bpow_le; lia).
    change (bpow radix2 (-50)) with (/ IZR 1125899906842624)%R in *. change (bpow radix2 (-12)) with (/ IZR 4096)%R. lra.
Qed.
Lemma off_is T s t n : 2 <= T <= 2 ^ 24 -> Z.abs s < 2 ^ 22 -> 0 <= t < T -> cpu_offset (widen (slope T s)) t = Ok n -> off T s t = n.
Proof. intros HT Hs Ht E. rewrite cpu_offset_ok in E by assumption. now injection E. Qed.
Lemma ex_offsets : map (off 4 3) (zrange 4) = [0; 1; 2; 3] /\ map (off 4 4) (zrange 4) = [0; 1; 3; 4].
Proof.
  change (zrange 4) with [0; 1; 2; 3]. cbn [map].
  rewrite (off_is 4 3 0 0), (off_is 4 3 1 1), (off_is 4 3 2 2), (off_is 4 3 3 3), (off_is 4 4 0 0), (off_is 4 4 1 1), (off_is 4 4 2 3), (off_is 4 4 3 4); try (vm_compute; reflexivity); try lia. split; reflexivity.
Qed.
(** The line of 100s from channel 2 to channel 5 is strong enough to be found, and lies in the band. *)
Example C93_case : channel_of (rows 4 12 ex_line) 4 12 ex_line /\ channel_of (rows 4 12 ex_flags) 4 12 ex_flags /\ unflagged 4 12 ex_flags ex_clear /\ ex_clear <> [] /\ spread ex_line ex_clear /\ bright 4 12 ex_line /\
  good_grid ex_opts 4 12 /\ short_lines ex_opts 4 /\ is_finite (s_threshold ex_opts) = true /\ (bpow radix2 (-125) <= B2R (s_threshold ex_opts))%R /\ bin 6 12 (4, 2) /\ in_band ex_opts 4 12 (4, 2) /\
  (B2R (s_threshold ex_opts) * line_noise ex_opts 4 (sqrt (exact_variance ex_line ex_clear)) (4%Z, 2%Z) * (1 + bpow radix2 (-10)) + rounding ex_opts 4 12 ex_line (4%Z, 2%Z) + (bpow radix2 (-23) * exact_mean ex_line ex_clear + bpow radix2 (-149))
    <= line_average ex_opts 4 12 ex_line (4%Z, 2%Z) - exact_mean ex_line ex_clear)%R.
Proof.
  split; [apply rows_channel; lia|]. split; [apply rows_channel; lia|]. split; [exact ex_unflagged|]. split; [vm_compute; discriminate|]. split; [exact ex_spread|]. split; [exact ex_bright|]. split; [exact ex_grid|]. split; [exact ex_short|].
  split; [exact (proj1 four_ok)|]. split; [exact (proj2 four_ok)|]. split; [split; cbn; lia|].
  assert (Tk : track 12 4 (cpu_rate 4 true 3) 2 = [(0, 2); (1, 3); (2, 4); (3, 5)]) by (unfold cpu_rate; rewrite (proj1 ex_offsets); vm_compute; reflexivity).
  split.
  { split; [|left; vm_compute; discriminate]. change (line_span ex_opts (4, 2)) with 3. change (s_desmear ex_opts) with true. unfold cpu_rate. rewrite (proj1 ex_offsets). intros t k Ht Hk. cbn [r_desmear] in Hk. change (width 4 true 3) with 1 in Hk. assert (k = 0) by lia. subst k.
    assert (t = 0 \/ t = 1 \/ t = 2 \/ t = 3) as H by lia. destruct H as [-> | [-> | [-> | ->]]]; vm_compute; split; (discriminate || reflexivity). }
  unfold rounding, rel_error, abs_error, line_noise, line_average, line_count. change (line_width ex_opts 4 (4, 2)) with 1. change (line_span ex_opts (4, 2)) with 3. change (s_desmear ex_opts) with true. change (4 * 1) with 4. cbn [snd]. rewrite Tk.
  rewrite (total_ints _ ex_int) by (intros; apply ex_val). replace (isum ex_int [(0, 2); (1, 3); (2, 4); (3, 5)]) with 400 by (vm_compute; reflexivity).
  replace (sqrt 4) with 2%R by (rewrite <- (sqrt_square 2) by lra; f_equal; lra). destruct ex_totals as (-> & _). pose proof ex_sigma as S. set (sg := sqrt (exact_variance ex_line ex_clear)) in *. clearbody sg.
  change (s_threshold ex_opts) with (f32_of_Z 4). rewrite (proj1 (f32_of_Z_ok 4 ltac:(lia))). assert (bpow radix2 (-149) <= bpow radix2 (-24))%R by (apply bpow_le; lia). assert (bpow radix2 (-150) <= bpow radix2 (-24))%R by (apply bpow_le; lia).
  change (bpow radix2 (-24)) with (/ IZR 16777216)%R in *. change (bpow radix2 (-23)) with (/ IZR 8388608)%R. change (bpow radix2 (-10)) with (/ IZR 1024)%R. lra.
Qed.
(** A line that starts in the last channel loses three of its four samples: 3 is enough
    in the band, and not enough there. *)
Definition ex_floor : f32 := f32_of_Z 0.
Definition ex_power : f32 := f32_of_Z 1.
Definition ex_edge (t c : Z) : f32 := f32_of_Z (if (t =? 0) && (c =? 11) then 3 else 0).
Lemma ex_edge_val t c : is_finite (ex_edge t c) = true /\ (0 <= B2R (ex_edge t c) <= 3)%R.
Proof. unfold ex_edge. destruct (_ && _); [destruct (f32_of_Z_ok 3 ltac:(lia)) as (-> & F)|destruct (f32_of_Z_ok 0 ltac:(lia)) as (-> & F)]; (split; [exact F|lra]). Qed.
Example C93_edge_case : usable ex_opts 4 12 ex_edge ex_floor ex_power /\ bin 6 12 (5, 11) /\ (forall t ch, on_line ex_opts 4 12 (5, 11) t ch -> B2R (ex_edge t ch) = 3%R) /\
  (B2R (s_threshold ex_opts) * line_noise ex_opts 4 (B2R ex_power) (5%Z, 11%Z) * (1 + bpow radix2 (-21)) + rel_error ex_opts 4 (5%Z, 11%Z) * 3 + abs_error ex_opts 4 (5%Z, 11%Z) <= 3 - B2R ex_floor)%R /\
  (IZR (zlen (track 12 4 (cpu_rate 4 (s_desmear ex_opts) (line_span ex_opts (5%Z, 11%Z))) 11%Z)) / line_count ex_opts 4 (5%Z, 11%Z) * 3 * (1 + rel_error ex_opts 4 (5%Z, 11%Z)) + abs_error ex_opts 4 (5%Z, 11%Z) - B2R ex_floor
    < B2R (s_threshold ex_opts) * line_noise ex_opts 4 (B2R ex_power) (5%Z, 11%Z) * (1 - bpow radix2 (-22)))%R.
Proof.
  assert (Vf : B2R ex_floor = 0%R) by apply (f32_of_Z_ok 0 ltac:(lia)). assert (Vp : B2R ex_power = 1%R) by apply (f32_of_Z_ok 1 ltac:(lia)).
  assert (Tk : track 12 4 (cpu_rate 4 true 4) 11 = [(0, 11)]) by (unfold cpu_rate; rewrite (proj2 ex_offsets); vm_compute; reflexivity).
  split; [|split; [split; cbn; lia|split]].
  - split; [exact ex_grid|]. split; [exact ex_short|]. split; [|split; [exact (proj1 four_ok)|split; [exact (proj2 four_ok)|split; [reflexivity|split; [|split; [reflexivity|]]]]]].
    + intros t c _ _. destruct (ex_edge_val t c) as (F & B). split; [exact F|]. split; [lra|]. apply Rle_trans with (bpow radix2 2); [change (bpow radix2 2) with 4%R; lra|apply bpow_le; lia].
    + rewrite Vf, Rabs_R0. apply bpow_ge_0.
    + rewrite Vp. change 1%R with (bpow radix2 0). split; apply bpow_le; lia.
  - unfold on_line. change (line_span ex_opts (5, 11)) with 4. change (s_desmear ex_opts) with true. cbn [snd]. rewrite Tk. intros t ch [E|[]]. injection E as <- <-. unfold ex_edge. cbn [Z.eqb andb]. apply (f32_of_Z_ok 3 ltac:(lia)).
  - rewrite Vf, Vp. unfold rel_error, abs_error, line_noise, line_count. change (line_width ex_opts 4 (5, 11)) with 1. change (line_span ex_opts (5, 11)) with 4. change (s_desmear ex_opts) with true. change (4 * 1) with 4. rewrite Tk. change (zlen [(0, 11)]) with 1.
    replace (sqrt 4) with 2%R by (rewrite <- (sqrt_square 2) by lra; f_equal; lra). change (s_threshold ex_opts) with (f32_of_Z 4). rewrite (proj1 (f32_of_Z_ok 4 ltac:(lia))).
    assert (0 < bpow radix2 (-150) <= bpow radix2 (-24))%R by (split; [apply bpow_gt_0|apply bpow_le; lia]). change (bpow radix2 (-24)) with (/ IZR 16777216)%R in *. change (bpow radix2 (-21)) with (/ IZR 2097152)%R. change (bpow radix2 (-22)) with (/ IZR 4194304)%R. split; lra.
Qed.
(** With a floor of 1 the same search has no line above the threshold. *)
Definition ex_quiet (t c : Z) : f32 := f32_of_Z (1 + (t + c) mod 2).
Example C93_quiet_case : usable ex_opts 4 12 ex_quiet ex_power ex_power /\ (forall t ch, (B2R (ex_quiet t ch) <= 2)%R) /\
  forall c, bin 6 12 c -> (2 - B2R ex_power + rel_error ex_opts 4 c * 2 + abs_error ex_opts 4 c < B2R (s_threshold ex_opts) * line_noise ex_opts 4 (B2R ex_power) c * (1 - bpow radix2 (-22)))%R.
Proof.
  assert (Vp : B2R ex_power = 1%R) by apply (f32_of_Z_ok 1 ltac:(lia)).
  assert (V : forall t c, is_finite (ex_quiet t c) = true /\ (1 <= B2R (ex_quiet t c) <= 2)%R).
  { intros t c. unfold ex_quiet. pose proof (Z.mod_pos_bound (t + c) 2 ltac:(lia)). destruct (f32_of_Z_ok (1 + (t + c) mod 2) ltac:(lia)) as (-> & F). split; [exact F|]. split; apply IZR_le; lia. }
  split; [|split; [intros t c; apply V|]].
  - split; [exact ex_grid|]. split; [exact ex_short|]. split; [|split; [exact (proj1 four_ok)|split; [exact (proj2 four_ok)|split; [reflexivity|split; [|split; [reflexivity|]]]]]].
    + intros t c _ _. destruct (V t c) as (F & B). split; [exact F|]. split; [lra|]. apply Rle_trans with (bpow radix2 1); [change (bpow radix2 1) with 2%R; lra|apply bpow_le; lia].
    + rewrite Vp, Rabs_pos_eq by lra. change 1%R with (bpow radix2 0). apply bpow_le; lia.
    + rewrite Vp. change 1%R with (bpow radix2 0). split; apply bpow_le; lia.
  - intros (d & f) (Hd & _). cbn [fst] in Hd. rewrite Vp. assert (W : line_width ex_opts 4 (d, f) = 1).
    { assert (d = 0 \/ d = 1 \/ d = 2 \/ d = 3 \/ d = 4 \/ d = 5) as H by lia. repeat (destruct H as [->|H]; [reflexivity|]). subst. reflexivity. }
    unfold rel_error, abs_error, line_noise, line_count. rewrite W. change (4 * 1) with 4. replace (sqrt 4) with 2%R by (rewrite <- (sqrt_square 2) by lra; f_equal; lra). change (s_threshold ex_opts) with (f32_of_Z 4). rewrite (proj1 (f32_of_Z_ok 4 ltac:(lia))).
    assert (0 < bpow radix2 (-150) <= bpow radix2 (-24))%R by (split; [apply bpow_gt_0|apply bpow_le; lia]). change (bpow radix2 (-24)) with (/ IZR 16777216)%R in *. change (bpow radix2 (-22)) with (/ IZR 4194304)%R. lra.
Qed.
