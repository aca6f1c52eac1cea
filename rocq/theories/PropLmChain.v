(** C108: what a search for local maxima on CUDA detects when the noise is estimated on the GPU too, from sample powers to hits. *)
From Verif Require Import PropGred GredReal GredExact GredKernels GaccRel GvarModel PropGacc GvarProofs PropGvar.
From Verif Require Import CcCudaSpec CcCudaClass CcCudaProofs PropCcCuda LmSearchModel GpuSensProofs LmProofs LmCudaProofs PropLm HitProofs.
From Verif Require Import DriftAgree PipeModel DriftSearchProofs DriftProofs CudaOffsetProofs CcSpec PropDrift PropCc PropPipe FsumModel FsumProofs FsumProofs2.
From Verif Require Import DsumProofs SensProofs PropDsum PropSens PropGpuSens PropLmSens PropGpuChain.
From Coq Require Import ZifyBool ZifyNat Lia Permutation Reals Lra Psatz.
From Flocq Require Import Core BinarySingleNaN.
Local Open Scope Z_scope.

(** ** What is expected *)
Section Exact.
  Variables (o : search_options) (T N : Z) (S : Z -> Z -> f32) (mu sigma : R).
  Local Open Scope R_scope.
  (** How far a line stands out of the exact floor, in the unit in which the noise of every line is [sigma]; its signal to noise ratio is this over [sigma]. *)
  Definition strength (c : coord) : R := sqrt (line_count o T c) * (met_average o T N S c - mu).
  (** What rounding and the estimate of the floor may change. *)
  Definition blur (c : coord) : R := sqrt (line_count o T c) * (bpow radix2 (-21) * Rabs (met_average o T N S c - mu) + 2 * met_rounding o T N S c + 2 * floor_error mu) + bpow radix2 (-149) * sigma.
  (** The ratio fits a float. *)
  Definition moderate_ratio (c : coord) : Prop := sqrt (line_count o T c) * (Rabs (met_average o T N S c - mu) + met_rounding o T N S c + floor_error mu) <= bpow radix2 119 * sigma.
End Exact.

(** ** Facts *)
Section Facts.
  Local Open Scope R_scope.
  Variables (o : search_options) (T N : Z) (S : Z -> Z -> f32) (mu sigma eps : R) (floor power : f32).
  Hypothesis He : noise_estimated o T N S mu sigma eps floor power.
  Hypothesis M0 : 0 <= mu.
  Notation D := (grid_size (s_low o) (s_high o) (s_step o)).
  Let Us : cuda_usable o T N S floor power. Proof. apply He. Qed.
  Let S0 : 0 < sigma. Proof. destruct He as (_ & H & _). pose proof (bpow_gt_0 radix2 (-70)). lra. Qed.
  Let E0 : 0 <= floor_error mu. Proof. unfold floor_error. pose proof (bpow_gt_0 radix2 (-140)). lra. Qed.
  Let P0 : (1 - eps) * sigma <= B2R power <= (1 + eps) * sigma /\ 3 / 4 * sigma <= B2R power <= 5 / 4 * sigma.
  Proof. destruct He as (H1 & _ & _ & H & _). apply Rabs_le_inv in H. split; [lra|nra]. Qed.
  Lemma count_pos c : bin D N c -> 1 <= sqrt (line_count o T c).
  Proof. intros Hc. destruct (met_count o T N S floor power Us c Hc) as (_ & _ & (C & _) & _). rewrite <- sqrt_1. now apply sqrt_le_1_alt. Qed.
  Lemma rounding_pos c : bin D N c -> 0 <= met_rounding o T N S c.
  Proof.
    intros Hc. destruct (gpu_close o T N S floor power Us c Hc) as (_ & Ex & _). eapply Rle_trans; [apply Rabs_pos|exact Ex].
  Qed.
  Lemma ratio_times c x : bin D N c -> x / line_noise o T (B2R power) c * B2R power = sqrt (line_count o T c) * x.
  Proof. intros Hc. pose proof (count_pos c Hc). unfold line_noise. field. destruct P0. lra. Qed.
  (** The ratio as computed, in the unit of [strength]. *)
  Lemma strength_near c : bin D N c -> Rabs (met_ratio o T N S floor power c * B2R power - strength o T N S mu c) + ratio_error o T N S floor power c * B2R power <= blur o T N S mu sigma c.
  Proof.
    intros Hc. pose proof (count_pos c Hc) as Q. pose proof (rounding_pos c Hc) as R0. destruct He as (H1 & _ & Hf & _). unfold ratio_error. rewrite !Rmult_plus_distr_r.
    assert (Em : Rabs (met_ratio o T N S floor power c) * B2R power = sqrt (line_count o T c) * Rabs (met_average o T N S c - B2R floor)).
    { rewrite <- (Rabs_pos_eq (B2R power)) at 1 by lra. rewrite <- Rabs_mult. unfold met_ratio. rewrite ratio_times by exact Hc. rewrite Rabs_mult. f_equal. apply Rabs_pos_eq. lra. }
    assert (Ee : met_error o T N S power c * B2R power = sqrt (line_count o T c) * met_rounding o T N S c) by (apply ratio_times; exact Hc).
    rewrite (Rmult_assoc (bpow radix2 (-21))), Em, (Rmult_assoc 2), Ee. unfold met_ratio at 1. rewrite ratio_times by exact Hc. unfold strength, blur. set (q := sqrt (line_count o T c)) in *. set (a := met_average o T N S c) in *. set (r := met_rounding o T N S c) in *.
    replace (q * (a - B2R floor) - q * (a - mu)) with (q * - (B2R floor - mu)) by ring. rewrite Rabs_mult, Rabs_Ropp, (Rabs_pos_eq q) by lra.
    assert (A : Rabs (a - B2R floor) <= Rabs (a - mu) + floor_error mu). { replace (a - B2R floor) with ((a - mu) + - (B2R floor - mu)) by ring. eapply Rle_trans; [apply Rabs_triang|]. rewrite Rabs_Ropp. lra. }
    assert (B21 : 0 < bpow radix2 (-21) <= 1) by (split; [apply bpow_gt_0|change 1 with (bpow radix2 0); apply bpow_le; lia]).
    assert (T1 : bpow radix2 (-150) * B2R power <= bpow radix2 (-149) * sigma). { replace (bpow radix2 (-149)) with (2 * bpow radix2 (-150)) by (change 2 with (bpow radix2 1); rewrite <- bpow_plus; reflexivity). pose proof (bpow_gt_0 radix2 (-150)). destruct P0. nra. }
    assert (T2 : q * Rabs (B2R floor - mu) <= q * floor_error mu) by (apply Rmult_le_compat_l; lra).
    assert (T3 : bpow radix2 (-21) * (q * Rabs (a - B2R floor)) <= q * (bpow radix2 (-21) * Rabs (a - mu)) + q * floor_error mu).
    { rewrite <- Rmult_assoc, (Rmult_comm _ q), Rmult_assoc, <- Rmult_plus_distr_l. apply Rmult_le_compat_l; [lra|]. apply Rle_trans with (bpow radix2 (-21) * (Rabs (a - mu) + floor_error mu)); [apply Rmult_le_compat_l; lra|]. rewrite Rmult_plus_distr_l. nra. }
    rewrite !Rmult_plus_distr_l. lra.
  Qed.
  Lemma ratio_fits c : bin D N c -> moderate_ratio o T N S mu sigma c -> no_overflow o T N S floor power c.
  Proof.
    intros Hc H. pose proof (count_pos c Hc) as Q. pose proof (rounding_pos c Hc) as R0. destruct He as (_ & _ & Hf & _). unfold no_overflow. apply Rmult_le_reg_r with (B2R power); [destruct P0; lra|].
    assert (Em : Rabs (met_ratio o T N S floor power c) * B2R power = sqrt (line_count o T c) * Rabs (met_average o T N S c - B2R floor)).
    { rewrite <- (Rabs_pos_eq (B2R power)) at 1 by (destruct P0; lra). rewrite <- Rabs_mult. unfold met_ratio. rewrite ratio_times by exact Hc. rewrite Rabs_mult. f_equal. apply Rabs_pos_eq. lra. }
    assert (Ee : met_error o T N S power c * B2R power = sqrt (line_count o T c) * met_rounding o T N S c) by (apply ratio_times; exact Hc).
    rewrite Rmult_plus_distr_r, Em, Ee. unfold moderate_ratio in H. set (q := sqrt (line_count o T c)) in *. set (a := met_average o T N S c) in *. set (r := met_rounding o T N S c) in *.
    assert (A : Rabs (a - B2R floor) <= Rabs (a - mu) + floor_error mu). { replace (a - B2R floor) with ((a - mu) + - (B2R floor - mu)) by ring. eapply Rle_trans; [apply Rabs_triang|]. rewrite Rabs_Ropp. lra. }
    replace (bpow radix2 120) with (2 * bpow radix2 119) by (change 2 with (bpow radix2 1); rewrite <- bpow_plus; reflexivity). pose proof (bpow_gt_0 radix2 119). destruct P0 as (_ & P1 & _).
    apply Rle_trans with (bpow radix2 119 * sigma); [|nra]. eapply Rle_trans; [|exact H]. rewrite <- Rmult_plus_distr_l. apply Rmult_le_compat_l; lra.
  Qed.
  Lemma snr_near c : bin D N c -> moderate_ratio o T N S mu sigma c -> is_finite (gpu_snr o T N S floor power c) = true /\ Rabs (B2R (gpu_snr o T N S floor power c) * B2R power - strength o T N S mu c) <= blur o T N S mu sigma c.
  Proof.
    intros Hc H. destruct (C95_snr_accuracy o T N S floor power Us c Hc (ratio_fits c Hc H)) as (F & A). split; [exact F|]. fold (met_ratio o T N S floor power c) in A. fold (met_error o T N S power c) in A. fold (ratio_error o T N S floor power c) in A.
    pose proof (strength_near c Hc) as B. destruct P0 as (_ & P1 & _). set (s := B2R (gpu_snr o T N S floor power c)) in *. replace (s * B2R power - strength o T N S mu c) with ((s - met_ratio o T N S floor power c) * B2R power + (met_ratio o T N S floor power c * B2R power - strength o T N S mu c)) by ring.
    eapply Rle_trans; [apply Rabs_triang|]. rewrite Rabs_mult, (Rabs_pos_eq (B2R power)) by lra. assert (Rabs (s - met_ratio o T N S floor power c) * B2R power <= ratio_error o T N S floor power c * B2R power) by (apply Rmult_le_compat_r; lra). lra.
  Qed.
  Lemma blur_pos c : bin D N c -> 0 <= blur o T N S mu sigma c.
  Proof.
    intros Hc. pose proof (count_pos c Hc) as Q. pose proof (rounding_pos c Hc) as R0. unfold blur. pose proof (bpow_gt_0 radix2 (-149)). pose proof (bpow_gt_0 radix2 (-21)). pose proof (Rabs_pos (met_average o T N S c - mu)).
    assert (0 <= bpow radix2 (-149) * sigma) by (apply Rmult_le_pos; lra). assert (0 <= bpow radix2 (-21) * Rabs (met_average o T N S c - mu)) by (apply Rmult_le_pos; lra).
    assert (0 <= sqrt (line_count o T c) * (bpow radix2 (-21) * Rabs (met_average o T N S c - mu) + 2 * met_rounding o T N S c + 2 * floor_error mu)) by (apply Rmult_le_pos; lra). lra.
  Qed.
  (** The ratio itself. *)
  Lemma snr_true c : bin D N c -> moderate_ratio o T N S mu sigma c -> Rabs (B2R (gpu_snr o T N S floor power c) - strength o T N S mu c / sigma) <= 4 / 3 * (eps * Rabs (strength o T N S mu c) + blur o T N S mu sigma c) / sigma.
  Proof.
    intros Hc H. destruct (snr_near c Hc H) as (_ & A). pose proof (blur_pos c Hc) as B0. destruct P0 as (_ & P1 & _). destruct He as (H1 & _ & _ & Hp & _). set (s := B2R (gpu_snr o T N S floor power c)) in *. set (g := strength o T N S mu c) in *. set (b := blur o T N S mu sigma c) in *.
    apply Rmult_le_reg_r with (sigma * B2R power); [apply Rmult_lt_0_compat; lra|]. rewrite <- (Rabs_pos_eq (sigma * B2R power)) at 1 by (apply Rmult_le_pos; lra). rewrite <- Rabs_mult.
    replace ((s - g / sigma) * (sigma * B2R power)) with (sigma * (s * B2R power - g) + - (g * (B2R power - sigma))) by (field; lra). eapply Rle_trans; [apply Rabs_triang|]. rewrite Rabs_Ropp, !Rabs_mult, (Rabs_pos_eq sigma) by lra.
    replace (4 / 3 * (eps * Rabs g + b) / sigma * (sigma * B2R power)) with (4 / 3 * B2R power * (eps * Rabs g + b)) by (field; lra). pose proof (Rabs_pos g) as G0.
    assert (X1 : sigma * Rabs (s * B2R power - g) <= sigma * b) by (apply Rmult_le_compat_l; lra). assert (X2 : Rabs g * Rabs (B2R power - sigma) <= Rabs g * (eps * sigma)) by (apply Rmult_le_compat_l; lra).
    apply Rle_trans with (sigma * (eps * Rabs g + b)); [lra|]. apply Rmult_le_compat_r; [|lra]. assert (0 <= eps * Rabs g) by (apply Rmult_le_pos; lra). lra.
  Qed.
  Lemma noise_near c : bin D N c -> 0 < line_noise o T sigma c /\ line_noise o T sigma c * (1 - eps) <= line_noise o T (B2R power) c <= line_noise o T sigma c * (1 + eps).
  Proof.
    intros Hc. pose proof (count_pos c Hc) as Q. destruct P0 as (P1 & _). assert (I : 0 < / sqrt (line_count o T c)) by (apply Rinv_0_lt_compat; lra). unfold line_noise, Rdiv.
    split; [apply Rmult_lt_0_compat; lra|]. set (q := / sqrt (line_count o T c)) in *. clearbody q. split.
    - replace (sigma * q * (1 - eps)) with ((1 - eps) * sigma * q) by ring. apply Rmult_le_compat_r; lra.
    - replace (sigma * q * (1 + eps)) with ((1 + eps) * sigma * q) by ring. apply Rmult_le_compat_r; lra.
  Qed.
  Let T0 : 0 < B2R (s_threshold o). Proof. destruct Us as (_ & _ & _ & _ & H & _). pose proof (bpow_gt_0 radix2 (-125)). lra. Qed.
  Lemma passing c : bin D N c -> f32gt (gpu_snr o T N S floor power c) (s_threshold o) = true -> may_pass o T N S mu sigma eps c.
  Proof.
    intros Hc Gc. pose proof (gpu_exceeded o T N S floor power Us c Hc Gc) as E. destruct (noise_near c Hc) as (N1 & N2 & _). destruct He as (_ & _ & Hf & _). apply Rabs_le_inv in Hf. unfold may_pass.
    assert (B2R (s_threshold o) * line_noise o T sigma c * ((1 - eps) * (1 - bpow radix2 (-22))) <= B2R (s_threshold o) * line_noise o T (B2R power) c * (1 - bpow radix2 (-22))); [|lra].
    rewrite !Rmult_assoc. apply Rmult_le_compat_l; [lra|]. rewrite <- Rmult_assoc. apply Rmult_le_compat_r; [|exact N2]. change (bpow radix2 (-22)) with (/ IZR 4194304). lra.
  Qed.
  Lemma sure_to_pass c : bin D N c -> must_pass o T N S mu sigma eps c -> B2R (s_threshold o) * line_noise o T (B2R power) c * (1 + bpow radix2 (-21)) + met_rounding o T N S c <= met_average o T N S c - B2R floor.
  Proof.
    intros Hc H. unfold must_pass in H. destruct (noise_near c Hc) as (N1 & _ & N3). destruct He as (_ & _ & Hf & _). apply Rabs_le_inv in Hf.
    assert (B2R (s_threshold o) * line_noise o T (B2R power) c * (1 + bpow radix2 (-21)) <= B2R (s_threshold o) * line_noise o T sigma c * ((1 + eps) * (1 + bpow radix2 (-21)))); [|lra].
    rewrite !Rmult_assoc. apply Rmult_le_compat_l; [lra|]. rewrite <- Rmult_assoc. apply Rmult_le_compat_r; [|exact N3]. pose proof (bpow_gt_0 radix2 (-21)). lra.
  Qed.
  (** The order of the ratios is the order of the strengths, up to blur. *)
  Lemma weaker c e : bin D N c -> bin D N e -> moderate_ratio o T N S mu sigma c -> moderate_ratio o T N S mu sigma e -> strength o T N S mu e + blur o T N S mu sigma e + blur o T N S mu sigma c <= strength o T N S mu c ->
    f32gt (gpu_snr o T N S floor power e) (gpu_snr o T N S floor power c) = false.
  Proof.
    intros Hc Hb Mc Me H. destruct (snr_near c Hc Mc) as (Fc & Ac). destruct (snr_near e Hb Me) as (Fe & Ae). destruct (f32gt _ _) eqn:G; [exfalso|reflexivity]. apply f32gt_val in G as (_ & _ & G). rewrite !fval_finite in G by assumption.
    apply Rabs_le_inv in Ac. apply Rabs_le_inv in Ae. destruct P0 as (_ & P1 & _). assert (B2R (gpu_snr o T N S floor power c) * B2R power < B2R (gpu_snr o T N S floor power e) * B2R power) by (apply Rmult_lt_compat_r; lra). lra.
  Qed.
  Lemma not_stronger c e : bin D N c -> bin D N e -> moderate_ratio o T N S mu sigma c -> moderate_ratio o T N S mu sigma e -> f32gt (gpu_snr o T N S floor power e) (gpu_snr o T N S floor power c) = false ->
    strength o T N S mu e - blur o T N S mu sigma e <= strength o T N S mu c + blur o T N S mu sigma c.
  Proof.
    intros Hc Hb Mc Me G. destruct (snr_near c Hc Mc) as (Fc & Ac). destruct (snr_near e Hb Me) as (Fe & Ae).
    assert (V : B2R (gpu_snr o T N S floor power e) <= B2R (gpu_snr o T N S floor power c)).
    { apply Rnot_lt_le. intros K. assert (f32gt (gpu_snr o T N S floor power e) (gpu_snr o T N S floor power c) = true); [|congruence]. apply f32gt_val. split; [now apply finite_number|]. split; [now apply finite_number|]. now rewrite !fval_finite. }
    apply Rabs_le_inv in Ac. apply Rabs_le_inv in Ae. destruct P0 as (_ & P1 & _). assert (B2R (gpu_snr o T N S floor power e) * B2R power <= B2R (gpu_snr o T N S floor power c) * B2R power) by (apply Rmult_le_compat_r; lra). lra.
  Qed.
End Facts.

(** ** From samples to hits *)
Theorem C108_maxima_from_samples : forall cx cd i o data mask T N S M es eps,
  channel_of data T N S -> channel_of mask T N M -> T * N < 2 ^ 31 -> unflagged T N M es -> es <> [] -> clear_spread eps S es -> bright T N S ->
  cuda_grid o T N -> short_lines o T -> maxima_size o N -> is_finite (s_threshold o) = true -> (bpow radix2 (-125) <= B2R (s_threshold o))%R ->
  let mu := exact_mean S es in let sigma := sqrt (exact_variance S es) in
  gpu_yields (gv_mmean_stddev cx cd) (dense [T; N]) (dense [T; N]) [] data mask (fun out => exists floor power, out 0 [0] = Some floor /\ out 1 [0] = Some power /\
    ((forall ps, NoDup ps -> (forall c, In c ps -> reportable o N c /\ may_pass o T N S mu sigma eps c) -> zlen ps <= maxima_room o N) ->
      forall junk blocks bdim hjunk, 0 < blocks -> 0 < bdim ->
        (exists hs, cuda_maxima i o floor power T N data mask junk blocks bdim hjunk hs) /\ ~ cuda_maxima_breaks o floor power T N data mask junk blocks bdim) /\
    forall hs, maxima_found i o T N S floor power hs ->
      (exists cs, NoDup cs /\ Forall2 (fun c h => hit_at i o T (h_snr h) c h /\ reportable o N c /\ may_pass o T N S mu sigma eps c /\
        (moderate_ratio o T N S mu sigma c -> (Rabs (B2R (h_snr h) - strength o T N S mu c / sigma) <= 4 / 3 * (eps * Rabs (strength o T N S mu c) + blur o T N S mu sigma c) / sigma)%R /\
          forall e, around o c e -> moderate_ratio o T N S mu sigma e -> (strength o T N S mu e - blur o T N S mu sigma e <= strength o T N S mu c + blur o T N S mu sigma c)%R)) cs hs) /\
      (forall c, reportable o N c -> must_pass o T N S mu sigma eps c -> moderate_ratio o T N S mu sigma c ->
        (forall e, around o c e -> e <> c -> moderate_ratio o T N S mu sigma e /\ (strength o T N S mu e + blur o T N S mu sigma e + blur o T N S mu sigma c <= strength o T N S mu c)%R) ->
        exists h, In h hs /\ hit_at i o T (h_snr h) c h)).
Proof.
  intros cx cd i o data mask T N S M es eps Hd Hm HTN Hu Hne Hsp Hb Hg Hs Hz Ft Bt mu sigma.
  assert (M0 : (0 <= mu)%R).
  { unfold mu, exact_mean, Rdiv. apply Rmult_le_pos; [|left; apply Rinv_0_lt_compat, IZR_lt; unfold zlen; destruct es; [contradiction|cbn [length]; lia]]. destruct (total_between S es 0 (bpow radix2 100)) as (A1 & _); [intros t c Hi; apply Hu in Hi as (H1 & H2 & _); now apply Hb|]. rewrite Rmult_0_r in A1. exact A1. }
  eapply gpu_weaken; [|exact (noise_from_gpu cx cd o data mask T N S M es eps Hd Hm HTN Hu Hne Hsp Hb Hg Hs Ft Bt)]. cbn beta. intros out (floor & power & V0 & V1 & He). fold mu sigma in He.
  assert (Us : cuda_usable o T N S floor power) by apply He. assert (HL : 2 <= s_distance o) by (destruct Hg as (_ & _ & _ & _ & _ & HL); exact HL).
  assert (Rb : forall c, reportable o N c -> bin (grid_size (s_low o) (s_high o) (s_step o)) N c) by (intros c Hc; unfold reportable in Hc; unfold bin; lia).
  assert (Ab : forall c e, reportable o N c -> around o c e -> bin (grid_size (s_low o) (s_high o) (s_step o)) N e) by (intros (c1 & c2) (e1 & e2) Hc K; unfold around in K; unfold reportable in Hc; unfold bin; cbn [fst snd] in *; lia).
  exists floor, power. split; [exact V0|]. split; [exact V1|]. split.
  - intros Room junk blocks bdim hjunk B1 B2. destruct Hd as (Hd & _). destruct Hm as (Hm & _).
    destruct (plane_exists o T N S floor power Us data mask junk blocks bdim M Hd Hm B1 B2) as (plane & Hp). destruct (plane_exact o T N S floor power Us Hz data mask junk blocks bdim M Hd Hm B1 B2 _ plane Hp) as (_ & Hg').
    destruct (launch_facts o T N S floor power Us Hz plane Hg') as (init & found & _ & A & B & _).
    apply (C97_completes i o T N S floor power (map ph_max found) Us Hz B (fun c => iff_sym (A c))) with (M := M); try assumption.
    apply Room; [exact B|]. intros c Hc. apply A in Hc as (Hr & Gc & _). split; [exact Hr|]. apply (passing o T N S mu sigma eps floor power He c (Rb c Hr) Gc).
  - intros hs Hf. destruct (C97_hits_are_summits i o T N S floor power hs Us Hz Hf) as (cs & Nd & Hcs & F2). split.
    + exists cs. split; [exact Nd|]. clear Nd. assert (Hall : forall c, In c cs -> summit o T N S floor power c) by (intros; now apply Hcs). clear Hcs Hf. induction F2 as [|c h cs hs Hh F2 IH]; [constructor|]. constructor; [|apply IH; intros; apply Hall; now right].
      destruct (Hall c (or_introl eq_refl)) as (Hr & Gc & Hn). destruct Hh as (H1 & H2 & H3 & H4). split; [split; [exact H1|split; [exact H2|split; [exact H3|reflexivity]]]|]. split; [exact Hr|]. split; [apply (passing o T N S mu sigma eps floor power He c (Rb c Hr) Gc)|].
      intros Mc. rewrite H4. split; [apply (snr_true o T N S mu sigma eps floor power He M0 c (Rb c Hr) Mc)|]. intros e Hae Me. apply (not_stronger o T N S mu sigma eps floor power He M0 c e (Rb c Hr) (Ab c e Hr Hae) Mc Me). now apply Hn.
    + intros c Hr Hp Mc Hn. assert (Hi : In c cs).
      { apply Hcs. split; [exact Hr|]. split; [apply (gpu_exceeds o T N S floor power Us c (Rb c Hr)), (sure_to_pass o T N S mu sigma eps floor power He c (Rb c Hr) Hp)|].
        intros e Hae. destruct c as (c1 & c2), e as (e1 & e2). destruct (Z.eq_dec e1 c1) as [E1|E1]; [destruct (Z.eq_dec e2 c2) as [E2|E2]|]; [subst; apply f32gt_irrefl| |];
          (destruct (Hn (e1, e2) Hae ltac:(congruence)) as (Me & K); apply (weaker o T N S mu sigma eps floor power He M0 (c1, c2) (e1, e2) (Rb _ Hr) (Ab _ _ Hr Hae) Mc Me K)). }
      clear - F2 Hi. induction F2 as [|x h cs hs Hh F2 IH]; [destruct Hi|]. destruct Hi as [-> |Hi]; [exists h; split; [now left|]; destruct Hh as (H1 & H2 & H3 & _); split; [exact H1|split; [exact H2|split; [exact H3|reflexivity]]]|]. destruct (IH Hi) as (h' & A & B). exists h'. split; [now right|exact B].
Qed.
Print Assumptions C108_maxima_from_samples.

(** ** A case: the channel of C104 searched for local maxima. *)
Definition m_opts : search_options := Options (-2) 3 1 false LocalMaxima (f32_of_Z 4) 2.
Lemma m_strength d f : 0 <= d < 5 -> 0 <= f < 16 -> let mu := exact_mean g_line h_clear in let sigma := sqrt (exact_variance g_line h_clear) in
  moderate_ratio m_opts 2 16 g_line mu sigma (d, f) /\ (0 <= blur m_opts 2 16 g_line mu sigma (d, f) <= 1)%R /\
  ((d, f) <> (2, 6) -> (strength m_opts 2 16 g_line mu (d, f) <= 65)%R) /\ ((d, f) = (2, 6) -> (130 <= strength m_opts 2 16 g_line mu (d, f))%R).
Proof.
  intros Hd Hf mu sigma. destruct (g_usable 2 ltac:(lia)) as (Hu & _).
  assert (A : (0 <= met_average m_opts 2 16 g_line (d, f) <= 100)%R).
  { change (met_average m_opts) with (met_average (g_opts 2)). apply (met_bounds _ _ _ _ _ _ Hu); [change (grid_size _ _ _) with 5; split; cbn [fst snd]; lia|]. intros t ch _. destruct (g_val t ch) as (-> & _ & H1). split; apply IZR_le; lia. }
  assert (C : line_count m_opts 2 (d, f) = 2%R) by reflexivity. assert (Q : (1414 / 1000 <= sqrt 2 <= 1415 / 1000)%R) by (pose proof (sqrt_sqrt 2 ltac:(lra)); pose proof (sqrt_pos 2); split; apply Rnot_lt_le; intros; nra).
  assert (Sg : (24 <= sigma <= 25)%R) by (unfold sigma; destruct h_stats as (_ & _ & ->); pose proof (sqrt_sqrt (5600 / 9) ltac:(lra)); pose proof (sqrt_pos (5600 / 9)); split; apply Rnot_lt_le; intros; nra).
  assert (Mu : mu = (20 / 3)%R) by apply h_stats. clearbody mu sigma. subst mu. destruct h_eps as (P & P'). assert (P9 : (0 < bpow radix2 (-149) <= / 8388608)%R) by (change (/ 8388608)%R with (bpow radix2 (-23)); split; [apply bpow_gt_0|apply bpow_le; lia]).
  assert (H119 : (1000 <= bpow radix2 119)%R) by (apply Rle_trans with (bpow radix2 10); [change (bpow radix2 10) with (IZR 1024); lra|apply bpow_le; lia]).
  assert (Half : (d, f) <> (2, 6) -> (met_average m_opts 2 16 g_line (d, f) <= 50)%R) by (intros Hn; exact (g_half 2 d f Hd Hf Hn)).
  assert (Full : (d, f) = (2, 6) -> met_average m_opts 2 16 g_line (d, f) = 100%R).
  { intros E. injection E as -> ->. change (met_average m_opts) with (met_average (g_opts 2)). rewrite g_average by lia. replace (isum g_int (g_met 2 6)) with 200 by (vm_compute; reflexivity). replace (zlen (g_met 2 6)) with 2 by (vm_compute; reflexivity). lra. }
  unfold moderate_ratio, blur, strength, met_rounding, floor_error. rewrite C. set (a := met_average m_opts 2 16 g_line (d, f)) in *. set (q := sqrt 2) in *. set (h := bpow radix2 (-150)) in *. set (g := bpow radix2 (-140)) in *. set (h9 := bpow radix2 (-149)) in *. set (m := bpow radix2 119) in *.
  change (bpow radix2 (-24)) with (/ IZR 16777216)%R. change (bpow radix2 (-21)) with (/ IZR 2097152)%R. clearbody a q h g h9 m.
  assert (Ab : (0 <= Rabs (a - 20 / 3) <= 100)%R) by (split; [apply Rabs_pos|apply Rabs_le; lra]). set (b := Rabs (a - 20 / 3)) in *. clearbody b.
  split; [|split; [|split]].
  - apply Rle_trans with (1415 / 1000 * 200)%R; [apply Rmult_le_compat; lra|]. apply Rle_trans with (1000 * 24)%R; [lra|]. apply Rmult_le_compat; lra.
  - assert (X : (0 <= h9 * sigma <= / 8388608 * 25)%R) by (split; [apply Rmult_le_pos; lra|apply Rmult_le_compat; lra]).
    match goal with |- (0 <= q * ?y + _ <= 1)%R => assert (Y : (0 <= y <= / 4)%R) by lra; assert (Z0 : (0 <= q * y <= 1415 / 1000 * / 4)%R) by (split; [apply Rmult_le_pos; lra|apply Rmult_le_compat; lra]) end. lra.
  - intros Hn. specialize (Half Hn). apply Rle_trans with (q * (50 - 20 / 3))%R; [apply Rmult_le_compat_l; lra|lra].
  - intros E. rewrite (Full E). lra.
Qed.
Example C108_case : forall i, channel_of (PropPipe.rows 2 16 g_line) 2 16 g_line /\ channel_of (PropPipe.rows 2 16 h_flags) 2 16 h_flags /\ unflagged 2 16 h_flags h_clear /\ h_clear <> [] /\ clear_spread (/ 100) g_line h_clear /\ bright 2 16 g_line /\
  cuda_grid m_opts 2 16 /\ short_lines m_opts 2 /\ maxima_size m_opts 16 /\ is_finite (s_threshold m_opts) = true /\ (bpow radix2 (-125) <= B2R (s_threshold m_opts))%R /\
  (let mu := exact_mean g_line h_clear in let sigma := sqrt (exact_variance g_line h_clear) in
    (forall ps, NoDup ps -> (forall c, In c ps -> reportable m_opts 16 c /\ may_pass m_opts 2 16 g_line mu sigma (/ 100) c) -> zlen ps <= maxima_room m_opts 16) /\
    reportable m_opts 16 (2, 6) /\ must_pass m_opts 2 16 g_line mu sigma (/ 100) (2, 6) /\ moderate_ratio m_opts 2 16 g_line mu sigma (2, 6) /\
    (forall e, around m_opts (2, 6) e -> e <> (2, 6) -> moderate_ratio m_opts 2 16 g_line mu sigma e /\ (strength m_opts 2 16 g_line mu e + blur m_opts 2 16 g_line mu sigma e + blur m_opts 2 16 g_line mu sigma (2%Z, 6%Z) <= strength m_opts 2 16 g_line mu (2%Z, 6%Z))%R)) /\
  forall cx cd, gpu_yields (gv_mmean_stddev cx cd) (dense [2; 16]) (dense [2; 16]) [] (PropPipe.rows 2 16 g_line) (PropPipe.rows 2 16 h_flags) (fun out => exists floor power hs, out 0 [0] = Some floor /\ out 1 [0] = Some power /\
    maxima_found i m_opts 2 16 g_line floor power hs /\ exists h, In h hs /\ h_rate h = 2 /\ h_index h = 6).
Proof.
  intros i. destruct C104_case as (H1 & H2 & H3 & H4 & H5 & H6 & H7 & H8 & H9 & H10 & Room & Hr & Mp & _). cbv zeta in *. set (mu := exact_mean g_line h_clear) in *. set (sigma := sqrt (exact_variance g_line h_clear)) in *.
  assert (Hz : maxima_size m_opts 16) by (unfold maxima_size; change (grid_size _ _ _) with 5; change (s_distance _) with 2; lia).
  assert (Rm : forall ps, NoDup ps -> (forall c, In c ps -> reportable m_opts 16 c /\ may_pass m_opts 2 16 g_line mu sigma (/ 100) c) -> zlen ps <= maxima_room m_opts 16).
  { intros ps Nd Hp. specialize (Room ps Nd Hp). change (Z.quot _ _) with 20 in Room. change (maxima_room m_opts 16) with 20. lia. }
  destruct (m_strength 2 6 ltac:(lia) ltac:(lia)) as (M26 & B26 & _ & S26). fold mu sigma in M26, B26, S26. specialize (S26 eq_refl).
  assert (Nb : forall e, around m_opts (2, 6) e -> e <> (2, 6) -> moderate_ratio m_opts 2 16 g_line mu sigma e /\ (strength m_opts 2 16 g_line mu e + blur m_opts 2 16 g_line mu sigma e + blur m_opts 2 16 g_line mu sigma (2%Z, 6%Z) <= strength m_opts 2 16 g_line mu (2%Z, 6%Z))%R).
  { intros (d & f) He Hn. unfold around in He. change (s_distance m_opts) with 2 in He. cbn [fst snd] in He. destruct (m_strength d f ltac:(lia) ltac:(lia)) as (A & B & C & _). fold mu sigma in A, B, C. specialize (C Hn). split; [exact A|lra]. }
  split; [exact H1|]. split; [exact H2|]. split; [exact H3|]. split; [exact H4|]. split; [exact H5|]. split; [exact H6|]. split; [exact H7|]. split; [exact H8|]. split; [exact Hz|]. split; [exact H9|]. split; [exact H10|].
  split; [split; [exact Rm|split; [exact Hr|split; [exact Mp|split; [exact M26|exact Nb]]]]|].
  intros cx cd. eapply gpu_weaken; [|exact (C108_maxima_from_samples cx cd i m_opts _ _ 2 16 g_line h_flags h_clear (/ 100) H1 H2 eq_refl H3 H4 H5 H6 H7 H8 Hz H9 H10)]. cbn beta. intros out (floor & power & V0 & V1 & Comp & Find).
  destruct (Comp Rm (fun _ => f0) 3 5 (fun _ => 0) ltac:(lia) ltac:(lia)) as ((hs & Hh) & _).
  assert (Hf : maxima_found i m_opts 2 16 g_line floor power hs) by (eexists _, _, (fun _ => f0), 3, 5, (fun _ => 0), _; split; [exact (proj1 H1)|]; split; [exact (proj1 H2)|]; split; [lia|]; split; [lia|exact Hh]).
  exists floor, power, hs. split; [exact V0|]. split; [exact V1|]. split; [exact Hf|]. destruct (proj2 (Find hs Hf) (2, 6) Hr Mp M26 Nb) as (h & Hi & (A & B & _)). exists h. split; [exact Hi|]. split; [exact B|exact A].
Qed.
