(** Accuracy of the per-drift noise. *)
From Verif Require Import PipeModel CudaOffsetProofs DriftFloatProofs FloatErr.
From Flocq Require Import Core Relative BinarySingleNaN.
From Coq Require Import ZifyBool ZifyNat Reals Lra.
Local Open Scope Z_scope.
Lemma rel64 x : (bpow radix2 (-1000) <= Rabs x)%R -> exists e, (Rabs e <= bpow radix2 (-53))%R /\ rd64 x = (x * (1 + e))%R.
Proof.
  intros H. destruct (relative_error_N_FLT_ex radix2 (-1074) 53 ltac:(reflexivity) (fun z => negb (Z.even z)) x) as (e & He & E).
  { apply Rle_trans with (2 := H). apply bpow_le. lia. }
  exists e. split; [|exact E]. apply Rle_trans with (1 := He). right. change (-53) with (-1 + (- (53) + 1)). rewrite (bpow_plus radix2 (-1)). reflexivity.
Qed.
Lemma rel32 x : (bpow radix2 (-120) <= Rabs x)%R -> exists e, (Rabs e <= bpow radix2 (-24))%R /\ rd32 x = (x * (1 + e))%R.
Proof.
  intros H. destruct (relative_error_N_FLT_ex radix2 (-149) 24 ltac:(reflexivity) (fun z => negb (Z.even z)) x) as (e & He & E).
  { apply Rle_trans with (2 := H). apply bpow_le. lia. }
  exists e. split; [|exact E]. apply Rle_trans with (1 := He). right. change (-24) with (-1 + (- (24) + 1)). rewrite (bpow_plus radix2 (-1)). reflexivity.
Qed.
Lemma noise_accuracy (power : f32) n : is_finite power = true -> (bpow radix2 (-80) <= B2R power <= bpow radix2 90)%R -> 1 <= n <= 2 ^ 53 ->
  let w := narrow (div64 (widen power) (sqrt64 (f64_of_Z n))) in let exact := (B2R power / sqrt (IZR n))%R in
  is_finite w = true /\ (Rabs (B2R w - exact) <= bpow radix2 (-23) * exact)%R.
Proof.
  intros Hf (Hlo & Hhi) Hn w exact.
  destruct (f64_of_Z_ok n ltac:(lia)) as (En & Fn). destruct (widen_ok power Hf) as (Ep & Fp).
  pose proof (Bsqrt_correct 53 1024 _ _ mode_NE (f64_of_Z n)) as (S1 & S2 & _). fold sqrt64 in S1, S2.
  rewrite En in S1. change (round radix2 _ _ (sqrt (IZR n))) with (rd64 (sqrt (IZR n))) in S1.
  assert (Fs : is_finite (sqrt64 (f64_of_Z n)) = true).
  { rewrite S2. destruct (f64_of_Z n) as [s|s| |s m e Hb]; try discriminate; [reflexivity|]. destruct s; [|reflexivity].
    exfalso. assert (B2R (B754_finite true m e Hb : f64) < 0)%R by (apply F2R_lt_0; reflexivity). rewrite En in H. assert (0 <= IZR n)%R by (apply IZR_le; lia). lra. }
  set (r := sqrt64 (f64_of_Z n)) in *.
  assert (H1 : (1 <= sqrt (IZR n))%R). { rewrite <- sqrt_1. apply sqrt_le_1_alt. apply (IZR_le 1). lia. }
  assert (H2 : (sqrt (IZR n) <= bpow radix2 27)%R).
  { replace (bpow radix2 27) with (sqrt (bpow radix2 54)). { apply sqrt_le_1_alt. apply Rle_trans with (IZR (2 ^ 53)); [apply IZR_le; lia|]. change (IZR (2 ^ 53)) with (bpow radix2 53). apply bpow_le. lia. }
    change 54 with (27 + 27). rewrite bpow_plus. apply sqrt_square. apply bpow_ge_0. }
  destruct (rel64 (sqrt (IZR n))) as (e1 & He1 & E1). { rewrite Rabs_pos_eq by lra. apply Rle_trans with 1%R; [|lra]. change 1%R with (bpow radix2 0). apply bpow_le. lia. }
  rewrite <- S1 in E1. apply Rabs_le_inv in He1.
  assert (P53 : (bpow radix2 (-53) <= / 4096)%R). { replace (/ 4096)%R with (bpow radix2 (-12)) by reflexivity. apply bpow_le. lia. }
  assert (P24 : (bpow radix2 (-24) <= / 4096)%R). { replace (/ 4096)%R with (bpow radix2 (-12)) by reflexivity. apply bpow_le. lia. }
  pose proof (bpow_gt_0 radix2 (-80)) as P80.
  assert (Hr : (/ 2 <= B2R r <= bpow radix2 28)%R). { rewrite E1. change 28 with (27 + 1). rewrite bpow_plus. change (bpow radix2 1) with 2%R. split; [nra|]. apply Rmult_le_compat; lra. }
  assert (Hq : (B2R power / bpow radix2 28 <= B2R power / B2R r <= B2R power * 2)%R).
  { split; unfold Rdiv; (apply Rmult_le_compat_l; [lra|]); [apply Rinv_le; lra|]. rewrite <- (Rinv_inv 2). apply Rinv_le; lra. }
  assert (Hq2 : (bpow radix2 (-108) <= B2R power / B2R r <= bpow radix2 91)%R).
  { split.
    - apply Rle_trans with (2 := proj1 Hq). change (-108) with (-80 + - (28)). rewrite bpow_plus, bpow_opp. apply Rmult_le_compat_r; [left; apply Rinv_0_lt_compat, bpow_gt_0|lra].
    - apply Rle_trans with (1 := proj2 Hq). change 91 with (90 + 1). rewrite bpow_plus. change (bpow radix2 1) with 2%R. lra. }
  pose proof (bpow_gt_0 radix2 (-108)) as P108.
  destruct (div64_ok (widen power) r Fp 91) as (Fd & Ed); [lia|lra|rewrite Ep, Rabs_pos_eq; lra|]. rewrite Ep in Ed.
  destruct (rel64 (B2R power / B2R r)) as (e2 & He2 & E2).
  { rewrite Rabs_pos_eq by lra. apply Rle_trans with (2 := proj1 Hq2). apply bpow_le. lia. }
  rewrite E2 in Ed. apply Rabs_le_inv in He2. set (q := div64 (widen power) r) in *.
  assert (Hq3 : (bpow radix2 (-109) <= B2R q <= bpow radix2 92)%R).
  { rewrite Ed. split.
    - change (-109) with (-108 + -1). rewrite bpow_plus. change (bpow radix2 (-1)) with (/ 2)%R. apply Rmult_le_compat; lra.
    - change 92 with (91 + 1). rewrite bpow_plus. change (bpow radix2 1) with 2%R. apply Rmult_le_compat; lra. }
  pose proof (bpow_gt_0 radix2 (-109)) as P109.
  destruct (narrow_ok q Fd) as (Ew & Fw). { rewrite Rabs_pos_eq by lra. apply Rle_trans with (1 := proj2 Hq3). apply bpow_le. lia. }
  fold w in Fw, Ew. split; [exact Fw|].
  destruct (rel32 (B2R q)) as (e3 & He3 & E3).
  { rewrite Rabs_pos_eq by lra. apply Rle_trans with (2 := proj1 Hq3). apply bpow_le. lia. }
  apply Rabs_le_inv in He3. rewrite Ew. fold (rd32 (B2R q)). rewrite E3, Ed, E1. 
  set (sn := sqrt (IZR n)) in *. set (u := bpow radix2 (-53)) in *. set (v := bpow radix2 (-24)) in *.
  assert (Huv : (u * 4096 <= v)%R). { unfold u, v. replace 4096%R with (bpow radix2 12) by reflexivity. rewrite <- bpow_plus. apply bpow_le. lia. }
  assert (Hu0 : (0 < u)%R) by apply bpow_gt_0.
  assert (Hv : bpow radix2 (-23) = (2 * v)%R) by (unfold v; change (-23) with (1 + -24); rewrite bpow_plus; reflexivity).
  assert (He : (0 < exact)%R) by (unfold exact; apply Rdiv_lt_0_compat; lra).
  replace (B2R power / (sn * (1 + e1)) * (1 + e2) * (1 + e3) - exact)%R with (exact * (((1 + e2) * (1 + e3) - (1 + e1)) / (1 + e1)))%R by (unfold exact; field; lra).
  rewrite Rabs_mult, (Rabs_pos_eq exact) by lra. rewrite (Rmult_comm exact). apply Rmult_le_compat_r; [lra|]. rewrite Hv.
  unfold Rdiv. rewrite Rabs_mult, (Rabs_inv (1 + e1)), (Rabs_pos_eq (1 + e1)) by lra.
  apply Rmult_le_reg_r with (1 + e1)%R; [lra|]. rewrite Rmult_assoc, Rinv_l, Rmult_1_r by lra.
  assert (A1 : (Rabs (e2 * e3) <= u * / 4096)%R). { rewrite Rabs_mult. apply Rmult_le_compat; try apply Rabs_pos; apply Rabs_le; lra. }
  apply Rabs_le_inv in A1. replace ((1 + e2) * (1 + e3) - (1 + e1))%R with (e2 + e3 + e2 * e3 - e1)%R by ring.
  assert (A2 : (Rabs (v * e1) <= v * / 4096)%R). { rewrite Rabs_mult, (Rabs_pos_eq v) by lra. apply Rmult_le_compat_l; [lra|]. apply Rabs_le. lra. }
  apply Rabs_le_inv in A2. apply Rabs_le. lra.
Qed.
