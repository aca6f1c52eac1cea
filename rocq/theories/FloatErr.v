(** Error of the operations on doubles. *)
From Coq Require Import Reals Lra ZArith Lia.
From Flocq Require Import Core BinarySingleNaN.
From Verif Require Import HitModel DriftFloatProofs.
Local Open Scope Z_scope.

Definition rd64 (x : R) : R := round radix2 fexp64 ZnearestE x.
Lemma valid64 : Valid_exp fexp64. Proof. rewrite fexp64_FLT. apply FLT_exp_valid. reflexivity. Qed.
Lemma mono64 : Monotone_exp fexp64. Proof. rewrite fexp64_FLT. apply FLT_exp_monotone. Qed.

Lemma rd64_bound n v : -1000 <= n -> (Rabs v <= bpow radix2 n)%R -> (Rabs (rd64 v) <= bpow radix2 n)%R.
Proof.
  intros Hn H. pose proof valid64. apply abs_round_le_generic; auto; [apply valid_rnd_N|]. apply generic_format_bpow. rewrite fexp64_FLT. unfold FLT_exp. lia.
Qed.
Lemma rd64_err n v : -1000 <= n -> (Rabs v <= bpow radix2 n)%R -> (Rabs (rd64 v - v) <= bpow radix2 (n - 54))%R.
Proof.
  intros Hn H. pose proof valid64. destruct (Rle_lt_or_eq_dec _ _ H) as [Hlt|Heq].
  - apply Rle_trans with (/ 2 * ulp radix2 fexp64 v)%R; [apply error_le_half_ulp; auto|].
    assert (U : (ulp radix2 fexp64 v <= bpow radix2 (n - 53))%R).
    { destruct (Req_dec v 0) as [->|Hv].
      - rewrite fexp64_FLT, ulp_FLT_small; [|reflexivity|rewrite Rabs_R0; apply bpow_gt_0]. apply bpow_le. lia.
      - rewrite ulp_neq_0 by auto. apply bpow_le. unfold cexp. rewrite fexp64_FLT. unfold FLT_exp. pose proof (mag_le_bpow radix2 v n Hv Hlt). lia. }
    replace (bpow radix2 (n - 54)) with (/ 2 * bpow radix2 (n - 53))%R; [lra|]. replace (n - 53) with (1 + (n - 54)) by lia. rewrite bpow_plus. change (bpow radix2 1) with 2%R. lra.
  - unfold rd64. rewrite round_generic; [|apply valid_rnd_N|].
    + replace (v - v)%R with 0%R by lra. rewrite Rabs_R0. apply bpow_ge_0.
    + assert (G : generic_format radix2 fexp64 (bpow radix2 n)) by (apply generic_format_bpow; rewrite fexp64_FLT; unfold FLT_exp; lia).
      destruct (Rle_dec 0 v). { rewrite Rabs_pos_eq in Heq by lra. rewrite Heq. exact G. }
      rewrite Rabs_left in Heq by lra. replace v with (- bpow radix2 n)%R by lra. apply generic_format_opp. exact G.
Qed.
Lemma rd64_small n v : -1000 <= n <= 1000 -> (Rabs v <= bpow radix2 n)%R -> (Rabs (rd64 v) < bpow radix2 1024)%R.
Proof. intros Hn H. apply Rle_lt_trans with (bpow radix2 n); [apply rd64_bound; auto; lia|]. apply bpow_lt. lia. Qed.

Section Ops.
Variables (x y : f64).
Hypotheses (Fx : is_finite x = true) (Fy : is_finite y = true).
Lemma mul64_ok n : -1000 <= n <= 1000 -> (Rabs (B2R x * B2R y) <= bpow radix2 n)%R ->
  is_finite (mul64 x y) = true /\ B2R (mul64 x y) = rd64 (B2R x * B2R y).
Proof.
  intros Hn H. pose proof (Bmult_correct 53 1024 _ _ mode_NE x y) as C. fold (mul64 x y) in C. change (round radix2 _ _ (B2R x * B2R y)) with (rd64 (B2R x * B2R y)) in C.
  rewrite Rlt_bool_true in C by (apply (rd64_small n); auto). destruct C as (C1 & C2 & _). rewrite C1, C2, Fx, Fy. auto.
Qed.
Lemma div64_ok n : -1000 <= n <= 1000 -> B2R y <> 0%R -> (Rabs (B2R x / B2R y) <= bpow radix2 n)%R ->
  is_finite (div64 x y) = true /\ B2R (div64 x y) = rd64 (B2R x / B2R y).
Proof.
  intros Hn Hy H. pose proof (Bdiv_correct 53 1024 _ _ mode_NE x y Hy) as C. fold (div64 x y) in C. change (round radix2 _ _ (B2R x / B2R y)) with (rd64 (B2R x / B2R y)) in C.
  rewrite Rlt_bool_true in C by (apply (rd64_small n); auto). destruct C as (C1 & C2 & _). rewrite C1, C2, Fx. auto.
Qed.
Lemma add64_ok n : -1000 <= n <= 1000 -> (Rabs (B2R x + B2R y) <= bpow radix2 n)%R ->
  is_finite (add64 x y) = true /\ B2R (add64 x y) = rd64 (B2R x + B2R y).
Proof.
  intros Hn H. pose proof (Bplus_correct 53 1024 _ _ mode_NE x y Fx Fy) as C. fold (add64 x y) in C. change (round radix2 _ _ (B2R x + B2R y)) with (rd64 (B2R x + B2R y)) in C.
  rewrite Rlt_bool_true in C by (apply (rd64_small n); auto). destruct C as (C1 & C2 & _). auto.
Qed.
Lemma sub64_ok n : -1000 <= n <= 1000 -> (Rabs (B2R x - B2R y) <= bpow radix2 n)%R ->
  is_finite (sub64 x y) = true /\ B2R (sub64 x y) = rd64 (B2R x - B2R y).
Proof.
  intros Hn H. pose proof (Bminus_correct 53 1024 _ _ mode_NE x y Fx Fy) as C. fold (sub64 x y) in C. change (round radix2 _ _ (B2R x - B2R y)) with (rd64 (B2R x - B2R y)) in C.
  rewrite Rlt_bool_true in C by (apply (rd64_small n); auto). destruct C as (C1 & C2 & _). auto.
Qed.
End Ops.
Lemma rd64_le x y : (x <= y)%R -> (rd64 x <= rd64 y)%R.
Proof. pose proof valid64. apply round_le; auto. apply valid_rnd_N. Qed.
Lemma rd64_id x : generic_format radix2 fexp64 x -> rd64 x = x.
Proof. apply round_generic. apply valid_rnd_N. Qed.
Lemma format64 (x : f64) : generic_format radix2 fexp64 (B2R x). Proof. apply generic_format_B2R. Qed.
