(** Error of a mean computed by adding up and dividing. *)
From Coq Require Import Reals Lra ZArith Lia List.
From Flocq Require Import Core BinarySingleNaN.
Import ListNotations.
Local Open Scope Z_scope.

Section Prec.
  Variables (prec emax : Z).
  Context (Hp : Prec_gt_0 prec) (He : Prec_lt_emax prec emax).
  Notation fe := (SpecFloat.fexp prec emax).
  Notation bf := (binary_float prec emax).
  Definition rdp (x : R) : R := round radix2 fe ZnearestE x.
  Lemma fe_FLT : fe = FLT_exp (3 - emax - prec) prec. Proof. reflexivity. Qed.
  Lemma fe_valid : Valid_exp fe. Proof. exact (fexp_correct prec emax Hp). Qed.

  Lemma fmt_mult i e : Z.abs i <= 2 ^ prec -> 3 - emax - prec <= e -> generic_format radix2 fe (IZR i * bpow radix2 e).
  Proof.
    intros Hi Hle. rewrite fe_FLT. unfold Prec_gt_0 in Hp. destruct (Z.eq_dec (Z.abs i) (2 ^ prec)) as [E|E].
    - assert (G : generic_format radix2 (FLT_exp (3 - emax - prec) prec) (bpow radix2 (prec + e))).
      { apply generic_format_bpow. unfold FLT_exp. lia. }
      assert (B : (bpow radix2 (prec + e) = IZR (2 ^ prec) * bpow radix2 e)%R).
      { rewrite bpow_plus. f_equal. rewrite <- (IZR_Zpower radix2) by lia. reflexivity. }
      destruct (Z_le_dec 0 i).
      + replace i with (2 ^ prec) by lia. rewrite <- B. exact G.
      + replace i with (- 2 ^ prec) by lia. rewrite opp_IZR. replace (- IZR (2 ^ prec) * bpow radix2 e)%R with (- bpow radix2 (prec + e))%R by (rewrite B; ring).
        apply generic_format_opp. exact G.
    - apply generic_format_FLT. exists (Float radix2 i e); [reflexivity|cbn [Fnum]; change (Zpower (radix_val radix2) prec) with (2 ^ prec); lia|exact Hle].
  Qed.
  Lemma rdp_le i e x : 0 <= i <= 2 ^ prec -> 3 - emax - prec <= e -> (Rabs x <= IZR i * bpow radix2 e)%R -> (Rabs (rdp x) <= IZR i * bpow radix2 e)%R.
  Proof. intros Hi Hle H. pose proof fe_valid. apply abs_round_le_generic; auto; [apply valid_rnd_N|apply fmt_mult; lia]. Qed.
  Lemma rdp_err n v : 4 - emax <= n -> (Rabs v <= bpow radix2 n)%R -> (Rabs (rdp v - v) <= bpow radix2 (n - prec - 1))%R.
  Proof.
    intros Hn H. pose proof fe_valid. unfold Prec_gt_0 in Hp. destruct (Rle_lt_or_eq_dec _ _ H) as [Hlt|Heq].
    - apply Rle_trans with (/ 2 * ulp radix2 fe v)%R; [apply error_le_half_ulp; auto|].
      assert (U : (ulp radix2 fe v <= bpow radix2 (n - prec))%R).
      { destruct (Req_dec v 0) as [->|Hv].
        - rewrite fe_FLT, ulp_FLT_small; [|exact Hp|rewrite Rabs_R0; apply bpow_gt_0]. apply bpow_le. lia.
        - rewrite ulp_neq_0 by auto. apply bpow_le. unfold cexp. rewrite fe_FLT. unfold FLT_exp. pose proof (mag_le_bpow radix2 v n Hv Hlt). lia. }
      replace (bpow radix2 (n - prec - 1)) with (/ 2 * bpow radix2 (n - prec))%R; [lra|]. replace (n - prec) with (1 + (n - prec - 1)) at 1 by lia.
      rewrite bpow_plus. change (bpow radix2 1) with 2%R. lra.
    - unfold rdp. rewrite round_generic; [|apply valid_rnd_N|].
      + replace (v - v)%R with 0%R by lra. rewrite Rabs_R0. apply bpow_ge_0.
      + assert (G : generic_format radix2 fe (bpow radix2 n)) by (apply generic_format_bpow; rewrite fe_FLT; unfold FLT_exp; lia).
        destruct (Rle_dec 0 v). { rewrite Rabs_pos_eq in Heq by lra. rewrite Heq. exact G. }
        rewrite Rabs_left in Heq by lra. replace v with (- bpow radix2 n)%R by lra. apply generic_format_opp. exact G.
  Qed.
  Lemma plus_ok (x y : bf) i e k : is_finite x = true -> is_finite y = true -> 0 <= i <= 2 ^ prec -> i <= 2 ^ k -> 0 <= k ->
    3 - emax - prec <= e -> 4 - emax <= e + k < emax -> (Rabs (B2R x + B2R y) <= IZR i * bpow radix2 e)%R ->
    is_finite (Bplus mode_NE x y) = true /\ B2R (Bplus mode_NE x y) = rdp (B2R x + B2R y) /\ (Rabs (rdp (B2R x + B2R y)) <= IZR i * bpow radix2 e)%R /\
    (Rabs (rdp (B2R x + B2R y) - (B2R x + B2R y)) <= bpow radix2 (e + k - prec - 1))%R.
  Proof.
    intros Fx Fy Hi Hk Hk0 He1 He2 Hb. pose proof (rdp_le i e _ Hi He1 Hb) as Hr.
    assert (T : (IZR i * bpow radix2 e <= bpow radix2 (e + k))%R).
    { replace (e + k) with (k + e) by lia. rewrite bpow_plus. apply Rmult_le_compat_r; [apply bpow_ge_0|]. rewrite <- (IZR_Zpower radix2) by lia. apply IZR_le. exact Hk. }
    pose proof (Bplus_correct prec emax Hp He mode_NE x y Fx Fy) as C.
    change (round radix2 _ _ (B2R x + B2R y)) with (rdp (B2R x + B2R y)) in C.
    rewrite Rlt_bool_true in C by (apply Rle_lt_trans with (bpow radix2 (e + k)); [lra|apply bpow_lt; lia]).
    destruct C as (C1 & C2 & _). split; [exact C2|]. split; [exact C1|]. split; [exact Hr|]. apply rdp_err; [lia|lra].
  Qed.
End Prec.

(** Adding up values: [step] adds the value [v h] of each item with an error of at most [delta]. *)
Section Fold.
  Context {prec emax : Z} {H : Type} (step : binary_float prec emax -> H -> binary_float prec emax) (v : H -> R) (e N : Z) (delta : R) (ok : H -> Prop).
  Hypothesis Hstep : forall i a h, 0 <= i < N -> is_finite a = true -> (Rabs (B2R a) <= IZR i * bpow radix2 e)%R -> ok h ->
    is_finite (step a h) = true /\ (Rabs (B2R (step a h)) <= IZR (i + 1) * bpow radix2 e)%R /\ (Rabs (B2R (step a h) - (B2R a + v h)) <= delta)%R.
  Definition total (hs : list H) : R := fold_right Rplus 0%R (map v hs).
  Lemma fold_err hs : Forall ok hs -> forall i a, 0 <= i -> i + Z.of_nat (length hs) <= N -> is_finite a = true -> (Rabs (B2R a) <= IZR i * bpow radix2 e)%R ->
    is_finite (fold_left step hs a) = true /\ (Rabs (B2R (fold_left step hs a)) <= IZR (i + Z.of_nat (length hs)) * bpow radix2 e)%R /\
    (Rabs (B2R (fold_left step hs a) - (B2R a + total hs)) <= IZR (Z.of_nat (length hs)) * delta)%R.
  Proof.
    induction 1 as [|h hs Hh Hs IH]; intros i a Hi HN Fa Ba; cbn [fold_left].
    - cbn [length]. change (Z.of_nat 0) with 0. rewrite Z.add_0_r. split; [exact Fa|]. split; [exact Ba|]. unfold total. cbn. replace (B2R a - (B2R a + 0))%R with 0%R by lra. rewrite Rabs_R0. lra.
    - cbn [length] in *. rewrite Nat2Z.inj_succ in *. destruct (Hstep i a h) as (S1 & S2 & S3); auto; [lia|].
      destruct (IH (i + 1) (step a h)) as (I1 & I2 & I3); auto; [lia|lia|]. split; [exact I1|]. split.
      + replace (i + Z.succ (Z.of_nat (length hs))) with (i + 1 + Z.of_nat (length hs)) by lia. exact I2.
      + unfold Z.succ. rewrite plus_IZR. unfold total in *. cbn [map fold_right].
        apply Rabs_le. apply Rabs_le_inv in S3. apply Rabs_le_inv in I3. lra.
  Qed.
End Fold.

(** Dividing the sum by the number of items. *)
Lemma mean_err prec emax (Hp : Prec_gt_0 prec) (He : Prec_lt_emax prec emax) (s d : binary_float prec emax) n e t delta :
  1 <= n -> 4 - emax <= e < emax -> is_finite s = true -> B2R d = IZR n -> (Rabs (B2R s) <= IZR n * bpow radix2 e)%R ->
  (Rabs (B2R s - t) <= IZR n * delta)%R ->
  is_finite (Bdiv mode_NE s d) = true /\ (Rabs (B2R (Bdiv mode_NE s d) - t / IZR n) <= delta + bpow radix2 (e - prec - 1))%R.
Proof.
  intros Hn Hee Fs Ed Bs Es.
  assert (Hn' : (0 < IZR n)%R) by (apply IZR_lt; lia).
  assert (Bq : (Rabs (B2R s / IZR n) <= bpow radix2 e)%R).
  { unfold Rdiv. rewrite Rabs_mult, (Rabs_pos_eq (/ IZR n)) by (apply Rlt_le, Rinv_0_lt_compat; exact Hn').
    apply Rmult_le_reg_r with (IZR n); [exact Hn'|]. rewrite Rmult_assoc, Rinv_l by lra. lra. }
  pose proof (rdp_err prec emax Hp e (B2R s / IZR n) ltac:(lia) Bq) as Er.
  assert (Br : (Rabs (rdp prec emax (B2R s / IZR n)) <= bpow radix2 e)%R).
  { pose proof (fe_valid prec emax Hp). apply abs_round_le_generic; auto; [apply valid_rnd_N|]. apply generic_format_bpow. rewrite fe_FLT. unfold FLT_exp. unfold Prec_gt_0 in Hp. lia. }
  pose proof (Bdiv_correct prec emax Hp He mode_NE s d) as C. rewrite Ed in C. specialize (C ltac:(lra)).
  change (round radix2 _ _ (B2R s / IZR n)) with (rdp prec emax (B2R s / IZR n)) in C.
  rewrite Rlt_bool_true in C by (apply Rle_lt_trans with (bpow radix2 e); [exact Br|apply bpow_lt; lia]).
  destruct C as (C1 & C2 & _). rewrite C1, C2. split; [exact Fs|].
  assert (Q : (Rabs (B2R s / IZR n - t / IZR n) <= delta)%R).
  { replace (B2R s / IZR n - t / IZR n)%R with ((B2R s - t) * / IZR n)%R by (field; lra).
    rewrite Rabs_mult, (Rabs_pos_eq (/ IZR n)) by (apply Rlt_le, Rinv_0_lt_compat; exact Hn').
    apply Rmult_le_reg_r with (IZR n); [exact Hn'|]. rewrite Rmult_assoc, Rinv_l by lra. lra. }
  apply Rabs_le. apply Rabs_le_inv in Q. apply Rabs_le_inv in Er. lra.
Qed.
