(** Rounding errors of sums of floats. *)
From Verif Require Import DriftFloatProofs CudaOffsetProofs.
From Verif Require Export FsumModel.
From Coq Require Import ZifyBool Lia Reals Lra.
From Flocq Require Import Core BinarySingleNaN Plus_error Relative.
Local Open Scope R_scope.

(** ** Real sums *)
Definition rsum (xs : list R) : R := fold_right Rplus 0 xs.
Definition rabs (xs : list R) : R := rsum (map Rabs xs).
Lemma rsum_nil : rsum [] = 0. Proof. reflexivity. Qed.
Lemma rabs_nil : rabs [] = 0. Proof. reflexivity. Qed.
Lemma rabs_cons x xs : rabs (x :: xs) = Rabs x + rabs xs. Proof. reflexivity. Qed.
Lemma rsum_cons x xs : rsum (x :: xs) = x + rsum xs. Proof. reflexivity. Qed.
Lemma rabs_nonneg xs : 0 <= rabs xs.
Proof. induction xs as [|x xs IH]; rewrite ?rabs_nil, ?rabs_cons; [lra|]. pose proof (Rabs_pos x). lra. Qed.
Lemma rsum_abs xs : Rabs (rsum xs) <= rabs xs.
Proof. induction xs as [|x xs IH]; rewrite ?rabs_nil, ?rabs_cons, ?rsum_nil, ?rsum_cons; [rewrite Rabs_R0; lra|]. eapply Rle_trans; [apply Rabs_triang|]. lra. Qed.

(** ** One rounding *)
Section Format.
  Variables prec emax : Z.
  Context (Hp : Prec_gt_0 prec) (He : Prec_lt_emax prec emax).
  Notation fmt := (generic_format radix2 (SpecFloat.fexp prec emax)).
  Notation rnd := (round radix2 (SpecFloat.fexp prec emax) ZnearestE).
  Definition unit_ro : R := / 2 * bpow radix2 (- prec + 1).
  Definition under : R := / 2 * bpow radix2 (SpecFloat.emin prec emax).
  Lemma unit_pos : 0 < unit_ro. Proof. unfold unit_ro. pose proof (bpow_gt_0 radix2 (- prec + 1)). lra. Qed.
  Lemma under_pos : 0 < under. Proof. unfold under. pose proof (bpow_gt_0 radix2 (SpecFloat.emin prec emax)). lra. Qed.
  Lemma fexp_FLT : SpecFloat.fexp prec emax = FLT_exp (SpecFloat.emin prec emax) prec. Proof. reflexivity. Qed.
  Lemma plus_rounds x y : fmt x -> fmt y -> exists e, Rabs e <= unit_ro /\ rnd (x + y) = (x + y) * (1 + e).
  Proof.
    intros Fx Fy. rewrite fexp_FLT in *. destruct (FLT_plus_error_N_ex radix2 (SpecFloat.emin prec emax) prec (fun t => negb (Z.even t)) x y Fx Fy) as (e & He' & E).
    exists e. split; [|exact E]. eapply Rle_trans; [exact He'|]. change (u_ro radix2 prec) with unit_ro. pose proof unit_pos.
    apply Rmult_le_reg_r with (1 + unit_ro); [lra|]. unfold Rdiv. rewrite Rmult_assoc, Rinv_l by lra. nra.
  Qed.
  Lemma rounds x : Rabs (rnd x - x) <= unit_ro * Rabs x + under.
  Proof.
    rewrite fexp_FLT. destruct (error_N_FLT radix2 (SpecFloat.emin prec emax) prec Hp (fun t => negb (Z.even t)) x) as (e & h & H1 & H2 & _ & E).
    replace (round _ _ _ x - x) with (x * e + h) by (rewrite E; ring). eapply Rle_trans; [apply Rabs_triang|]. rewrite Rabs_mult.
    fold unit_ro in H1. fold under in H2. pose proof (Rabs_pos x). nra.
  Qed.

  (** ** Sums *)
  Notation u := unit_ro.
  Lemma growth_ge1 k : 1 <= (1 + u) ^ k. Proof. apply pow_R1_Rle. pose proof unit_pos. lra. Qed.
  Lemma sum_error (ys : list (binary_float prec emax)) : forall (s : binary_float prec emax) T A k,
    Forall (fun y => is_finite y = true) ys -> is_finite s = true -> Rabs (B2R s - T) <= ((1 + u) ^ k - 1) * A -> Rabs T <= A ->
    (1 + u) ^ (k + length ys) * (A + rabs (map B2R ys)) < bpow radix2 emax ->
    is_finite (fold_left (Bplus mode_NE) ys s) = true /\
    Rabs (B2R (fold_left (Bplus mode_NE) ys s) - (T + rsum (map B2R ys))) <= ((1 + u) ^ (k + length ys) - 1) * (A + rabs (map B2R ys)).
  Proof.
    induction ys as [|y ys IH]; intros s T A k Hf Fs Hs HT Hb; cbn [fold_left map length] in *.
    - rewrite rsum_nil, rabs_nil, !Rplus_0_r, Nat.add_0_r. auto.
    - inversion Hf as [|? ? Fy Hf']; subst. rewrite rsum_cons, rabs_cons in *. pose proof (rabs_nonneg (map B2R ys)) as P. pose proof unit_pos as U. pose proof (growth_ge1 k) as G. pose proof (Rabs_pos (B2R y)) as Py.
      assert (PA : 0 <= A) by (pose proof (Rabs_pos T); lra).
      destruct (plus_rounds (B2R s) (B2R y)) as (e & Ee & E); [apply generic_format_B2R|apply generic_format_B2R|].
      assert (Sb : Rabs (B2R s) <= (1 + u) ^ k * A) by (replace (B2R s) with ((B2R s - T) + T) by ring; eapply Rle_trans; [apply Rabs_triang|]; lra).
      assert (Sy : Rabs (B2R s + B2R y) <= (1 + u) ^ k * (A + Rabs (B2R y))) by (eapply Rle_trans; [apply Rabs_triang|]; nra).
      assert (E1 : Rabs (1 + e) <= 1 + u) by (eapply Rle_trans; [apply Rabs_triang|]; rewrite Rabs_R1; lra).
      assert (New : Rabs ((B2R s + B2R y) * (1 + e)) <= (1 + u) ^ (S k) * (A + Rabs (B2R y))).
      { rewrite Rabs_mult. replace ((1 + u) ^ S k * (A + Rabs (B2R y))) with ((1 + u) ^ k * (A + Rabs (B2R y)) * (1 + u)) by (cbn [pow]; ring).
        apply Rmult_le_compat; try apply Rabs_pos; assumption. }
      assert (Le : (1 + u) ^ (S k) <= (1 + u) ^ (k + S (length ys))) by (apply Rle_pow; [lra|lia]).
      pose proof (growth_ge1 (S k)) as GS.
      pose proof (Bplus_correct prec emax Hp He mode_NE s y Fs Fy) as C. change (round_mode mode_NE) with ZnearestE in C. rewrite E in C.
      rewrite Rlt_bool_true in C.
      2:{ eapply Rle_lt_trans; [exact New|]. eapply Rle_lt_trans; [|exact Hb]. apply Rmult_le_compat; try lra. }
      destruct C as (C1 & C2 & _).
      destruct (IH (Bplus mode_NE s y) (T + B2R y) (A + Rabs (B2R y)) (S k)) as (I1 & I2); [exact Hf'|exact C2| | | |].
      + rewrite C1. replace ((B2R s + B2R y) * (1 + e) - (T + B2R y)) with ((B2R s - T) + e * (B2R s + B2R y)) by ring.
        eapply Rle_trans; [apply Rabs_triang|]. rewrite Rabs_mult. cbn [pow].
        assert (Rabs e * Rabs (B2R s + B2R y) <= u * ((1 + u) ^ k * (A + Rabs (B2R y)))) by (apply Rmult_le_compat; try apply Rabs_pos; assumption).
        set (g := (1 + u) ^ k) in *. set (z := Rabs (B2R y)) in *. nra.
      + eapply Rle_trans; [apply Rabs_triang|]. lra.
      + replace (S k + length ys)%nat with (k + S (length ys))%nat by lia. rewrite Rplus_assoc. exact Hb.
      + replace (S k + length ys)%nat with (k + S (length ys))%nat in I2 by lia. split; [exact I1|]. rewrite <- !Rplus_assoc. exact I2.
  Qed.
  Lemma growth_bound n : INR n * u <= / 2 -> (1 + u) ^ n - 1 <= 2 * INR n * u.
  Proof.
    pose proof unit_pos as U. induction n as [|n IH]; intros H; [cbn; lra|]. rewrite S_INR in *. pose proof (pos_INR n). cbn [pow]. assert (H' : INR n * u <= / 2) by nra. specialize (IH H').
    set (g := (1 + u) ^ n) in *. nra.
  Qed.
  (** The sum of n numbers from zero. *)
  Lemma sum_from_zero (ys : list (binary_float prec emax)) : Forall (fun y => is_finite y = true) ys -> INR (length ys) * u <= / 2 ->
    2 * rabs (map B2R ys) < bpow radix2 emax ->
    is_finite (fold_left (Bplus mode_NE) ys (B754_zero false)) = true /\
    Rabs (B2R (fold_left (Bplus mode_NE) ys (B754_zero false)) - rsum (map B2R ys)) <= 2 * INR (length ys) * u * rabs (map B2R ys).
  Proof.
    intros Hf Hn Hb. pose proof (growth_bound _ Hn) as G. pose proof (rabs_nonneg (map B2R ys)) as P. pose proof (growth_ge1 (length ys)) as G1.
    destruct (sum_error ys (B754_zero false) 0 0 0 Hf eq_refl) as (F & E).
    - cbn. rewrite Rminus_0_r, Rabs_R0. lra.
    - rewrite Rabs_R0. lra.
    - rewrite Rplus_0_l. cbn [plus]. eapply Rle_lt_trans; [|exact Hb]. assert ((1 + u) ^ length ys <= 2) by lra. nra.
    - rewrite !Rplus_0_l in E. cbn [plus] in E. split; [exact F|]. eapply Rle_trans; [exact E|]. nra.
  Qed.
End Format.
