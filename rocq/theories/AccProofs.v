(** Products and quotients of doubles with their relative errors. *)
From Verif Require Import DriftFloatProofs HitModel FloatErr FsumProofs.
From Coq Require Import ZifyBool Lia Reals Lra Psatz.
From Flocq Require Import Core BinarySingleNaN.
Local Open Scope R_scope.

(** Zero, or of magnitude between 2^a and 2^b. *)
Definition scaled (a b : Z) (v : R) : Prop := v = 0 \/ bpow radix2 a <= Rabs v <= bpow radix2 b.
Definition eps : R := bpow radix2 (-52).
Lemma eps_val : eps = / IZR 4503599627370496. Proof. reflexivity. Qed.
Lemma eps_range : 0 < eps <= / 1000000. Proof. rewrite eps_val. lra. Qed.

Lemma rel64 v b : scaled (-900) b v -> exists e, Rabs e <= eps /\ rd64 v = v * (1 + e).
Proof.
  intros [->|(H & _)].
  - exists 0. rewrite Rabs_R0. split; [left; apply eps_range|]. rewrite Rmult_0_l. unfold rd64. apply round_0. apply valid_rnd_N.
  - pose proof (bpow_gt_0 radix2 (-900)) as P. assert (v <> 0) by (intros ->; rewrite Rabs_R0 in H; lra).
    exists ((rd64 v - v) / v). split; [|field; assumption]. unfold Rdiv. rewrite Rabs_mult, Rabs_inv.
    assert (V : 0 < Rabs v) by now apply Rabs_pos_lt. apply Rmult_le_reg_r with (Rabs v); [exact V|]. rewrite Rmult_assoc, Rinv_l, Rmult_1_r by lra.
    pose proof (err64 v) as E. change (rnd64 v) with (rd64 v) in E. eapply Rle_trans; [exact E|].
    assert (h64 <= u64 * Rabs v). { apply Rle_trans with (u64 * bpow radix2 (-900)); [|apply Rmult_le_compat_l; [left; apply u64_pos|exact H]]. unfold h64, u64. rewrite <- bpow_plus. apply bpow_le. lia. }
    replace eps with (2 * u64); [lra|]. unfold eps, u64. change (-52)%Z with (-53 + 1)%Z. rewrite bpow_plus_1. reflexivity.
Qed.
Lemma scaled_round a b v e : scaled a b v -> Rabs e <= eps -> scaled (a - 1) (b + 1) (v * (1 + e)).
Proof.
  intros [->|(H1 & H2)] He; [left; ring|right]. pose proof eps_range as (E1 & E2). apply Rabs_le_inv in He. rewrite Rabs_mult, (Rabs_pos_eq (1 + e)) by lra.
  pose proof (bpow_gt_0 radix2 a) as P1. pose proof (bpow_gt_0 radix2 b) as P2. rewrite bpow_plus_1. change (IZR radix2) with 2. replace (a - 1)%Z with (a + - (1))%Z by ring. rewrite bpow_plus. change (bpow radix2 (- (1))) with (/ 2). split; nra.
Qed.
Lemma scaled_mult a b c d x y : scaled a b x -> scaled c d y -> scaled (a + c) (b + d) (x * y).
Proof.
  intros [->|(H1 & H2)] [->|(H3 & H4)]; try (left; ring). right. rewrite Rabs_mult, !bpow_plus. pose proof (bpow_gt_0 radix2 a). pose proof (bpow_gt_0 radix2 c). split; apply Rmult_le_compat; lra || apply Rabs_pos.
Qed.
Lemma scaled_inv a b y : y <> 0 -> scaled a b y -> scaled (- b) (- a) (/ y).
Proof.
  intros Hy [->|(H1 & H2)]; [lra|]. right. rewrite Rabs_inv, !bpow_opp. pose proof (bpow_gt_0 radix2 a). split; apply Rinv_le; lra.
Qed.
Lemma scaled_weaken a b a' b' v : (a' <= a)%Z -> (b <= b')%Z -> scaled a b v -> scaled a' b' v.
Proof. intros Ha Hb [->|(H1 & H2)]; [now left|right]. split; [apply Rle_trans with (2 := H1)|apply Rle_trans with (1 := H2)]; now apply bpow_le. Qed.
Lemma scaled_max a b v n : scaled a b v -> (b <= n)%Z -> Rabs v <= bpow radix2 n.
Proof. intros [->|(_ & H)] Hn; [rewrite Rabs_R0; apply bpow_ge_0|]. apply Rle_trans with (1 := H). now apply bpow_le. Qed.
Lemma mul_rel (x y : f64) a b c d : is_finite x = true -> is_finite y = true -> scaled a b (B2R x) -> scaled c d (B2R y) -> (-900 <= a + c)%Z -> (b + d <= 900)%Z ->
  is_finite (mul64 x y) = true /\ (exists e, Rabs e <= eps /\ B2R (mul64 x y) = B2R x * B2R y * (1 + e)) /\ scaled (a + c - 1) (b + d + 1) (B2R (mul64 x y)).
Proof.
  intros Fx Fy Sx Sy H1 H2. pose proof (scaled_mult _ _ _ _ _ _ Sx Sy) as Sp. destruct (mul64_ok x y Fx Fy 900 ltac:(lia)) as (F & E); [apply (scaled_max _ _ _ _ Sp); lia|].
  destruct (rel64 (B2R x * B2R y) (b + d)) as (e & He & Ee); [apply (scaled_weaken (a + c) (b + d)); [lia|lia|exact Sp]|].
  split; [exact F|]. rewrite E, Ee. split; [exists e; auto|]. now apply scaled_round.
Qed.
Lemma div_rel (x y : f64) a b c d : is_finite x = true -> is_finite y = true -> B2R y <> 0 -> scaled a b (B2R x) -> scaled c d (B2R y) -> (-900 <= a - d)%Z -> (b - c <= 900)%Z ->
  is_finite (div64 x y) = true /\ (exists e, Rabs e <= eps /\ B2R (div64 x y) = B2R x / B2R y * (1 + e)) /\ scaled (a - d - 1) (b - c + 1) (B2R (div64 x y)).
Proof.
  intros Fx Fy Hy Sx Sy H1 H2. pose proof (scaled_mult _ _ _ _ _ _ Sx (scaled_inv _ _ _ Hy Sy)) as Sp. change (B2R x * / B2R y) with (B2R x / B2R y) in Sp.
  destruct (div64_ok x y Fx 900 ltac:(lia) Hy) as (F & E); [apply (scaled_max _ _ _ _ Sp); lia|].
  destruct (rel64 (B2R x / B2R y) (b + - c)) as (e & He & Ee); [apply (scaled_weaken (a + - d) (b + - c)); [lia|lia|exact Sp]|].
  split; [exact F|]. rewrite E, Ee. split; [exists e; auto|]. apply (scaled_round (a - d) (b - c)); [exact Sp|exact He].
Qed.
Lemma scaled_int z : (Z.abs z <= 2 ^ 53)%Z -> is_finite (f64_of_Z z) = true /\ B2R (f64_of_Z z) = IZR z /\ scaled 0 53 (IZR z).
Proof.
  intros H. destruct (f64_of_Z_ok z H) as (V & F). split; [exact F|]. split; [exact V|]. destruct (Z.eq_dec z 0) as [->|N]; [now left|right]. rewrite <- abs_IZR. split.
  - change (bpow radix2 0) with 1. apply IZR_le. lia.
  - change (bpow radix2 53) with (IZR (2 ^ 53)). apply IZR_le. exact H.
Qed.
(** Three small relative errors together. *)
Lemma three e1 e2 e3 : Rabs e1 <= eps -> Rabs e2 <= eps -> Rabs e3 <= eps -> Rabs ((1 + e1) * (1 + e2) * (1 + e3) - 1) <= 4 * eps.
Proof.
  intros H1 H2 H3. pose proof eps_range as (E1 & E2). replace ((1 + e1) * (1 + e2) * (1 + e3) - 1) with (e1 + e2 + e3 + (e1 * e2 + (e1 + e2) * e3 + e1 * e2 * e3)) by ring.
  pose proof (Rabs_pos e1). pose proof (Rabs_pos e2). pose proof (Rabs_pos e3).
  assert (Q1 : Rabs (e1 * e2) <= eps * eps) by (rewrite Rabs_mult; apply Rmult_le_compat; lra).
  assert (Q2 : Rabs ((e1 + e2) * e3) <= 2 * eps * eps) by (rewrite Rabs_mult; apply Rmult_le_compat; try apply Rabs_pos; [eapply Rle_trans; [apply Rabs_triang|]; lra|exact H3]).
  assert (Q3 : Rabs (e1 * e2 * e3) <= eps * eps * 1) by (rewrite Rabs_mult; apply Rmult_le_compat; try apply Rabs_pos; lra).
  repeat (eapply Rle_trans; [apply Rabs_triang|]). 
  assert (Rabs (e1 + e2 + e3) <= 3 * eps) by (eapply Rle_trans; [apply Rabs_triang|]; eapply Rle_trans; [apply Rplus_le_compat_r, Rabs_triang|]; lra).
  assert (Rabs (e1 * e2 + (e1 + e2) * e3 + e1 * e2 * e3) <= 4 * eps * eps) by (eapply Rle_trans; [apply Rabs_triang|]; eapply Rle_trans; [apply Rplus_le_compat_r, Rabs_triang|]; lra).
  nra.
Qed.
Lemma rel_total v w x e d : Rabs (w - v) <= d * Rabs v -> x = w * (1 + e) -> Rabs e <= 4 * eps -> 0 <= d <= / 1000 -> Rabs (x - v) <= (d + 5 * eps) * Rabs v.
Proof.
  intros Hw -> He Hd. pose proof eps_range as (E1 & E2). replace (w * (1 + e) - v) with ((w - v) + w * e) by ring. eapply Rle_trans; [apply Rabs_triang|].
  assert (W : Rabs w <= (1 + d) * Rabs v) by (replace w with ((w - v) + v) by ring; eapply Rle_trans; [apply Rabs_triang|]; lra). rewrite Rabs_mult.
  pose proof (Rabs_pos w). pose proof (Rabs_pos v). pose proof (Rabs_pos e). assert (Rabs w * Rabs e <= (1 + d) * Rabs v * (4 * eps)) by (apply Rmult_le_compat; lra).
  assert ((1 + d) * Rabs v * (4 * eps) <= 5 * eps * Rabs v); [|lra]. replace ((1 + d) * Rabs v * (4 * eps)) with ((1 + d) * 4 * (eps * Rabs v)) by ring. assert (0 <= eps * Rabs v) by (apply Rmult_le_pos; lra). nra.
Qed.
