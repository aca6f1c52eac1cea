(** Sums in single precision and the final roots. *)
From Verif Require Import DriftFloatProofs CudaOffsetProofs HitFacts.
From Verif Require Export FsumProofs.
From Coq Require Import ZifyBool Lia Reals Lra Psatz.
From Flocq Require Import Core BinarySingleNaN.
Local Open Scope R_scope.

(** ** What is expected of a standard deviation *)
(** [r] is, up to two roundings, the root of a number that differs from the exact variance by at most [slack]. *)
Definition rough_root (k : R) (xs : list f32) (r : f32) : Prop :=
  is_finite r = true /\ 0 <= B2R r /\
  exists v, 0 <= v /\ Rabs (v - variance xs) <= slack k (INR (length xs)) (mean_square xs) /\ Rabs (B2R r - sqrt v) <= bpow radix2 (-23) * sqrt v + bpow radix2 (-149).

Lemma deviation64_ok xs : moderate xs -> (1 <= zlen xs < 2 ^ 31)%Z -> let r := deviation64 (fold_left add_both xs (B754_zero false, B754_zero false)) (zlen xs) in
  rough_root 2 xs r \/ is_nan r = true /\ variance xs < slack 2 (INR (length xs)) (mean_square xs).
Proof.
  intros Hm Hn r. destruct (variance64_ok xs Hm Hn) as (F & E). unfold r, deviation64. set (d := variance64 _ _) in *. pose proof (slack_range xs 2 Hm Hn ltac:(lra)) as SR. destruct (variance_nonneg xs Hm ltac:(lia)) as (V0 & VQ).
  destruct (mean_square_bound xs Hm ltac:(lia)) as (Q0 & QB). set (B := slack _ _ _) in *. pose proof (Rle_abs (B2R d - variance xs)) as A1. pose proof (Rle_abs (- (B2R d - variance xs))) as A2. rewrite Rabs_Ropp in A2.
  destruct (Rle_lt_dec 0 (B2R d)) as [D|D].
  - left. destruct (root_ok d F) as (R1 & R2 & R3); [split; [exact D|]; change 253%Z with (252 + 1)%Z; rewrite <- bpow_double; lra|]. split; [exact R1|]. split; [exact R2|]. exists (B2R d). auto.
  - right. split; [now apply root_nan|]. lra.
Qed.
Lemma at_least_zero_ok d : is_finite d = true -> is_finite (at_least_zero d) = true /\ B2R (at_least_zero d) = Rmax 0 (B2R d).
Proof.
  intros F. unfold at_least_zero. rewrite Bcompare_correct by (reflexivity || exact F). change (B2R (B754_zero false)) with 0.
  destruct (Rcompare_spec 0 (B2R d)) as [H|H|H]; (split; [reflexivity || exact F|]).
  - rewrite Rmax_right; lra.
  - rewrite <- H. rewrite Rmax_left by lra. reflexivity.
  - rewrite Rmax_left by lra. reflexivity.
Qed.
Lemma scaled_deviation_ok xs : moderate xs -> (1 <= zlen xs < 2 ^ 31)%Z ->
  rough_root 3 xs (scaled_deviation (fold_left (add_scaled (zlen xs)) xs (B754_zero false)) (fold_left (add_scaled_square (zlen xs)) xs (B754_zero false))).
Proof.
  intros Hm Hn. destruct (scaled_variance xs Hm Hn) as (F & E). unfold scaled_deviation. set (d := Bminus _ _ _) in *. pose proof (slack_range xs 3 Hm Hn ltac:(lra)) as SR. destruct (variance_nonneg xs Hm ltac:(lia)) as (V0 & VQ).
  destruct (mean_square_bound xs Hm ltac:(lia)) as (Q0 & QB). unfold rough_root. set (B := slack _ _ _) in *. pose proof (Rle_abs (B2R d - variance xs)) as A1. pose proof (Rle_abs (- (B2R d - variance xs))) as A2. rewrite Rabs_Ropp in A2.
  destruct (at_least_zero_ok d F) as (F' & V).
  assert (C : 0 <= B2R (at_least_zero d) /\ Rabs (B2R (at_least_zero d) - variance xs) <= B).
  { rewrite V. split; [apply Rmax_l|]. unfold Rmax. destruct (Rle_dec 0 (B2R d)) as [D|D]; [exact E|]. rewrite Rminus_0_l, Rabs_Ropp, Rabs_pos_eq by exact V0. lra. }
  destruct C as (C0 & CB). pose proof (Rle_abs (B2R (at_least_zero d) - variance xs)) as A3.
  destruct (root_ok (at_least_zero d) F') as (R1 & R2 & R3); [split; [exact C0|]; change 253%Z with (252 + 1)%Z; rewrite <- bpow_double; lra|]. split; [exact R1|]. split; [exact R2|]. exists (B2R (at_least_zero d)). auto.
Qed.
Lemma scaled_mean_ok xs : moderate xs -> (1 <= zlen xs < 2 ^ 31)%Z -> let r := narrow (fold_left (add_scaled (zlen xs)) xs (B754_zero false)) in
  is_finite r = true /\ Rabs (B2R r - rmean xs) <= bpow radix2 (-24) * Rabs (rmean xs) + (INR (length xs) + 3) * bpow radix2 (-51) * magnitude xs + bpow radix2 (-149).
Proof.
  intros Hm Hn r. unfold r. destruct (scaled_first xs Hm Hn) as (F & E). destruct (magnitude_bound xs Hm ltac:(lia)) as (A & M). set (q := fold_left _ _ _) in *.
  assert (Hc : INR (length xs) <= bpow radix2 31) by (apply count_R; unfold zlen in Hn; lia). pose proof (count_u _ Hc) as Hu. pose proof u64_small as US.
  assert (N1 : 1 <= INR (length xs)) by (rewrite <- IZR_len; apply IZR_le; lia). pose proof u64_pos as U. pose proof h64_pos as HP. set (n := INR (length xs)) in *.
  assert (HN : 2 * (2 * n * h64) <= bpow radix2 (-150)).
  { apply Rle_trans with (bpow radix2 33 * h64); [|unfold h64; rewrite <- bpow_plus; apply bpow_le; lia]. replace (2 * (2 * n * h64)) with (4 * n * h64) by ring. apply Rmult_le_compat_r; [lra|].
    apply Rle_trans with (4 * bpow radix2 31); [lra|]. change 4 with (bpow radix2 2). rewrite <- bpow_plus. apply bpow_le. lia. }
  assert (B : Rabs (B2R q) <= bpow radix2 127).
  { change 127%Z with (126 + 1)%Z. rewrite <- bpow_double. replace (B2R q) with ((B2R q - rmean xs) + rmean xs) by ring. eapply Rle_trans; [apply Rabs_triang|].
    assert (T : bpow radix2 (-150) <= / 2 * bpow radix2 126) by (rewrite half_bpow; apply bpow_le; lia). assert (K : (2 * n + 5) * u64 <= / 2) by nra. assert ((2 * n + 5) * u64 * magnitude xs <= / 2 * magnitude xs) by (apply Rmult_le_compat_r; lra).
    assert (0 <= 2 * n * h64) by (apply Rmult_le_pos; lra). lra. }
  destruct (narrow_range q F B) as (N & N2). split; [exact N|]. rewrite N2.
  change (-149)%Z with (-150 + 1)%Z. rewrite <- bpow_double. replace (bpow radix2 (-51)) with (4 * u64) by (change 4 with (bpow radix2 2); unfold u64; rewrite <- bpow_plus; reflexivity).
  eapply Rle_trans; [apply (rounded_mean (n + 2) (magnitude xs) (rmean xs) (B2R q) (rnd32 (B2R q)) u64 (bpow radix2 (-24)) (2 * n * h64) (bpow radix2 (-150)))|]; [lra|lra|lra|exact v_bounds|apply Rmult_le_pos; lra|exact HN| |apply err32|].
  - eapply Rle_trans; [exact E|]. apply Rplus_le_compat_r. apply Rmult_le_compat_r; [lra|]. apply Rmult_le_compat_r; lra.
  - apply Req_le. ring.
Qed.

(** Consequences: an absolute bound, and a relative one for data that is not almost constant. *)
Lemma sqrt_close v V B : 0 <= v -> 0 <= V -> Rabs (v - V) <= B -> Rabs (sqrt v - sqrt V) <= sqrt B /\ (0 < V -> Rabs (sqrt v - sqrt V) <= B / sqrt V).
Proof.
  intros Hv HV HB. assert (B0 : 0 <= B) by (pose proof (Rabs_pos (v - V)); lra). pose proof (sqrt_pos v) as s0. pose proof (sqrt_pos V) as S0.
  assert (P : Rabs (sqrt v - sqrt V) * (sqrt v + sqrt V) = Rabs (v - V)).
  { rewrite <- (Rabs_pos_eq (sqrt v + sqrt V)) by lra. rewrite <- Rabs_mult. f_equal. rewrite <- (sqrt_sqrt v Hv) at 3. rewrite <- (sqrt_sqrt V HV) at 3. ring. }
  assert (L : Rabs (sqrt v - sqrt V) <= sqrt v + sqrt V) by (eapply Rle_trans; [apply Rabs_triang|]; rewrite Rabs_Ropp, !Rabs_pos_eq; lra).
  pose proof (Rabs_pos (sqrt v - sqrt V)) as D0. split.
  - apply Rsqr_incr_0_var; [|apply sqrt_pos]. rewrite Rsqr_sqrt by exact B0. unfold Rsqr. nra.
  - intros H. assert (0 < sqrt V) by now apply sqrt_lt_R0. apply Rmult_le_reg_r with (sqrt V); [assumption|]. unfold Rdiv. rewrite Rmult_assoc, Rinv_l by lra. nra.
Qed.
Lemma rough_root_bound k xs r : moderate xs -> (1 <= zlen xs)%Z -> rough_root k xs r -> let B := slack k (INR (length xs)) (mean_square xs) in let sigma := sqrt (variance xs) in
  Rabs (B2R r - sigma) <= bpow radix2 (-23) * (sigma + sqrt B) + sqrt B + bpow radix2 (-149) /\
  (0 < variance xs -> Rabs (B2R r - sigma) <= bpow radix2 (-23) * (sigma + B / sigma) + B / sigma + bpow radix2 (-149)).
Proof.
  intros Hm Hn (_ & _ & v & v0 & E & R) B sigma. destruct (variance_nonneg xs Hm Hn) as (V0 & _). destruct (sqrt_close v (variance xs) B v0 V0 E) as (C1 & C2). fold sigma in C1, C2.
  assert (G : forall c, Rabs (sqrt v - sigma) <= c -> Rabs (B2R r - sigma) <= bpow radix2 (-23) * (sigma + c) + c + bpow radix2 (-149)).
  { intros c Hc. replace (B2R r - sigma) with ((B2R r - sqrt v) + (sqrt v - sigma)) by ring. eapply Rle_trans; [apply Rabs_triang|]. pose proof (Rle_abs (sqrt v - sigma)).
    assert (bpow radix2 (-23) * sqrt v <= bpow radix2 (-23) * (sigma + c)) by (apply Rmult_le_compat_l; [apply bpow_ge_0|lra]). lra. }
  split; [apply G, C1|]. intros H. apply G, C2, H.
Qed.

(** ** Sums in single precision *)
Lemma sum32_ok (xs : list f32) : Forall (fun x => is_finite x = true) xs -> (zlen xs <= 2 ^ 23)%Z -> rabs (vals xs) < bpow radix2 127 ->
  let s := fold_left (Bplus mode_NE) xs (B754_zero false : f32) in is_finite s = true /\ Rabs (B2R s - rsum (vals xs)) <= INR (length xs) * bpow radix2 (-23) * rabs (vals xs).
Proof.
  intros F Hn Hb s. destruct (sum_from_zero 24 128 prec24 emax128 xs F) as (A & B).
  - rewrite unit32. assert (Hc : INR (length xs) <= bpow radix2 23) by (rewrite <- IZR_len, <- (IZR_pow2 23) by lia; apply IZR_le; lia).
    apply Rle_trans with (bpow radix2 23 * bpow radix2 (-24)); [apply Rmult_le_compat_r; [apply bpow_ge_0|exact Hc]|]. rewrite <- bpow_plus. apply Rle_refl.
  - change 128%Z with (127 + 1)%Z. rewrite <- bpow_double. change (2 * rabs (vals xs) < 2 * bpow radix2 127). lra.
  - rewrite unit32 in B. split; [exact A|]. eapply Rle_trans; [exact B|]. apply Req_le. change (-23)%Z with (-24 + 1)%Z. rewrite <- bpow_double. unfold vals. set (n := INR _). change (INR (length xs)) with n. ring.
Qed.
Definition one32 : f32 := f32_of_Z 1.
Lemma ones_step k : (0 <= k < 2 ^ 24)%Z -> Bplus mode_NE (f32_of_Z k) one32 = f32_of_Z (k + 1).
Proof.
  intros Hk. destruct (f32_of_Z_ok k ltac:(lia)) as (Vk & Fk). destruct (f32_of_Z_ok 1 ltac:(lia)) as (V1 & F1). destruct (f32_of_Z_ok (k + 1) ltac:(lia)) as (V2 & F2). fold one32 in V1, F1.
  pose proof (Bplus_correct 24 128 prec24 emax128 mode_NE (f32_of_Z k) one32 Fk F1) as C. rewrite Vk, V1, <- plus_IZR, <- V2 in C.
  rewrite round_generic in C by (apply valid_rnd_N || apply generic_format_B2R). rewrite Rlt_bool_true in C by apply abs_B2R_lt_emax. destruct C as (C1 & C2 & _).
  symmetry. apply f32_of_Z_format; [exact C2| |lia]. rewrite C1, V2. reflexivity.
Qed.
Lemma ones_stuck : Bplus mode_NE (f32_of_Z (2 ^ 24)) one32 = f32_of_Z (2 ^ 24).
Proof. apply B2SF_inj. vm_compute. reflexivity. Qed.
Lemma ones_from n : forall k, (0 <= k <= 2 ^ 24)%Z -> fold_left (Bplus mode_NE) (repeat one32 n) (f32_of_Z k) = f32_of_Z (Z.min (k + Z.of_nat n) (2 ^ 24)).
Proof.
  induction n as [|n IH]; intros k Hk; cbn [repeat fold_left]; [f_equal; lia|].
  destruct (Z.eq_dec k (2 ^ 24)) as [-> |K]; [rewrite ones_stuck, IH by lia; f_equal; lia|]. rewrite ones_step, IH by lia. f_equal. lia.
Qed.
Lemma ones_sum n : fold_left (Bplus mode_NE) (repeat one32 n) (B754_zero false : f32) = f32_of_Z (Z.min (Z.of_nat n) (2 ^ 24)).
Proof. exact (ones_from n 0 ltac:(lia)). Qed.
