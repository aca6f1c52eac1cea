(** Rounding errors of averages accumulated in single precision. *)
From Verif Require Import DriftFloatProofs CudaOffsetProofs.
From Verif Require Export FsumProofs2.
From Coq Require Import ZifyBool Lia Reals Lra Psatz.
From Flocq Require Import Core BinarySingleNaN.
Local Open Scope R_scope.

Definition u32 : R := bpow radix2 (-24).
Definition h32 : R := bpow radix2 (-150).
Lemma u32_pos : 0 < u32. Proof. apply bpow_gt_0. Qed.
Lemma h32_pos : 0 < h32. Proof. apply bpow_gt_0. Qed.
Lemma u32_small : u32 <= / 1000000. Proof. unfold u32. change (bpow radix2 (-24)) with (/ IZR 16777216). lra. Qed.
Definition over32 (x : f32) (n : Z) : f32 := Bdiv mode_NE x (f32_of_Z n).
Lemma over32_ok x n : is_finite x = true -> (1 <= n <= 2 ^ 24)%Z -> Rabs (B2R x) <= bpow radix2 127 ->
  is_finite (over32 x n) = true /\ Rabs (B2R (over32 x n) - B2R x / IZR n) <= u32 * Rabs (B2R x / IZR n) + h32.
Proof.
  intros F Hn B. destruct (f32_of_Z_ok n ltac:(lia)) as (Vn & Fn). assert (N1 : 1 <= IZR n) by (apply IZR_le; lia).
  pose proof (Bdiv_correct 24 128 prec24 emax128 mode_NE x (f32_of_Z n) ltac:(rewrite Vn; lra)) as C. rewrite Vn in C. change (round_mode mode_NE) with ZnearestE in C.
  assert (Q : Rabs (B2R x / IZR n) <= bpow radix2 127).
  { unfold Rdiv. rewrite Rabs_mult, (Rabs_pos_eq (/ IZR n)) by (left; apply Rinv_0_lt_compat; lra). assert (I1 : / IZR n <= 1) by (rewrite <- Rinv_1; apply Rinv_le; lra).
    pose proof (Rabs_pos (B2R x)). assert (0 < / IZR n) by (apply Rinv_0_lt_compat; lra). nra. }
  rewrite Rlt_bool_true in C.
  - destruct C as (C1 & C2 & _). unfold over32. rewrite C2. split; [exact F|]. rewrite C1. apply err32.
  - apply Rle_lt_trans with (bpow radix2 127); [|apply bpow_lt; lia]. apply abs_round_le_generic; [exact (fexp_correct 24 128 prec24)|apply valid_rnd_N| |exact Q].
    change (SpecFloat.fexp 24 128) with (FLT_exp (-149) 24). apply generic_format_FLT_bpow; [reflexivity|lia].
Qed.
(** Terms divided beforehand. *)
Lemma divided_sums d (xs : list f32) B : (1 <= d <= 2 ^ 24)%Z -> (B <= 127)%Z -> Forall (fun x => is_finite x = true /\ Rabs (B2R x) <= bpow radix2 B) xs ->
  let ys := map (fun x => over32 x d) xs in
  Forall (fun y => is_finite y = true) ys /\
  Rabs (rsum (map B2R ys) - rsum (vals xs) * / IZR d) <= u32 * (rabs (vals xs) * / IZR d) + INR (length xs) * h32 /\
  rabs (map B2R ys) <= (1 + u32) * (rabs (vals xs) * / IZR d) + INR (length xs) * h32.
Proof.
  intros Hd HB. unfold vals. induction 1 as [|x xs (Fx & Bx) H IH]; cbv zeta.
  - cbn [map length INR]. rewrite rabs_nil, rsum_nil. repeat split; try constructor; rewrite ?Rmult_0_l, ?Rminus_0_r, ?Rabs_R0; lra.
  - cbv zeta in IH. destruct IH as (A & C & D). assert (Bx' : Rabs (B2R x) <= bpow radix2 127) by (eapply Rle_trans; [exact Bx|]; apply bpow_le; exact HB).
    destruct (over32_ok x d Fx Hd Bx') as (S1 & S2). cbn [map]. rewrite !rsum_cons, !rabs_cons. change (length (x :: xs)) with (S (length xs)). rewrite S_INR.
    assert (N1 : 1 <= IZR d) by (apply IZR_le; lia). assert (I : 0 < / IZR d) by (apply Rinv_0_lt_compat; lra). pose proof u32_pos as U. pose proof h32_pos as HP.
    unfold Rdiv in S2. rewrite (Rabs_mult (B2R x)), (Rabs_pos_eq (/ IZR d)) in S2 by lra.
    set (y := B2R (over32 x d)) in *. set (v := B2R x) in *. pose proof (Rabs_pos v) as V0. change (INR (length (xs : list f32))) with (INR (length xs)) in *. set (n := INR (length xs)) in *.
    assert (Y : Rabs y <= (1 + u32) * (Rabs v * / IZR d) + h32). { replace y with (v * / IZR d + (y - v * / IZR d)) by ring. eapply Rle_trans; [apply Rabs_triang|]. rewrite (Rabs_mult v), (Rabs_pos_eq (/ IZR d)) by lra. lra. }
    split; [constructor; assumption|]. split.
    + set (sy := rsum (map B2R (map (fun x0 => over32 x0 d) xs))) in *. set (sx := rsum (map B2R xs)) in *.
      replace (y + sy - (v + sx) * / IZR d) with ((y - v * / IZR d) + (sy - sx * / IZR d)) by ring. eapply Rle_trans; [apply Rabs_triang|]. lra.
    + set (sy := rabs (map B2R (map (fun x0 => over32 x0 d) xs))) in *. lra.
Qed.
(** An average: terms divided by [d], added up, divided by [T]. *)
Lemma average_error n u h A s ty ay T q : 1 <= T -> 0 <= n -> 0 <= u -> 4 * (n + 1) * u <= 1 -> 0 <= h -> 0 <= A ->
  Rabs (s - ty) <= 2 * n * u * ay -> ay <= (1 + u) * A + n * h -> forall t, Rabs t <= A -> Rabs (ty - t) <= u * A + n * h -> Rabs (q - s / T) <= u * Rabs (s / T) + h ->
  Rabs (q - t / T) <= (2 * n + 4) * u * (A / T) + (3 * n / T + 1) * h.
Proof.
  intros HT Hn Hu Hs Hh HA H1 H2 t Ht H3 H4. assert (I : 0 < / T) by (apply Rinv_0_lt_compat; lra). unfold Rdiv in *.
  assert (K : 0 <= 2 * n * u) by (apply Rmult_le_pos; lra). assert (NH : 0 <= n * h) by (apply Rmult_le_pos; lra). assert (UA : 0 <= u * A) by (apply Rmult_le_pos; lra). assert (NU : 2 * n * u <= / 2) by nra.
  assert (E1 : Rabs (s - t) <= (2 * n + 2) * (u * A) + 3 / 2 * (n * h)).
  { replace (s - t) with ((s - ty) + (ty - t)) by ring. eapply Rle_trans; [apply Rabs_triang|].
    assert (L : 2 * n * u * ay <= 2 * n * u * ((1 + u) * A + n * h)) by (apply Rmult_le_compat_l; assumption).
    assert (P : 2 * n * u * (u * A) <= / 2 * (u * A)) by (apply Rmult_le_compat_r; assumption). assert (P2 : 2 * n * u * (n * h) <= / 2 * (n * h)) by (apply Rmult_le_compat_r; assumption). nra. }
  assert (E2 : Rabs s <= 2 * A + 3 / 2 * (n * h)).
  { replace s with (t + (s - t)) by ring. eapply Rle_trans; [apply Rabs_triang|]. assert ((2 * n + 2) * (u * A) <= A) by nra. lra. }
  rewrite (Rabs_mult s), (Rabs_pos_eq (/ T)) in H4 by lra.
  replace (q - t * / T) with ((q - s * / T) + (s - t) * / T) by ring. eapply Rle_trans; [apply Rabs_triang|]. rewrite (Rabs_mult (s - t)), (Rabs_pos_eq (/ T)) by lra.
  assert (G1 : Rabs (s - t) * / T <= ((2 * n + 2) * (u * A) + 3 / 2 * (n * h)) * / T) by (apply Rmult_le_compat_r; lra).
  assert (G2 : u * (Rabs s * / T) <= u * ((2 * A + 3 / 2 * (n * h)) * / T)) by (apply Rmult_le_compat_l; [exact Hu|]; apply Rmult_le_compat_r; lra).
  assert (U1 : u <= 1) by nra. assert (G3 : u * (n * h * / T) <= 1 * (n * h * / T)) by (apply Rmult_le_compat_r; [apply Rmult_le_pos; lra|exact U1]). nra.
Qed.
Definition average32 (T d : Z) (xs : list f32) : f32 := over32 (fold_left (Bplus mode_NE) (map (fun x => over32 x d) xs) (B754_zero false)) T.
Lemma average32_ok T d (xs : list f32) : (1 <= T <= 2 ^ 24)%Z -> (1 <= d <= 2 ^ 24)%Z -> (zlen xs <= 2 ^ 21)%Z -> Forall (fun x => is_finite x = true /\ Rabs (B2R x) <= bpow radix2 100) xs ->
  let n := INR (length xs) in
  is_finite (average32 T d xs) = true /\
  Rabs (B2R (average32 T d xs) - rsum (vals xs) / IZR d / IZR T) <= (2 * n + 4) * u32 * (rabs (vals xs) / IZR d / IZR T) + (3 * n / IZR T + 1) * h32.
Proof.
  intros HT Hd Hn H n. destruct (divided_sums d xs 100 Hd ltac:(lia) H) as (A & C & D). set (ys := map (fun x => over32 x d) xs) in *.
  assert (Hc : n <= bpow radix2 21) by (unfold n; rewrite <- IZR_len, <- (IZR_pow2 21) by lia; apply IZR_le; lia). change (INR (length xs)) with n in C, D.
  assert (T1 : 1 <= IZR T) by (apply IZR_le; lia). assert (D1 : 1 <= IZR d) by (apply IZR_le; lia). assert (I : 0 < / IZR d) by (apply Rinv_0_lt_compat; lra). assert (I1 : / IZR d <= 1) by (rewrite <- Rinv_1; apply Rinv_le; lra).
  pose proof u32_pos as U. pose proof u32_small as US. pose proof h32_pos as HP. assert (n0 : 0 <= n) by apply pos_INR. pose proof (rabs_nonneg (vals xs)) as V0.
  assert (NU : n * u32 <= / 8). { apply Rle_trans with (bpow radix2 21 * u32); [apply Rmult_le_compat_r; lra|]. unfold u32. rewrite <- bpow_plus. change (bpow radix2 (21 + -24)) with (/ IZR 8). lra. }
  assert (VB : rabs (vals xs) <= bpow radix2 121).
  { assert (Hv : Forall (fun x => Rabs x <= bpow radix2 100) (vals xs)) by (unfold vals; apply Forall_map; apply Forall_impl with (2 := H); tauto). pose proof (rabs_bound _ _ Hv) as RB. unfold vals in RB at 2. rewrite map_length in RB.
    eapply Rle_trans; [exact RB|]. change 121%Z with (21 + 100)%Z. rewrite bpow_plus. apply Rmult_le_compat_r; [apply bpow_ge_0|exact Hc]. }
  assert (AB : 0 <= rabs (vals xs) * / IZR d <= bpow radix2 121) by (split; [apply Rmult_le_pos; lra|]; eapply Rle_trans; [|exact VB]; rewrite <- (Rmult_1_r (rabs (vals xs))) at 2; apply Rmult_le_compat_l; lra).
  assert (NHB : 0 <= n * h32 <= bpow radix2 121).
  { split; [apply Rmult_le_pos; lra|]. apply Rle_trans with (bpow radix2 21 * h32); [apply Rmult_le_compat_r; lra|]. unfold h32. rewrite <- bpow_plus. apply bpow_le. lia. }
  assert (YB : rabs (map B2R ys) <= 3 * bpow radix2 121) by (eapply Rle_trans; [exact D|]; nra).
  assert (B3 : 64 * bpow radix2 121 = bpow radix2 127) by (change 64 with (bpow radix2 6); rewrite <- bpow_plus; reflexivity).
  destruct (sum_from_zero 24 128 prec24 emax128 ys A) as (S1 & S2).
  - rewrite unit32. unfold ys. rewrite map_length. refine (Rle_trans _ _ _ NU _). lra.
  - apply Rle_lt_trans with (bpow radix2 127); [|apply bpow_lt; lia]. pose proof (bpow_gt_0 radix2 121). lra.
  - unfold ys in S2 at 3. rewrite map_length in S2. rewrite unit32 in S2. change (INR (length (xs : list (binary_float 24 128)))) with n in S2. change (bpow radix2 (-24)) with u32 in S2.
    unfold average32. fold ys. set (s := fold_left (Bplus mode_NE) ys (B754_zero false)) in *.
    assert (TA : Rabs (rsum (vals xs) * / IZR d) <= rabs (vals xs) * / IZR d) by (rewrite Rabs_mult, (Rabs_pos_eq (/ IZR d)) by lra; apply Rmult_le_compat_r; [lra|apply rsum_abs]).
    pose proof (rabs_nonneg (map B2R ys)) as Y0. pose proof (rsum_abs (map B2R ys)) as YA.
    assert (SB : Rabs (B2R s) <= bpow radix2 127).
    { replace (B2R s) with (rsum (map B2R ys) + (B2R s - rsum (map B2R ys))) by ring. eapply Rle_trans; [apply Rabs_triang|]. pose proof (bpow_gt_0 radix2 121). nra. }
    destruct (over32_ok s T S1 HT SB) as (O1 & O2). split; [exact O1|].
    apply (average_error n u32 h32 (rabs (vals xs) * / IZR d) (B2R s) (rsum (map B2R ys)) (rabs (map B2R ys)) (IZR T)); try assumption; try lra.
Qed.
(** Without a division before the sum. *)
Definition plain_average32 (n : Z) (xs : list f32) : f32 := over32 (fold_left (Bplus mode_NE) xs (B754_zero false)) n.
Lemma plain_average32_ok (xs : list f32) : (1 <= zlen xs <= 2 ^ 21)%Z -> Forall (fun x => is_finite x = true /\ Rabs (B2R x) <= bpow radix2 100) xs ->
  let n := INR (length xs) in let r := plain_average32 (zlen xs) xs in
  is_finite r = true /\ Rabs (B2R r - rsum (vals xs) / n) <= (2 * n + 4) * u32 * (rabs (vals xs) / n) + 4 * h32.
Proof.
  intros Hn H n r. assert (F : Forall (fun x => is_finite x = true) xs) by (apply Forall_impl with (2 := H); tauto).
  assert (Hc : n <= bpow radix2 21) by (unfold n; rewrite <- IZR_len, <- (IZR_pow2 21) by lia; apply IZR_le; lia). assert (n1 : 1 <= n) by (unfold n; rewrite <- IZR_len; apply IZR_le; lia).
  pose proof u32_pos as U. pose proof u32_small as US. pose proof h32_pos as HP. pose proof (rabs_nonneg (vals xs)) as V0. pose proof (rsum_abs (vals xs)) as VA.
  assert (NU : n * u32 <= / 8). { apply Rle_trans with (bpow radix2 21 * u32); [apply Rmult_le_compat_r; lra|]. unfold u32. rewrite <- bpow_plus. change (bpow radix2 (21 + -24)) with (/ IZR 8). lra. }
  assert (VB : rabs (vals xs) <= bpow radix2 121).
  { assert (Hv : Forall (fun x => Rabs x <= bpow radix2 100) (vals xs)) by (unfold vals; apply Forall_map; apply Forall_impl with (2 := H); tauto). pose proof (rabs_bound _ _ Hv) as RB. unfold vals in RB at 2. rewrite map_length in RB.
    eapply Rle_trans; [exact RB|]. change 121%Z with (21 + 100)%Z. rewrite bpow_plus. apply Rmult_le_compat_r; [apply bpow_ge_0|exact Hc]. }
  assert (B3 : 64 * bpow radix2 121 = bpow radix2 127) by (change 64 with (bpow radix2 6); rewrite <- bpow_plus; reflexivity).
  destruct (sum32_ok xs F ltac:(lia)) as (S1 & S2); [pose proof (bpow_gt_0 radix2 121); lra|]. unfold r, plain_average32. set (s := fold_left (Bplus mode_NE) xs (B754_zero false)) in *. fold n in S2.
  assert (E23 : bpow radix2 (-23) = 2 * u32) by (unfold u32; rewrite bpow_double; reflexivity). rewrite E23 in S2.
  assert (SB : Rabs (B2R s) <= bpow radix2 127).
  { replace (B2R s) with (rsum (vals xs) + (B2R s - rsum (vals xs))) by ring. eapply Rle_trans; [apply Rabs_triang|]. pose proof (bpow_gt_0 radix2 121). nra. }
  destruct (over32_ok s (zlen xs) S1 ltac:(lia) SB) as (O1 & O2). split; [exact O1|]. rewrite IZR_len in O2. fold n in O2.
  replace (4 * h32) with ((3 * n / n + 1) * h32) by (field; lra).
  apply (average_error n u32 h32 (rabs (vals xs)) (B2R s) (rsum (vals xs)) (rabs (vals xs)) n); try assumption; try lra.
  - assert (0 <= u32 * rabs (vals xs)) by (apply Rmult_le_pos; lra). assert (0 <= n * h32) by (apply Rmult_le_pos; lra). lra.
  - rewrite Rminus_eq_0, Rabs_R0. assert (0 <= u32 * rabs (vals xs)) by (apply Rmult_le_pos; lra). assert (0 <= n * h32) by (apply Rmult_le_pos; lra). lra.
Qed.
