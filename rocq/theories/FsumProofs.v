(** Rounding errors of means and standard deviations of floats. *)
From Verif Require Import DriftFloatProofs CudaOffsetProofs.
From Verif Require Export FsumFacts.
From Coq Require Import ZifyBool Lia Reals Lra Psatz.
From Flocq Require Import Core BinarySingleNaN Plus_error Relative.
Local Open Scope R_scope.

(** ** What is expected *)
Definition vals (xs : list f32) : list R := map B2R xs.
Definition rmean (xs : list f32) : R := rsum (vals xs) / INR (length xs).
Definition magnitude (xs : list f32) : R := rabs (vals xs) / INR (length xs).
Definition mean_square (xs : list f32) : R := rsum (map (fun x => x * x) (vals xs)) / INR (length xs).
Definition variance (xs : list f32) : R := mean_square xs - rmean xs * rmean xs.
(** Numbers of magnitude at most 2^126. *)
Definition moderate (xs : list f32) : Prop := Forall (fun x => is_finite x = true /\ Rabs (B2R x) <= bpow radix2 126) xs.

(** ** Constants *)
Definition u64 : R := bpow radix2 (-53).
Definition h64 : R := bpow radix2 (-1075).
Lemma half_bpow e : / 2 * bpow radix2 e = bpow radix2 (e - 1).
Proof. replace (e - 1)%Z with (e + -1)%Z by ring. rewrite bpow_plus. change (bpow radix2 (-1)) with (/ 2). ring. Qed.
Lemma unit64 : unit_ro 53 = u64. Proof. unfold unit_ro. now rewrite half_bpow. Qed.
Lemma under64 : under 53 1024 = h64. Proof. unfold under. now rewrite half_bpow. Qed.
Lemma unit32 : unit_ro 24 = bpow radix2 (-24). Proof. unfold unit_ro. now rewrite half_bpow. Qed.
Lemma under32 : under 24 128 = bpow radix2 (-150). Proof. unfold under. now rewrite half_bpow. Qed.
Lemma u64_pos : 0 < u64. Proof. apply bpow_gt_0. Qed.
Lemma h64_pos : 0 < h64. Proof. apply bpow_gt_0. Qed.
Notation rnd64 := (round radix2 (SpecFloat.fexp 53 1024) ZnearestE).
Notation rnd32 := (round radix2 (SpecFloat.fexp 24 128) ZnearestE).
Lemma err64 x : Rabs (rnd64 x - x) <= u64 * Rabs x + h64. Proof. rewrite <- unit64, <- under64. apply rounds. reflexivity. Qed.
Lemma err32 x : Rabs (rnd32 x - x) <= bpow radix2 (-24) * Rabs x + bpow radix2 (-150). Proof. rewrite <- unit32, <- under32. apply rounds. reflexivity. Qed.
Lemma range64 x : Rabs x <= bpow radix2 1000 -> Rabs (rnd64 x) < bpow radix2 1024.
Proof.
  intros H. apply Rle_lt_trans with (bpow radix2 1000); [|apply bpow_lt; lia]. apply abs_round_le_generic; [exact (fexp_correct 53 1024 prec53)|apply valid_rnd_N| |exact H].
  change (SpecFloat.fexp 53 1024) with (FLT_exp (-1074) 53). apply generic_format_FLT_bpow; [reflexivity|lia].
Qed.

(** ** Single operations *)
Lemma over64_ok s n : is_finite s = true -> Rabs (B2R s) <= bpow radix2 1000 -> (1 <= n < 2 ^ 31)%Z ->
  is_finite (over64 s n) = true /\ Rabs (B2R (over64 s n) - B2R s / IZR n) <= u64 * Rabs (B2R s / IZR n) + h64.
Proof.
  intros F B Hn. destruct (f64_of_Z_ok n ltac:(lia)) as (Vn & Fn). assert (N1 : 1 <= IZR n) by (apply IZR_le; lia).
  pose proof (Bdiv_correct 53 1024 prec53 emax1024 mode_NE s (f64_of_Z n) ltac:(rewrite Vn; lra)) as C. rewrite Vn in C. change (round_mode mode_NE) with ZnearestE in C.
  assert (Q : Rabs (B2R s / IZR n) <= bpow radix2 1000).
  { unfold Rdiv. rewrite Rabs_mult, (Rabs_pos_eq (/ IZR n)) by (left; apply Rinv_0_lt_compat; lra). assert (I1 : / IZR n <= 1) by (rewrite <- Rinv_1; apply Rinv_le; lra).
    pose proof (Rabs_pos (B2R s)). assert (0 < / IZR n) by (apply Rinv_0_lt_compat; lra). nra. }
  rewrite Rlt_bool_true in C by (apply range64, Q). destruct C as (C1 & C2 & _). unfold over64. rewrite C2. split; [exact F|]. rewrite C1. apply err64.
Qed.
Lemma mult64_ok (a b : f64) : is_finite a = true -> is_finite b = true -> Rabs (B2R a * B2R b) <= bpow radix2 1000 ->
  is_finite (Bmult mode_NE a b) = true /\ B2R (Bmult mode_NE a b) = rnd64 (B2R a * B2R b).
Proof.
  intros Fa Fb B. pose proof (Bmult_correct 53 1024 prec53 emax1024 mode_NE a b) as C. change (round_mode mode_NE) with ZnearestE in C. rewrite Rlt_bool_true in C by (apply range64, B).
  destruct C as (C1 & C2 & _). rewrite Fa, Fb in C2. auto.
Qed.
Lemma minus64_ok (a b : f64) : is_finite a = true -> is_finite b = true -> Rabs (B2R a - B2R b) <= bpow radix2 1000 ->
  is_finite (Bminus mode_NE a b) = true /\ B2R (Bminus mode_NE a b) = rnd64 (B2R a - B2R b).
Proof.
  intros Fa Fb B. pose proof (Bminus_correct 53 1024 prec53 emax1024 mode_NE a b Fa Fb) as C. change (round_mode mode_NE) with ZnearestE in C. rewrite Rlt_bool_true in C by (apply range64, B).
  destruct C as (C1 & C2 & _). auto.
Qed.
Lemma narrow_range (x : f64) : is_finite x = true -> Rabs (B2R x) <= bpow radix2 127 -> is_finite (narrow x) = true /\ B2R (narrow x) = rnd32 (B2R x).
Proof.
  intros Hf Hb. destruct x as [s|s| |s m e H]; cbn [is_finite] in Hf; try discriminate.
  - cbn [narrow is_finite B2R]. split; [reflexivity|]. symmetry. apply round_0. apply valid_rnd_N.
  - cbn [narrow].
    pose proof (binary_normalize_correct 24 128 prec24 emax128 mode_NE (cond_Zopp s (Zpos m)) e s) as C. cbv zeta in C.
    change (F2R (Float radix2 (cond_Zopp s (Z.pos m)) e)) with (B2R (B754_finite s m e H)) in C. change (round_mode mode_NE) with ZnearestE in C.
    rewrite Rlt_bool_true in C; [tauto|].
    apply Rle_lt_trans with (bpow radix2 127); [|apply bpow_lt; lia]. apply abs_round_le_generic; [exact (fexp_correct 24 128 prec24)|apply valid_rnd_N| |exact Hb].
    change (SpecFloat.fexp 24 128) with (FLT_exp (-149) 24). apply generic_format_FLT_bpow; [reflexivity|lia].
Qed.
(** The product of two floats is exact in double precision. *)
Lemma square64_ok x : is_finite x = true -> is_finite (square64 x) = true /\ B2R (square64 x) = B2R x * B2R x.
Proof.
  intros F. destruct (widen_ok x F) as (V & Fw). destruct (f32_parts x F) as (m & e & E & Hm & He).
  assert (B : Rabs (B2R x * B2R x) <= bpow radix2 1000).
  { rewrite Rabs_mult. assert (Bx : Rabs (B2R x) <= bpow radix2 128) by (left; apply abs_B2R_lt_emax). apply Rle_trans with (bpow radix2 128 * bpow radix2 128).
    - apply Rmult_le_compat; try apply Rabs_pos; exact Bx.
    - rewrite <- bpow_plus. apply bpow_le. lia. }
  unfold square64. destruct (mult64_ok (widen x) (widen x) Fw Fw ltac:(now rewrite V)) as (Fm & Em). split; [exact Fm|]. rewrite Em, V. apply round_generic; [apply valid_rnd_N|].
  rewrite E. replace (F2R (Float radix2 m e) * F2R (Float radix2 m e)) with (F2R (Float radix2 (m * m) (e + e))).
  - change (SpecFloat.fexp 53 1024) with (FLT_exp (-1074) 53). apply generic_format_FLT. exists (Float radix2 (m * m) (e + e)); [reflexivity| |cbn; lia].
    cbn [Fnum]. change (radix2 ^ 53)%Z with (2 ^ 53)%Z. nia.
  - unfold F2R. cbn [Fnum Fexp]. rewrite mult_IZR, bpow_plus. ring.
Qed.

(** ** Sums of values and of squares *)
Lemma moderate_finite xs : moderate xs -> Forall (fun x => is_finite x = true) xs.
Proof. apply Forall_impl. tauto. Qed.
Lemma widen_vals xs : Forall (fun x => is_finite x = true) xs -> map B2R (map widen xs) = vals xs /\ Forall (fun y => is_finite y = true) (map widen xs).
Proof.
  intros H. unfold vals. induction H as [|x xs Hx H (E & F)]; [split; [reflexivity|constructor]|]. destruct (widen_ok x Hx) as (V & Fw). cbn [map]. rewrite V, E. split; [reflexivity|now constructor].
Qed.
Lemma square_vals xs : Forall (fun x => is_finite x = true) xs -> map B2R (map square64 xs) = map (fun x => x * x) (vals xs) /\ Forall (fun y => is_finite y = true) (map square64 xs).
Proof.
  intros H. unfold vals. induction H as [|x xs Hx H (E & F)]; [split; [reflexivity|constructor]|]. destruct (square64_ok x Hx) as (Fw & V). cbn [map]. rewrite V, E. split; [reflexivity|now constructor].
Qed.
Lemma fold_add64 xs : forall s, fold_left add64 xs s = fold_left (Bplus mode_NE) (map widen xs) s.
Proof. induction xs as [|x xs IH]; intros s; [reflexivity|apply IH]. Qed.
Lemma fold_both xs : forall s t, fold_left add_both xs (s, t) = (fold_left (Bplus mode_NE) (map widen xs) s, fold_left (Bplus mode_NE) (map square64 xs) t).
Proof. induction xs as [|x xs IH]; intros s t; [reflexivity|]. cbn [fold_left map]. unfold add_both at 2. cbn [fst snd]. apply IH. Qed.
Lemma rabs_bound B xs : Forall (fun x => Rabs x <= B) xs -> rabs xs <= INR (length xs) * B.
Proof.
  induction 1 as [|x xs Hx H IH]; [rewrite rabs_nil; cbn; lra|]. rewrite rabs_cons. cbn [length]. rewrite S_INR. lra.
Qed.
Lemma moderate_vals xs : moderate xs -> Forall (fun x => Rabs x <= bpow radix2 126) (vals xs).
Proof. intros H. unfold vals. apply Forall_map. apply Forall_impl with (2 := H). tauto. Qed.
Lemma moderate_squares xs : moderate xs -> Forall (fun x => Rabs x <= bpow radix2 252) (map (fun x => x * x) (vals xs)).
Proof.
  intros H. apply Forall_map. apply Forall_impl with (2 := moderate_vals xs H). intros x Hx. rewrite Rabs_mult. change 252%Z with (126 + 126)%Z. rewrite bpow_plus. apply Rmult_le_compat; try apply Rabs_pos; exact Hx.
Qed.
Lemma count_R (xs : list f32) : (Z.of_nat (length xs) < 2 ^ 31)%Z -> INR (length xs) <= bpow radix2 31.
Proof. intros H. rewrite INR_IZR_INZ. rewrite <- (IZR_pow2 31) by lia. apply IZR_le. lia. Qed.
Lemma small22 : bpow radix2 (-22) <= / 4000000. Proof. change (bpow radix2 (-22)) with (/ IZR 4194304). lra. Qed.
Lemma count_u n : INR n <= bpow radix2 31 -> INR n * u64 <= / 4000000.
Proof. intros H. eapply Rle_trans; [|exact small22]. change (-22)%Z with (31 + -53)%Z. rewrite bpow_plus. apply Rmult_le_compat_r; [left; apply u64_pos|exact H]. Qed.
Lemma sum64_ok (ys : list f64) B : Forall (fun y => is_finite y = true) ys -> (Z.of_nat (length ys) < 2 ^ 31)%Z -> (B <= 900)%Z ->
  Forall (fun x => Rabs x <= bpow radix2 B) (map B2R ys) ->
  is_finite (fold_left (Bplus mode_NE) ys (B754_zero false)) = true /\
  Rabs (B2R (fold_left (Bplus mode_NE) ys (B754_zero false)) - rsum (map B2R ys)) <= 2 * INR (length ys) * u64 * rabs (map B2R ys) /\
  rabs (map B2R ys) <= bpow radix2 (31 + B).
Proof.
  intros F Hn HB Hb. assert (Hc : INR (length ys) <= bpow radix2 31) by (rewrite INR_IZR_INZ, <- (IZR_pow2 31) by lia; apply IZR_le; lia).
  pose proof (count_u _ Hc) as Hu. pose proof (rabs_bound _ _ Hb) as RB. rewrite map_length in RB.
  assert (RB' : rabs (map B2R ys) <= bpow radix2 (31 + B)). { rewrite bpow_plus. eapply Rle_trans; [exact RB|]. apply Rmult_le_compat_r; [apply bpow_ge_0|exact Hc]. }
  destruct (sum_from_zero 53 1024 prec53 emax1024 ys F) as (A1 & A2).
  - rewrite unit64. refine (Rle_trans _ _ _ Hu _). lra.
  - apply Rle_lt_trans with (bpow radix2 (1 + (31 + B))); [rewrite (bpow_plus radix2 1); change (bpow radix2 1) with 2; lra|]. apply bpow_lt. lia.
  - rewrite unit64 in A2. auto.
Qed.
(** A quotient of a sum. *)
Lemma quotient_error n S T A q : 1 <= n -> 2 * n * u64 <= 1 -> Rabs T <= A -> Rabs (S - T) <= 2 * n * u64 * A -> Rabs (q - S / n) <= u64 * Rabs (S / n) + h64 ->
  Rabs (q - T / n) <= (2 * n + 2) * u64 * (A / n) + h64.
Proof.
  intros Hn Hu HT HS Hq. pose proof u64_pos as U. assert (I : 0 < / n) by (apply Rinv_0_lt_compat; lra). unfold Rdiv in *.
  assert (PA : 0 <= A) by (pose proof (Rabs_pos T); lra).
  assert (D : Rabs (S * / n - T * / n) <= 2 * n * u64 * (A * / n)).
  { replace (S * / n - T * / n) with ((S - T) * / n) by ring. rewrite Rabs_mult, (Rabs_pos_eq (/ n)) by lra. replace (2 * n * u64 * (A * / n)) with (2 * n * u64 * A * / n) by ring. apply Rmult_le_compat_r; lra. }
  assert (Tn : Rabs (T * / n) <= A * / n) by (rewrite Rabs_mult, (Rabs_pos_eq (/ n)) by lra; apply Rmult_le_compat_r; lra).
  assert (Sn : Rabs (S * / n) <= 2 * (A * / n)).
  { replace (S * / n) with ((S * / n - T * / n) + T * / n) by ring. eapply Rle_trans; [apply Rabs_triang|]. assert (0 <= A * / n) by nra. nra. }
  replace (q - T * / n) with ((q - S * / n) + (S * / n - T * / n)) by ring. eapply Rle_trans; [apply Rabs_triang|]. nra.
Qed.
Lemma IZR_len (xs : list f32) : IZR (zlen xs) = INR (length xs). Proof. unfold zlen. symmetry. apply INR_IZR_INZ. Qed.
Lemma first_sum xs : moderate xs -> (1 <= zlen xs < 2 ^ 31)%Z -> let s := fold_left (Bplus mode_NE) (map widen xs) (B754_zero false) in
  is_finite (over64 s (zlen xs)) = true /\ Rabs (B2R (over64 s (zlen xs)) - rmean xs) <= (2 * INR (length xs) + 2) * u64 * magnitude xs + h64.
Proof.
  intros Hm Hn s. destruct (widen_vals xs (moderate_finite xs Hm)) as (E & F). pose proof (moderate_vals xs Hm) as Hv.
  destruct (sum64_ok (map widen xs) 126 F) as (S1 & S2 & S3); [rewrite map_length; unfold zlen in Hn; lia|lia|rewrite E; exact Hv|]. fold s in S1, S2. rewrite E, map_length in S2. rewrite E in S3.
  assert (Hc : INR (length xs) <= bpow radix2 31) by (apply count_R; unfold zlen in Hn; lia). pose proof (count_u _ Hc) as Hu.
  assert (N1 : 1 <= INR (length xs)) by (rewrite <- IZR_len; apply IZR_le; lia).
  destruct (over64_ok s (zlen xs) S1) as (O1 & O2); [|exact Hn|].
  - pose proof (rsum_abs (vals xs)) as RA. apply Rle_trans with (2 * bpow radix2 (31 + 126)).
    + pose proof (rabs_nonneg (vals xs)). replace (B2R s) with ((B2R s - rsum (vals xs)) + rsum (vals xs)) by ring. eapply Rle_trans; [apply Rabs_triang|]. nra.
    + change 2 with (bpow radix2 1). rewrite <- bpow_plus. apply bpow_le. lia.
  - split; [exact O1|]. rewrite IZR_len in O2. unfold rmean, magnitude. apply (quotient_error _ (B2R s)); [exact N1|nra|apply rsum_abs|exact S2|exact O2].
Qed.
Lemma rabs_squares xs : rabs (map (fun x => x * x) xs) = rsum (map (fun x => x * x) xs).
Proof. induction xs as [|x xs IH]; [reflexivity|]. cbn [map]. rewrite rabs_cons, rsum_cons, IH. rewrite Rabs_pos_eq by nra. reflexivity. Qed.
Lemma second_sum xs : moderate xs -> (1 <= zlen xs < 2 ^ 31)%Z -> let s := fold_left (Bplus mode_NE) (map square64 xs) (B754_zero false) in
  is_finite (over64 s (zlen xs)) = true /\ Rabs (B2R (over64 s (zlen xs)) - mean_square xs) <= (2 * INR (length xs) + 2) * u64 * mean_square xs + h64.
Proof.
  intros Hm Hn s. destruct (square_vals xs (moderate_finite xs Hm)) as (E & F). pose proof (moderate_squares xs Hm) as Hv.
  destruct (sum64_ok (map square64 xs) 252 F) as (S1 & S2 & S3); [rewrite map_length; unfold zlen in Hn; lia|lia|rewrite E; exact Hv|]. fold s in S1, S2. rewrite E, map_length in S2. rewrite E in S3.
  assert (Hc : INR (length xs) <= bpow radix2 31) by (apply count_R; unfold zlen in Hn; lia). pose proof (count_u _ Hc) as Hu.
  assert (N1 : 1 <= INR (length xs)) by (rewrite <- IZR_len; apply IZR_le; lia).
  pose proof (rsum_abs (map (fun x => x * x) (vals xs))) as RA.
  destruct (over64_ok s (zlen xs) S1) as (O1 & O2); [|exact Hn|].
  - apply Rle_trans with (2 * bpow radix2 (31 + 252)).
    + pose proof (rabs_nonneg (map (fun x => x * x) (vals xs))). set (ys := map (fun x => x * x) (vals xs)) in *. replace (B2R s) with ((B2R s - rsum ys) + rsum ys) by ring. eapply Rle_trans; [apply Rabs_triang|]. nra.
    + change 2 with (bpow radix2 1). rewrite <- bpow_plus. apply bpow_le. lia.
  - split; [exact O1|]. rewrite IZR_len in O2. unfold mean_square. rewrite <- (rabs_squares (vals xs)) at 2.
    apply (quotient_error _ (B2R s)); [exact N1|nra|exact RA|exact S2|exact O2].
Qed.

(** ** The mean *)
Lemma magnitude_bound xs : moderate xs -> (1 <= zlen xs)%Z -> 0 <= magnitude xs <= bpow radix2 126 /\ Rabs (rmean xs) <= magnitude xs.
Proof.
  intros Hm Hn. assert (N1 : 1 <= INR (length xs)) by (rewrite <- IZR_len; apply IZR_le; lia). assert (I : 0 < / INR (length xs)) by (apply Rinv_0_lt_compat; lra).
  pose proof (rabs_bound _ _ (moderate_vals xs Hm)) as RB. unfold vals in RB at 2. rewrite map_length in RB. unfold magnitude, rmean, Rdiv. pose proof (rabs_nonneg (vals xs)) as P. pose proof (rsum_abs (vals xs)) as S.
  split; [split|].
  - apply Rmult_le_pos; lra.
  - apply Rmult_le_reg_r with (INR (length xs)); [lra|]. rewrite Rmult_assoc, Rinv_l by lra. rewrite Rmult_1_r, (Rmult_comm (bpow radix2 126)). exact RB.
  - rewrite Rabs_mult, (Rabs_pos_eq (/ _)) by lra. apply Rmult_le_compat_r; lra.
Qed.
Lemma bpow_double e : 2 * bpow radix2 e = bpow radix2 (e + 1).
Proof. rewrite bpow_plus. change (bpow radix2 1) with 2. ring. Qed.
Lemma rounded_mean n a mu q r u v h k : 0 <= a -> 0 <= n -> 0 <= u -> 0 <= v <= 1 -> 0 <= h -> 2 * h <= k -> Rabs (q - mu) <= (2 * n + 2) * u * a + h -> Rabs (r - q) <= v * Rabs q + k ->
  Rabs (r - mu) <= v * Rabs mu + (n + 1) * (4 * u) * a + 2 * k.
Proof.
  intros Ha Hn Hu Hv Hh Hk Hq Hr. replace (r - mu) with ((r - q) + (q - mu)) by ring. eapply Rle_trans; [apply Rabs_triang|].
  assert (Q : Rabs q <= Rabs mu + ((2 * n + 2) * u * a + h)). { replace q with (mu + (q - mu)) at 1 by ring. eapply Rle_trans; [apply Rabs_triang|]. lra. }
  assert (E : 0 <= (2 * n + 2) * u * a + h). { assert (0 <= (2 * n + 2) * u) by (apply Rmult_le_pos; lra). assert (0 <= (2 * n + 2) * u * a) by (apply Rmult_le_pos; lra). lra. }
  set (e := (2 * n + 2) * u * a + h) in *. assert (V : v * Rabs q <= v * Rabs mu + e) by (assert (v * Rabs q <= v * (Rabs mu + e)) by (apply Rmult_le_compat_l; lra); nra).
  assert (X : 2 * e = (n + 1) * (4 * u) * a + 2 * h) by (unfold e; ring). lra.
Qed.
Lemma v_bounds : 0 <= bpow radix2 (-24) <= 1.
Proof. split; [apply bpow_ge_0|]. change 1 with (bpow radix2 0). apply bpow_le. lia. Qed.
Lemma h_small : 2 * h64 <= bpow radix2 (-150).
Proof. unfold h64. rewrite bpow_double. apply bpow_le. lia. Qed.
Lemma narrow_close q mu a n : is_finite q = true -> 0 <= a <= bpow radix2 126 -> Rabs mu <= a -> 0 <= n -> (2 * n + 2) * u64 <= / 2 -> Rabs (B2R q - mu) <= (2 * n + 2) * u64 * a + h64 ->
  is_finite (narrow q) = true /\ Rabs (B2R (narrow q) - mu) <= bpow radix2 (-24) * Rabs mu + (n + 1) * bpow radix2 (-51) * a + bpow radix2 (-149).
Proof.
  intros F Ha Hmu Hn Hu Hq.
  assert (B : Rabs (B2R q) <= bpow radix2 127).
  { change 127%Z with (126 + 1)%Z. rewrite <- bpow_double. replace (B2R q) with ((B2R q - mu) + mu) by ring. eapply Rle_trans; [apply Rabs_triang|].
    assert (T : h64 <= / 2 * bpow radix2 126) by (rewrite half_bpow; apply bpow_le; lia). assert ((2 * n + 2) * u64 * a <= / 2 * a) by (apply Rmult_le_compat_r; lra). lra. }
  destruct (narrow_range q F B) as (N1 & N2). split; [exact N1|]. rewrite N2.
  change (-149)%Z with (-150 + 1)%Z. rewrite <- bpow_double. replace (bpow radix2 (-51)) with (4 * u64) by (change 4 with (bpow radix2 2); unfold u64; rewrite <- bpow_plus; reflexivity).
  apply (rounded_mean n a mu (B2R q) _ u64 _ h64); [lra|exact Hn|left; apply u64_pos|exact v_bounds|left; apply h64_pos|exact h_small|exact Hq|apply err32].
Qed.
Lemma mean64_ok xs : moderate xs -> (1 <= zlen xs < 2 ^ 31)%Z -> let r := mean64 (fold_left add64 xs (B754_zero false)) (zlen xs) in
  is_finite r = true /\ Rabs (B2R r - rmean xs) <= bpow radix2 (-24) * Rabs (rmean xs) + (INR (length xs) + 1) * bpow radix2 (-51) * magnitude xs + bpow radix2 (-149).
Proof.
  intros Hm Hn r. unfold r, mean64. rewrite fold_add64. destruct (first_sum xs Hm Hn) as (F & E). destruct (magnitude_bound xs Hm ltac:(lia)) as (A & M).
  assert (Hc : INR (length xs) <= bpow radix2 31) by (apply count_R; unfold zlen in Hn; lia). pose proof (count_u _ Hc) as Hu.
  assert (N1 : 1 <= INR (length xs)) by (rewrite <- IZR_len; apply IZR_le; lia). pose proof u64_pos.
  apply narrow_close; try assumption; [lra|]. nra.
Qed.

(** ** The standard deviation *)
Lemma cauchy xs : rabs xs * rabs xs <= INR (length xs) * rsum (map (fun x => x * x) xs).
Proof.
  induction xs as [|x xs IH]; [rewrite rabs_nil; cbn [length INR]; lra|]. cbn [map length]. rewrite rabs_cons, rsum_cons, S_INR.
  pose proof (rabs_nonneg xs) as S0. pose proof (rabs_squares xs) as SQ. pose proof (rabs_nonneg (map (fun x => x * x) xs)) as P0. rewrite SQ in P0. pose proof (pos_INR (length xs)) as N0.
  pose proof (Rabs_pos x) as X0. replace (x * x) with (Rabs x * Rabs x) by (rewrite <- Rabs_mult; apply Rabs_pos_eq; nra).
  set (y := Rabs x) in *. set (s := rabs xs) in *. set (p := rsum (map (fun x => x * x) xs)) in *.
  destruct xs as [|z zs].
  - assert (s = 0) by reflexivity. assert (p = 0) by reflexivity. cbn [length INR]. nra.
  - assert (N1 : 1 <= INR (length (z :: zs))) by (cbn [length]; rewrite S_INR; pose proof (pos_INR (length zs)); lra).
    set (n := INR (length (z :: zs))) in *. clearbody n s p y.
    assert (K : 2 * s * y <= p + n * (y * y)).
    { apply Rmult_le_reg_l with n; [lra|]. pose proof (Rle_0_sqr (n * y - s)) as Q. unfold Rsqr in Q. nra. }
    nra.
Qed.
Lemma variance_error (Q a mu u h e m q2 p d : R) : 0 <= a -> Rabs mu <= a -> a * a <= Q -> 0 <= u <= / 1000 -> 0 <= h <= / 1000 -> 0 <= e <= / 1000 ->
  Rabs (m - mu) <= e * a + h -> Rabs (q2 - Q) <= e * Q + h -> Rabs (p - m * m) <= u * Rabs (m * m) + h -> Rabs (d - (q2 - p)) <= u * Rabs (q2 - p) + h ->
  Rabs (d - (Q - mu * mu)) <= (7 / 2 * e + 5 * u) * Q + 10 * h * (3 * a + 1) /\ Rabs m <= 2 * a + 1 /\ Rabs (q2 - p) <= 3 * Q + 4 * (3 * a + 1).
Proof.
  intros Ha Hmu HQ Hu Hh He Hm Hq Hp Hd.
  assert (Q0 : 0 <= Q) by nra. set (g := 3 * a + 1). assert (g1 : 1 <= g) by (unfold g; lra).
  assert (ea : 0 <= e * a <= / 1000 * a) by (split; [apply Rmult_le_pos; lra|apply Rmult_le_compat_r; lra]).
  assert (M : Rabs m <= a + (e * a + h)) by (replace m with (mu + (m - mu)) by ring; eapply Rle_trans; [apply Rabs_triang|]; lra).
  assert (S1 : Rabs (m * m - mu * mu) <= 21 / 10 * e * Q + h * g).
  { replace (m * m - mu * mu) with ((m - mu) * (m + mu)) by ring. rewrite Rabs_mult.
    assert (T : Rabs (m + mu) <= 21 / 10 * a + h) by (eapply Rle_trans; [apply Rabs_triang|]; lra).
    apply Rle_trans with ((e * a + h) * (21 / 10 * a + h)); [apply Rmult_le_compat; try apply Rabs_pos; assumption|].
    assert (E1 : e * (a * a) <= e * Q) by (apply Rmult_le_compat_l; lra). assert (hea : h * (e * a) <= h * (/ 1000 * a)) by (apply Rmult_le_compat_l; lra). assert (hh : h * h <= h * / 1000) by (apply Rmult_le_compat_l; lra).
    assert (ha : 0 <= h * a) by (apply Rmult_le_pos; lra). unfold g. nra. }
  assert (eQ : 0 <= e * Q <= / 1000 * Q) by (split; [apply Rmult_le_pos; lra|apply Rmult_le_compat_r; lra]).
  assert (hg : 0 <= h * g) by (apply Rmult_le_pos; lra). assert (hg1 : h <= h * g) by nra.
  assert (MU : mu * mu <= Q). { apply Rle_trans with (a * a); [|exact HQ]. rewrite <- (Rabs_pos_eq (mu * mu)) by nra. rewrite Rabs_mult. apply Rmult_le_compat; try apply Rabs_pos; assumption. }
  assert (MM : Rabs (m * m) <= 11 / 10 * Q + h * g).
  { replace (m * m) with (mu * mu + (m * m - mu * mu)) by ring. eapply Rle_trans; [apply Rabs_triang|]. rewrite (Rabs_pos_eq (mu * mu)) by nra. lra. }
  assert (S2 : Rabs (p - m * m) <= 11 / 10 * (u * Q) + 2 * (h * g)).
  { eapply Rle_trans; [exact Hp|]. assert (u * Rabs (m * m) <= u * (11 / 10 * Q + h * g)) by (apply Rmult_le_compat_l; lra). assert (u * (h * g) <= / 1000 * (h * g)) by (apply Rmult_le_compat_r; lra). lra. }
  assert (uQ : 0 <= u * Q <= / 1000 * Q) by (split; [apply Rmult_le_pos; lra|apply Rmult_le_compat_r; lra]).
  assert (S3 : Rabs (q2 - p) <= 3 * Q + 4 * (h * g)).
  { replace (q2 - p) with ((q2 - Q) + Q + (- (p - m * m)) + (- (m * m))) by ring.
    eapply Rle_trans; [apply Rabs_triang|]. rewrite Rabs_Ropp. eapply Rle_trans; [apply Rplus_le_compat_r, Rabs_triang|]. rewrite Rabs_Ropp. eapply Rle_trans; [apply Rplus_le_compat_r, Rplus_le_compat_r, Rabs_triang|]. rewrite (Rabs_pos_eq Q) by lra. lra. }
  assert (S4 : Rabs (d - (q2 - p)) <= 3 * (u * Q) + 2 * (h * g)).
  { eapply Rle_trans; [exact Hd|]. assert (u * Rabs (q2 - p) <= u * (3 * Q + 4 * (h * g))) by (apply Rmult_le_compat_l; lra). assert (u * (h * g) <= / 1000 * (h * g)) by (apply Rmult_le_compat_r; lra). lra. }
  split; [|split].
  - replace (d - (Q - mu * mu)) with ((d - (q2 - p)) + (q2 - Q) + (- (p - m * m)) + (- (m * m - mu * mu))) by ring.
    eapply Rle_trans; [apply Rabs_triang|]. rewrite Rabs_Ropp. eapply Rle_trans; [apply Rplus_le_compat_r, Rabs_triang|]. rewrite Rabs_Ropp. eapply Rle_trans; [apply Rplus_le_compat_r, Rplus_le_compat_r, Rabs_triang|].
    assert (Z1 : (7 / 2 * e + 5 * u) * Q + 10 * h * g = 7 / 2 * (e * Q) + 5 * (u * Q) + 10 * (h * g)) by ring. rewrite Z1.
    nra.
  - lra.
  - eapply Rle_trans; [exact S3|]. assert (h * g <= / 1000 * g) by (apply Rmult_le_compat_r; lra). lra.
Qed.
(** How far the computed variance may be from the exact one. *)
Definition slack (k n Q : R) : R := (n + k) * bpow radix2 (-50) * Q + bpow radix2 (-900).
Lemma eight_u : bpow radix2 (-50) = 8 * u64.
Proof. change 8 with (bpow radix2 3). unfold u64. rewrite <- bpow_plus. reflexivity. Qed.
Lemma u64_small : u64 <= / 1000000.
Proof. unfold u64. change (bpow radix2 (-53)) with (/ IZR 9007199254740992). lra. Qed.
Lemma h64_small : h64 <= / 1000000.
Proof. eapply Rle_trans; [|exact u64_small]. apply bpow_le. lia. Qed.
Lemma tiny a c : 0 <= a <= bpow radix2 126 -> 0 <= c <= bpow radix2 40 -> c * h64 * (3 * a + 1) <= bpow radix2 (-900).
Proof.
  intros Ha Hc. assert (A : 3 * a + 1 <= bpow radix2 128).
  { assert (1 <= bpow radix2 126) by (change 1 with (bpow radix2 0); apply bpow_le; lia). assert (E : bpow radix2 128 = 4 * bpow radix2 126) by (change 4 with (bpow radix2 2); rewrite <- bpow_plus; reflexivity). lra. }
  pose proof h64_pos. apply Rle_trans with (bpow radix2 40 * h64 * bpow radix2 128).
  - apply Rmult_le_compat; [apply Rmult_le_pos; lra|lra| |exact A]. apply Rmult_le_compat_r; lra.
  - unfold h64. rewrite <- !bpow_plus. apply bpow_le. lia.
Qed.
Lemma square_magnitude xs : (1 <= zlen xs)%Z -> magnitude xs * magnitude xs <= mean_square xs.
Proof.
  intros Hn. assert (N1 : 1 <= INR (length xs)) by (rewrite <- IZR_len; apply IZR_le; lia). assert (I : 0 < / INR (length xs)) by (apply Rinv_0_lt_compat; lra).
  pose proof (cauchy (vals xs)) as C. unfold vals in C at 3. rewrite map_length in C. unfold magnitude, mean_square, Rdiv.
  set (n := INR (length xs)) in *. change (INR (length (xs : list (binary_float 24 128)))) with n in C. set (s := rabs (vals xs)) in *. set (p := rsum (map (fun x => x * x) (vals xs))) in *.
  replace (s * / n * (s * / n)) with (s * s * (/ n * / n)) by ring. replace (p * / n) with (n * p * (/ n * / n)) by (field; lra). apply Rmult_le_compat_r; [|exact C]. apply Rmult_le_pos; lra.
Qed.
Lemma mean_square_bound xs : moderate xs -> (1 <= zlen xs)%Z -> 0 <= mean_square xs <= bpow radix2 252.
Proof.
  intros Hm Hn. assert (N1 : 1 <= INR (length xs)) by (rewrite <- IZR_len; apply IZR_le; lia). assert (I : 0 < / INR (length xs)) by (apply Rinv_0_lt_compat; lra).
  pose proof (rabs_bound _ _ (moderate_squares xs Hm)) as RB. rewrite map_length in RB. unfold vals in RB at 2. rewrite map_length in RB. rewrite rabs_squares in RB.
  pose proof (rabs_nonneg (map (fun x => x * x) (vals xs))) as P. rewrite rabs_squares in P. unfold mean_square, Rdiv. split; [apply Rmult_le_pos; lra|].
  apply Rmult_le_reg_r with (INR (length xs)); [lra|]. rewrite Rmult_assoc, Rinv_l by lra. rewrite Rmult_1_r, (Rmult_comm (bpow radix2 252)). exact RB.
Qed.
(** A subtraction and a square, given the two moments. *)
Lemma difference_ok (m q : f64) Q a mu e : is_finite m = true -> is_finite q = true -> 0 <= a <= bpow radix2 126 -> Rabs mu <= a -> a * a <= Q -> Q <= bpow radix2 252 -> 0 <= e <= / 1000 ->
  forall h, h64 <= h <= / 1000 -> Rabs (B2R m - mu) <= e * a + h -> Rabs (B2R q - Q) <= e * Q + h ->
  is_finite (Bminus mode_NE q (Bmult mode_NE m m)) = true /\ Rabs (B2R (Bminus mode_NE q (Bmult mode_NE m m)) - (Q - mu * mu)) <= (7 / 2 * e + 5 * u64) * Q + 10 * h * (3 * a + 1).
Proof.
  intros Fm Fq Ha Hmu HQ HB He h Hh Em Eq. pose proof u64_pos as U. pose proof u64_small as US. pose proof h64_pos as HP.
  assert (B1 : 1 <= bpow radix2 126) by (change 1 with (bpow radix2 0); apply bpow_le; lia).
  assert (B2 : bpow radix2 126 * bpow radix2 126 = bpow radix2 252) by (rewrite <- bpow_plus; reflexivity).
  assert (B3 : 100 * bpow radix2 252 <= bpow radix2 1000).
  { apply Rle_trans with (bpow radix2 7 * bpow radix2 252); [apply Rmult_le_compat_r; [apply bpow_ge_0|]; change (bpow radix2 7) with (IZR 128); lra|]. rewrite <- bpow_plus. apply bpow_le. lia. }
  assert (M : Rabs (B2R m) <= 2 * a + 1). { replace (B2R m) with (mu + (B2R m - mu)) by ring. eapply Rle_trans; [apply Rabs_triang|]. assert (e * a <= / 1000 * a) by (apply Rmult_le_compat_r; lra). lra. }
  destruct (mult64_ok m m Fm Fm) as (P1 & P2).
  { rewrite Rabs_mult. apply Rle_trans with ((3 * bpow radix2 126) * (3 * bpow radix2 126)); [apply Rmult_le_compat; try apply Rabs_pos; lra|]. set (b := bpow radix2 126) in *. nra. }
  pose proof (err64 (B2R m * B2R m)) as EP. rewrite <- P2 in EP.
  assert (EP' : Rabs (B2R (Bmult mode_NE m m) - B2R m * B2R m) <= u64 * Rabs (B2R m * B2R m) + h) by lra.
  destruct (variance_error Q a mu u64 h e (B2R m) (B2R q) (B2R (Bmult mode_NE m m)) (rnd64 (B2R q - B2R (Bmult mode_NE m m))) ltac:(lra) Hmu HQ ltac:(lra) ltac:(lra) He Em Eq EP') as (V1 & _ & V3).
  { eapply Rle_trans; [apply err64|]. lra. }
  destruct (minus64_ok q (Bmult mode_NE m m) Fq P1) as (D1 & D2).
  { eapply Rle_trans; [exact V3|]. apply Rle_trans with (100 * bpow radix2 252); [|exact B3]. set (b := bpow radix2 126) in *. nra. }
  split; [exact D1|]. rewrite D2. exact V1.
Qed.
Lemma variance64_ok xs : moderate xs -> (1 <= zlen xs < 2 ^ 31)%Z -> let d := variance64 (fold_left add_both xs (B754_zero false, B754_zero false)) (zlen xs) in
  is_finite d = true /\ Rabs (B2R d - variance xs) <= slack 2 (INR (length xs)) (mean_square xs).
Proof.
  intros Hm Hn d. unfold d, variance64. rewrite fold_both. cbn [fst snd]. destruct (first_sum xs Hm Hn) as (F1 & E1). destruct (second_sum xs Hm Hn) as (F2 & E2). destruct (magnitude_bound xs Hm ltac:(lia)) as (A & M).
  destruct (mean_square_bound xs Hm ltac:(lia)) as (Q0 & QB). pose proof (square_magnitude xs ltac:(lia)) as AQ.
  assert (Hc : INR (length xs) <= bpow radix2 31) by (apply count_R; unfold zlen in Hn; lia). pose proof (count_u _ Hc) as Hu.
  assert (N1 : 1 <= INR (length xs)) by (rewrite <- IZR_len; apply IZR_le; lia). pose proof u64_pos as U. pose proof u64_small as US. pose proof h64_small as HS.
  set (n := INR (length xs)) in *.
  destruct (difference_ok _ _ (mean_square xs) (magnitude xs) (rmean xs) ((2 * n + 2) * u64) F1 F2 A M AQ QB ltac:(nra) h64 ltac:(lra) E1 E2) as (D1 & D2).
  split; [exact D1|]. eapply Rle_trans; [exact D2|]. unfold slack. apply Rplus_le_compat.
  - apply Rmult_le_compat_r; [exact Q0|]. rewrite eight_u. nra.
  - apply tiny; [exact A|]. split; [lra|]. change 10 with (IZR 10). apply Rle_trans with (bpow radix2 4); [change (bpow radix2 4) with (IZR 16); lra|apply bpow_le; lia].
Qed.

(** ** Scaled accumulation *)
Lemma scale64_ok n : (1 <= n < 2 ^ 31)%Z -> is_finite (scale64 n) = true /\ Rabs (B2R (scale64 n) - / IZR n) <= 2 * u64 * / IZR n.
Proof.
  intros Hn. destruct (f64_of_Z_ok 1 ltac:(lia)) as (V1 & F1). assert (B : Rabs (B2R (f64_of_Z 1)) <= bpow radix2 1000). { rewrite V1, Rabs_pos_eq by lra. change 1 with (bpow radix2 0). apply bpow_le. lia. }
  destruct (over64_ok (f64_of_Z 1) n F1 B Hn) as (A1 & A2). rewrite V1 in A2. unfold Rdiv in A2. rewrite Rmult_1_l in A2. split; [exact A1|]. assert (N1 : 1 <= IZR n) by (apply IZR_le; lia).
  assert (I : 0 < / IZR n) by (apply Rinv_0_lt_compat; lra). rewrite (Rabs_pos_eq (/ IZR n)) in A2 by lra.
  assert (H : h64 <= u64 * / IZR n).
  { apply Rle_trans with (u64 * bpow radix2 (-31)); [unfold h64, u64; rewrite <- bpow_plus; apply bpow_le; lia|]. apply Rmult_le_compat_l; [left; apply u64_pos|]. change (-31)%Z with (- (31))%Z. rewrite bpow_opp. apply Rinv_le; [lra|].
    rewrite <- (IZR_pow2 31) by lia. apply IZR_le. lia. }
  change (over64 (f64_of_Z 1) n) with (scale64 n) in A2. lra.
Qed.
Lemma product_error x s y i u h : 0 <= i -> 0 <= u <= / 10 -> 0 <= h -> Rabs (s - i) <= 2 * u * i -> Rabs (y - x * s) <= u * Rabs (x * s) + h -> Rabs (y - x * i) <= 4 * u * (Rabs x * i) + h.
Proof.
  intros Hi Hu Hh Hs Hy. pose proof (Rabs_pos x) as X. assert (XI : 0 <= Rabs x * i) by (apply Rmult_le_pos; assumption).
  assert (A : Rabs (x * s - x * i) <= 2 * u * (Rabs x * i)). { replace (x * s - x * i) with (x * (s - i)) by ring. rewrite Rabs_mult. replace (2 * u * (Rabs x * i)) with (Rabs x * (2 * u * i)) by ring. apply Rmult_le_compat_l; assumption. }
  assert (B : Rabs (x * s) <= 12 / 10 * (Rabs x * i)). { replace (x * s) with (x * i + (x * s - x * i)) by ring. eapply Rle_trans; [apply Rabs_triang|]. rewrite (Rabs_mult x i), (Rabs_pos_eq i) by lra. assert (2 * u * (Rabs x * i) <= / 5 * (Rabs x * i)) by (apply Rmult_le_compat_r; lra). lra. }
  replace (y - x * i) with ((y - x * s) + (x * s - x * i)) by ring. eapply Rle_trans; [apply Rabs_triang|].
  assert (u * Rabs (x * s) <= u * (12 / 10 * (Rabs x * i))) by (apply Rmult_le_compat_l; lra). assert (0 <= u * (Rabs x * i)) by (apply Rmult_le_pos; lra). lra.
Qed.
Definition scaled (g : f32 -> f64) (n : Z) (x : f32) : f64 := Bmult mode_NE (g x) (scale64 n).
Lemma scaled_ok (g : f32 -> f64) n x : (1 <= n < 2 ^ 31)%Z -> is_finite (g x) = true -> Rabs (B2R (g x)) <= bpow radix2 252 ->
  is_finite (scaled g n x) = true /\ Rabs (B2R (scaled g n x) - B2R (g x) * / IZR n) <= 4 * u64 * (Rabs (B2R (g x)) * / IZR n) + h64.
Proof.
  intros Hn F B. destruct (scale64_ok n Hn) as (S1 & S2). assert (N1 : 1 <= IZR n) by (apply IZR_le; lia). assert (I : 0 < / IZR n) by (apply Rinv_0_lt_compat; lra).
  assert (I1 : / IZR n <= 1) by (rewrite <- Rinv_1; apply Rinv_le; lra). pose proof u64_pos as U. pose proof u64_small as US.
  assert (SB : Rabs (B2R (scale64 n)) <= 2). { replace (B2R (scale64 n)) with (/ IZR n + (B2R (scale64 n) - / IZR n)) by ring. eapply Rle_trans; [apply Rabs_triang|]. rewrite (Rabs_pos_eq (/ IZR n)) by lra. nra. }
  destruct (mult64_ok (g x) (scale64 n) F S1) as (M1 & M2).
  { rewrite Rabs_mult. apply Rle_trans with (bpow radix2 252 * 2); [apply Rmult_le_compat; try apply Rabs_pos; assumption|]. rewrite Rmult_comm, bpow_double. apply bpow_le. lia. }
  split; [exact M1|]. apply (product_error _ (B2R (scale64 n))); [lra|lra|left; apply h64_pos|exact S2|]. unfold scaled. rewrite M2. apply err64.
Qed.
Lemma scaled_sums (g : f32 -> f64) n xs : (1 <= n < 2 ^ 31)%Z -> Forall (fun x => is_finite (g x) = true /\ Rabs (B2R (g x)) <= bpow radix2 252) xs ->
  let ys := map (scaled g n) xs in let vs := map (fun x => B2R (g x)) xs in
  Forall (fun y => is_finite y = true) ys /\ Forall (fun y => Rabs y <= bpow radix2 254) (map B2R ys) /\
  Rabs (rsum (map B2R ys) - rsum vs * / IZR n) <= 4 * u64 * (rabs vs * / IZR n) + INR (length xs) * h64 /\
  rabs (map B2R ys) <= (1 + 4 * u64) * (rabs vs * / IZR n) + INR (length xs) * h64.
Proof.
  intros Hn. induction 1 as [|x xs (Fx & Bx) H IH]; cbv zeta.
  - cbn [map length INR]. rewrite rabs_nil, rsum_nil. repeat split; try constructor; rewrite ?Rmult_0_l, ?Rminus_0_r, ?Rabs_R0; lra.
  - cbv zeta in IH. destruct IH as (A & B & C & D). destruct (scaled_ok g n x Hn Fx Bx) as (S1 & S2). cbn [map]. rewrite !rsum_cons, !rabs_cons. change (length (x :: xs)) with (S (length xs)). rewrite S_INR.
    assert (N1 : 1 <= IZR n) by (apply IZR_le; lia). assert (I : 0 < / IZR n) by (apply Rinv_0_lt_compat; lra). pose proof u64_pos as U. pose proof h64_pos as HP.
    set (y := B2R (scaled g n x)) in *. set (v := B2R (g x)) in *. pose proof (Rabs_pos v) as V0. assert (I1 : / IZR n <= 1) by (rewrite <- Rinv_1; apply Rinv_le; lra).
    assert (Y : Rabs y <= (1 + 4 * u64) * (Rabs v * / IZR n) + h64). { replace y with (v * / IZR n + (y - v * / IZR n)) by ring. eapply Rle_trans; [apply Rabs_triang|]. rewrite (Rabs_mult v), (Rabs_pos_eq (/ IZR n)) by lra. lra. }
    split; [constructor; assumption|]. split; [|split].
    + constructor; [|exact B]. eapply Rle_trans; [exact Y|]. assert (VI : 0 <= Rabs v * / IZR n <= bpow radix2 252) by (split; [apply Rmult_le_pos; lra|nra]). pose proof u64_small as US. pose proof h64_small as HS.
      assert (E : bpow radix2 254 = 4 * bpow radix2 252) by (change 4 with (bpow radix2 2); rewrite <- bpow_plus; reflexivity). assert (1 <= bpow radix2 252) by (change 1 with (bpow radix2 0); apply bpow_le; lia).
      rewrite E. set (b := bpow radix2 252) in *. nra.
    + replace (y + rsum (map B2R (map (scaled g n) xs)) - (v + rsum (map (fun x0 => B2R (g x0)) xs)) * / IZR n) with ((y - v * / IZR n) + (rsum (map B2R (map (scaled g n) xs)) - rsum (map (fun x0 => B2R (g x0)) xs) * / IZR n)) by ring.
      eapply Rle_trans; [apply Rabs_triang|]. lra.
    + lra.
Qed.
Lemma scaled_total n u h a s t A : 1 <= n -> 0 <= u -> 8 * n * u <= 1 -> 2 * n * u * n <= n -> 0 <= h -> 0 <= a ->
  Rabs (s - t) <= 2 * n * u * A -> A <= (1 + 4 * u) * a + n * h -> forall mu, Rabs (t - mu) <= 4 * u * a + n * h -> Rabs (s - mu) <= (2 * n + 5) * u * a + 2 * n * h.
Proof.
  intros Hn Hu H1 H2 Hh Ha Hs HA mu Ht. replace (s - mu) with ((s - t) + (t - mu)) by ring. eapply Rle_trans; [apply Rabs_triang|].
  assert (K : 0 <= 2 * n * u) by (apply Rmult_le_pos; lra).
  assert (L : 2 * n * u * A <= 2 * n * u * ((1 + 4 * u) * a + n * h)) by (apply Rmult_le_compat_l; assumption).
  assert (P : 8 * n * u * (u * a) <= 1 * (u * a)) by (apply Rmult_le_compat_r; [apply Rmult_le_pos; lra|lra]).
  assert (P2 : 2 * n * u * n * h <= n * h) by (apply Rmult_le_compat_r; lra). nra.
Qed.
Lemma scaled_fold (g : f32 -> f64) xs : (1 <= zlen xs < 2 ^ 31)%Z -> Forall (fun x => is_finite (g x) = true /\ Rabs (B2R (g x)) <= bpow radix2 252) xs ->
  let s := fold_left (Bplus mode_NE) (map (scaled g (zlen xs)) xs) (B754_zero false) in let vs := map (fun x => B2R (g x)) xs in let n := INR (length xs) in
  is_finite s = true /\ Rabs (B2R s - rsum vs / n) <= (2 * n + 5) * u64 * (rabs vs / n) + 2 * n * h64.
Proof.
  intros Hn H s vs n. destruct (scaled_sums g (zlen xs) xs Hn H) as (A & B & C & D). fold vs in C, D. rewrite IZR_len in C, D. fold n in C, D.
  destruct (sum64_ok (map (scaled g (zlen xs)) xs) 254 A) as (S1 & S2 & _); [rewrite map_length; unfold zlen in Hn |- *; lia|lia|exact B|]. fold s in S1, S2. rewrite map_length in S2. change (INR (length (xs : list f32))) with n in S2.
  split; [exact S1|]. assert (Hc : INR (length xs) <= bpow radix2 31) by (apply count_R; unfold zlen in Hn; lia). pose proof (count_u _ Hc) as Hu. fold n in Hu.
  assert (N1 : 1 <= n) by (unfold n; rewrite <- IZR_len; apply IZR_le; lia). pose proof u64_pos as U. pose proof h64_pos as HP. assert (I : 0 < / n) by (apply Rinv_0_lt_compat; lra). pose proof (rabs_nonneg vs) as V0.
  apply (scaled_total n u64 h64 _ _ (rsum (map B2R (map (scaled g (zlen xs)) xs))) (rabs (map B2R (map (scaled g (zlen xs)) xs)))); unfold Rdiv; try assumption; try lra; [nra|apply Rmult_le_pos; lra].
Qed.
Lemma fold_scaled n xs : forall s, fold_left (add_scaled n) xs s = fold_left (Bplus mode_NE) (map (scaled widen n) xs) s.
Proof. induction xs as [|x xs IH]; intros s; [reflexivity|apply IH]. Qed.
Lemma fold_scaled_square n xs : forall s, fold_left (add_scaled_square n) xs s = fold_left (Bplus mode_NE) (map (scaled square64 n) xs) s.
Proof. induction xs as [|x xs IH]; intros s; [reflexivity|apply IH]. Qed.
Lemma scaled_first xs : moderate xs -> (1 <= zlen xs < 2 ^ 31)%Z -> let s := fold_left (add_scaled (zlen xs)) xs (B754_zero false) in
  is_finite s = true /\ Rabs (B2R s - rmean xs) <= (2 * INR (length xs) + 5) * u64 * magnitude xs + 2 * INR (length xs) * h64.
Proof.
  intros Hm Hn s. unfold s. rewrite fold_scaled. assert (H : Forall (fun x => is_finite (widen x) = true /\ Rabs (B2R (widen x)) <= bpow radix2 252) xs).
  { apply Forall_impl with (2 := Hm). intros x (F & B). destruct (widen_ok x F) as (V & Fw). rewrite V. split; [exact Fw|]. eapply Rle_trans; [exact B|]. apply bpow_le. lia. }
  destruct (scaled_fold widen xs Hn H) as (A & C). split; [exact A|].
  assert (E : map (fun x => B2R (widen x)) xs = vals xs) by (rewrite <- (proj1 (widen_vals xs (moderate_finite xs Hm))), map_map; reflexivity). rewrite E in C. exact C.
Qed.
Lemma scaled_second xs : moderate xs -> (1 <= zlen xs < 2 ^ 31)%Z -> let s := fold_left (add_scaled_square (zlen xs)) xs (B754_zero false) in
  is_finite s = true /\ Rabs (B2R s - mean_square xs) <= (2 * INR (length xs) + 5) * u64 * mean_square xs + 2 * INR (length xs) * h64.
Proof.
  intros Hm Hn s. unfold s. rewrite fold_scaled_square. assert (H : Forall (fun x => is_finite (square64 x) = true /\ Rabs (B2R (square64 x)) <= bpow radix2 252) xs).
  { apply Forall_impl with (2 := Hm). intros x (F & B). destruct (square64_ok x F) as (Fw & V). rewrite V. split; [exact Fw|]. rewrite Rabs_mult. change 252%Z with (126 + 126)%Z. rewrite bpow_plus. apply Rmult_le_compat; try apply Rabs_pos; exact B. }
  destruct (scaled_fold square64 xs Hn H) as (A & C). split; [exact A|].
  assert (E : map (fun x => B2R (square64 x)) xs = map (fun x => x * x) (vals xs)) by (rewrite <- (proj1 (square_vals xs (moderate_finite xs Hm))), map_map; reflexivity). rewrite E in C. unfold mean_square. rewrite rabs_squares in C. exact C.
Qed.
Lemma scaled_variance xs : moderate xs -> (1 <= zlen xs < 2 ^ 31)%Z ->
  let m := fold_left (add_scaled (zlen xs)) xs (B754_zero false) in let q := fold_left (add_scaled_square (zlen xs)) xs (B754_zero false) in
  let d := Bminus mode_NE q (Bmult mode_NE m m) in is_finite d = true /\ Rabs (B2R d - variance xs) <= slack 3 (INR (length xs)) (mean_square xs).
Proof.
  intros Hm Hn m q d. destruct (scaled_first xs Hm Hn) as (F1 & E1). destruct (scaled_second xs Hm Hn) as (F2 & E2). destruct (magnitude_bound xs Hm ltac:(lia)) as (A & M).
  destruct (mean_square_bound xs Hm ltac:(lia)) as (Q0 & QB). pose proof (square_magnitude xs ltac:(lia)) as AQ.
  assert (Hc : INR (length xs) <= bpow radix2 31) by (apply count_R; unfold zlen in Hn; lia). pose proof (count_u _ Hc) as Hu.
  assert (N1 : 1 <= INR (length xs)) by (rewrite <- IZR_len; apply IZR_le; lia). pose proof u64_pos as U. pose proof u64_small as US. pose proof h64_small as HS. pose proof h64_pos as HP.
  set (n := INR (length xs)) in *.
  assert (HN : h64 <= 2 * n * h64 <= / 1000).
  { split; [nra|]. apply Rle_trans with (2 * bpow radix2 31 * h64); [apply Rmult_le_compat_r; lra|]. apply Rle_trans with u64; [|lra]. rewrite bpow_double. unfold h64, u64. rewrite <- bpow_plus. apply bpow_le. lia. }
  destruct (difference_ok m q (mean_square xs) (magnitude xs) (rmean xs) ((2 * n + 5) * u64) F1 F2 A M AQ QB ltac:(nra) (2 * n * h64) HN E1 E2) as (D1 & D2).
  split; [exact D1|]. eapply Rle_trans; [exact D2|]. unfold slack. apply Rplus_le_compat.
  - apply Rmult_le_compat_r; [exact Q0|]. rewrite eight_u. nra.
  - replace (10 * (2 * n * h64)) with (20 * n * h64) by ring. apply tiny; [exact A|]. split; [lra|]. apply Rle_trans with (bpow radix2 5 * bpow radix2 31); [|rewrite <- bpow_plus; apply bpow_le; lia].
    apply Rmult_le_compat; [lra|lra| |exact Hc]. change (bpow radix2 5) with (IZR 32). lra.
Qed.

(** ** Roots *)
Lemma rnd_nonneg x : 0 <= x -> 0 <= rnd64 x.
Proof. intros H. rewrite <- (round_0 radix2 (SpecFloat.fexp 53 1024) ZnearestE). apply round_le; [exact (fexp_correct 53 1024 prec53)|apply valid_rnd_N|exact H]. Qed.
Lemma rnd32_nonneg x : 0 <= x -> 0 <= rnd32 x.
Proof. intros H. rewrite <- (round_0 radix2 (SpecFloat.fexp 24 128) ZnearestE). apply round_le; [exact (fexp_correct 24 128 prec24)|apply valid_rnd_N|exact H]. Qed.
Lemma root_error t s r u h v k : 0 <= t -> 0 <= s -> 0 <= u -> 2 * u <= v <= 1 -> 0 <= h -> 2 * h <= k -> Rabs (s - t) <= u * t + h -> Rabs (r - s) <= v * s + k -> Rabs (r - t) <= 2 * v * t + 2 * k.
Proof.
  intros Ht H0 Hu Hv Hh Hk Hs Hr. replace (r - t) with ((r - s) + (s - t)) by ring. eapply Rle_trans; [apply Rabs_triang|].
  assert (S : s <= t + (u * t + h)) by (pose proof (Rle_abs (s - t)); lra). assert (v * s <= v * (t + (u * t + h))) by (apply Rmult_le_compat_l; lra). assert (ut : 0 <= u * t) by (apply Rmult_le_pos; lra).
  assert (v * (u * t) <= 1 * (u * t)) by (apply Rmult_le_compat_r; lra). assert (v * h <= 1 * h) by (apply Rmult_le_compat_r; lra). assert (2 * u * t <= v * t) by (apply Rmult_le_compat_r; lra). lra.
Qed.
Lemma root_ok (d : f64) : is_finite d = true -> 0 <= B2R d <= bpow radix2 253 -> let r := narrow (Bsqrt mode_NE d) in
  is_finite r = true /\ 0 <= B2R r /\ Rabs (B2R r - sqrt (B2R d)) <= bpow radix2 (-23) * sqrt (B2R d) + bpow radix2 (-149).
Proof.
  intros F (D0 & DB) r. destruct (Bsqrt_correct 53 1024 prec53 emax1024 mode_NE d) as (V & Fs & _). change (round_mode mode_NE) with ZnearestE in V.
  assert (Fs' : is_finite (Bsqrt mode_NE d) = true).
  { rewrite Fs. destruct d as [s|s| |s m e H]; try discriminate F; [reflexivity|]. destruct s; [|reflexivity]. exfalso. cbn [B2R] in D0. assert (F2R (Float radix2 (cond_Zopp true (Zpos m)) e) < 0) by (apply F2R_lt_0; reflexivity). lra. }
  assert (T0 : 0 <= sqrt (B2R d)) by apply sqrt_pos.
  assert (TB : sqrt (B2R d) <= bpow radix2 127). { apply Rsqr_incr_0_var; [|apply bpow_ge_0]. rewrite Rsqr_sqrt by exact D0. unfold Rsqr. rewrite <- bpow_plus. eapply Rle_trans; [exact DB|]. apply bpow_le. lia. }
  assert (SB : Rabs (B2R (Bsqrt mode_NE d)) <= bpow radix2 127).
  { rewrite V. apply abs_round_le_generic; [exact (fexp_correct 53 1024 prec53)|apply valid_rnd_N| |rewrite Rabs_pos_eq; assumption]. change (SpecFloat.fexp 53 1024) with (FLT_exp (-1074) 53). apply generic_format_FLT_bpow; [reflexivity|lia]. }
  destruct (narrow_range _ Fs' SB) as (N1 & N2). unfold r. split; [exact N1|]. pose proof (rnd_nonneg _ T0) as R0. rewrite <- V in R0. split; [rewrite N2; apply rnd32_nonneg; exact R0|].
  change (-23)%Z with (-24 + 1)%Z. change (-149)%Z with (-150 + 1)%Z. rewrite <- !bpow_double. apply (root_error _ (B2R (Bsqrt mode_NE d)) _ u64 h64); try assumption.
  - left; apply u64_pos.
  - split; [unfold u64; rewrite bpow_double; apply bpow_le; lia|apply v_bounds].
  - left; apply h64_pos.
  - exact h_small.
  - rewrite V. rewrite <- (Rabs_pos_eq (sqrt (B2R d))) at 3 by exact T0. apply err64.
  - rewrite N2. rewrite <- (Rabs_pos_eq (B2R (Bsqrt mode_NE d))) at 3 by exact R0. apply err32.
Qed.
Lemma root_nan (d : f64) : is_finite d = true -> B2R d < 0 -> is_nan (narrow (Bsqrt mode_NE d)) = true.
Proof.
  intros F D. destruct d as [s|s| |s m e H]; try discriminate F; [cbn in D; lra|]. destruct s; [reflexivity|]. exfalso. cbn [B2R] in D. assert (0 < F2R (Float radix2 (cond_Zopp false (Zpos m)) e)) by (apply F2R_gt_0; reflexivity). lra.
Qed.
Lemma slack_nonneg k n Q : 0 <= k -> 0 <= n -> 0 <= Q -> 0 < slack k n Q.
Proof. intros Hk Hn HQ. unfold slack. pose proof (bpow_gt_0 radix2 (-900)). assert (0 <= (n + k) * bpow radix2 (-50) * Q) by (apply Rmult_le_pos; [apply Rmult_le_pos; [lra|apply bpow_ge_0]|exact HQ]). lra. Qed.
Lemma variance_nonneg xs : moderate xs -> (1 <= zlen xs)%Z -> 0 <= variance xs <= mean_square xs.
Proof.
  intros Hm Hn. unfold variance. destruct (magnitude_bound xs Hm Hn) as (A & M). pose proof (square_magnitude xs Hn) as AQ. assert (S : rmean xs * rmean xs <= magnitude xs * magnitude xs).
  { rewrite <- (Rabs_pos_eq (rmean xs * rmean xs)) by nra. rewrite Rabs_mult. apply Rmult_le_compat; try apply Rabs_pos; exact M. } nra.
Qed.
Lemma slack_range xs k : moderate xs -> (1 <= zlen xs < 2 ^ 31)%Z -> 0 <= k <= 3 -> slack k (INR (length xs)) (mean_square xs) <= bpow radix2 252.
Proof.
  intros Hm Hn Hk. destruct (mean_square_bound xs Hm ltac:(lia)) as (Q0 & QB). assert (Hc : INR (length xs) <= bpow radix2 31) by (apply count_R; unfold zlen in Hn; lia). pose proof (count_u _ Hc) as Hu. pose proof u64_small as US. pose proof u64_pos as U.
  unfold slack. assert (T : bpow radix2 (-900) <= / 2 * bpow radix2 252) by (rewrite half_bpow; apply bpow_le; lia). rewrite eight_u.
  assert (K : (INR (length xs) + k) * (8 * u64) <= / 2) by nra. assert ((INR (length xs) + k) * (8 * u64) * mean_square xs <= / 2 * mean_square xs) by (apply Rmult_le_compat_r; assumption). lra.
Qed.
