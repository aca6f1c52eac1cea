(** Geometry of the rounded drift track in binary32/binary64 arithmetic. *)
From Verif Require Export DriftFloat DriftSpec BaseFacts.
From Coq Require Import Reals Lra Psatz ZifyBool ZifyNat.
From Flocq Require Import Relative.
Local Open Scope Z_scope.

(** Round half away from zero, on reals. *)
Definition RA (x : R) : Z := if Rlt_bool x 0 then - Zfloor (- x + / 2) else Zfloor (x + / 2).

Lemma IZR_pow2 n : 0 <= n -> IZR (2 ^ n) = bpow radix2 n.
Proof. intros H. rewrite <- (IZR_Zpower radix2) by auto. reflexivity. Qed.

Lemma Zfloor_div_pos (a b : Z) : 0 < b -> Zfloor (IZR a / IZR b) = a / b.
Proof. intros H. apply Zfloor_div. lia. Qed.

Lemma round_mag_floor m e : IZR (round_mag m e) = IZR (Zfloor (F2R (Float radix2 (Zpos m) e) + / 2)).
Proof.
  unfold round_mag, F2R. cbn [Fnum Fexp]. destruct (0 <=? e) eqn:E.
  - rewrite <- IZR_pow2 by lia. rewrite <- mult_IZR. f_equal. symmetry. apply Zfloor_imp.
    split; [lra|]. rewrite plus_IZR. lra.
  - f_equal. symmetry. rewrite <- Zfloor_div_pos by (apply Z.pow_pos_nonneg; lia). f_equal.
    assert (Hb : bpow radix2 e = (/ IZR (2 ^ (- e)))%R).
    { rewrite IZR_pow2 by lia. rewrite <- bpow_opp. f_equal. ring. }
    assert (Hp : (0 < IZR (2 ^ (- e)))%R) by (apply IZR_lt; apply Z.pow_pos_nonneg; lia).
    assert (Hh : IZR (2 ^ (- e)) = (2 * IZR (2 ^ (- e - 1)))%R).
    { rewrite <- mult_IZR. f_equal. replace (- e) with (1 + (- e - 1)) at 1 by ring. rewrite Z.pow_add_r by lia. reflexivity. }
    rewrite Hb, plus_IZR. unfold Rdiv. rewrite Rmult_plus_distr_r. f_equal. rewrite Hh. field.
    rewrite Hh in Hp. lra.
Qed.

Lemma RA_opp x : RA (- x) = - RA x.
Proof.
  unfold RA. destruct (Rlt_bool_spec x 0) as [H|H], (Rlt_bool_spec (- x) 0) as [H'|H'].
  - exfalso; lra.
  - lia.
  - now rewrite Ropp_involutive.
  - assert (x = 0%R) by lra. subst. rewrite Ropp_0.
    replace (Zfloor (0 + / 2)) with 0; [reflexivity|]. symmetry. apply Zfloor_imp. rewrite plus_IZR. split; lra.
Qed.

Lemma round_to_int_RA {p q} (x : binary_float p q) : is_finite x = true ->
  round_to_int x = if (- 2 ^ 31 <=? RA (B2R x)) && (RA (B2R x) <? 2 ^ 31) then Ok (RA (B2R x)) else UB.
Proof.
  assert (R0 : RA 0 = 0).
  { unfold RA. rewrite Rlt_bool_false by lra. apply Zfloor_imp. rewrite plus_IZR. split; lra. }
  destruct x as [s|s| |s m e Hb]; cbn [is_finite]; try discriminate; intros _.
  - cbn. rewrite R0. reflexivity.
  - cbn [round_to_int B2R]. cbv zeta.
    assert (Hp : (0 < F2R (Float radix2 (Zpos m) e))%R) by (apply F2R_gt_0; reflexivity).
    assert (E : RA (F2R (Float radix2 (Zpos m) e)) = round_mag m e).
    { unfold RA. rewrite Rlt_bool_false by lra. apply eq_IZR. now rewrite round_mag_floor. }
    rewrite F2R_cond_Zopp. destruct s; cbn [cond_Zopp cond_Ropp].
    + rewrite RA_opp, E. reflexivity.
    + rewrite E. reflexivity.
Qed.

Lemma RA_mono x y : (x <= y)%R -> RA x <= RA y.
Proof.
  intros H. unfold RA. destruct (Rlt_bool_spec x 0) as [Hx|Hx], (Rlt_bool_spec y 0) as [Hy|Hy].
  - assert (Zfloor (- y + / 2) <= Zfloor (- x + / 2)) by (apply Zfloor_le; lra). lia.
  - assert (0 <= Zfloor (- x + / 2)) by (apply Zfloor_lub; cbn; lra).
    assert (0 <= Zfloor (y + / 2)) by (apply Zfloor_lub; cbn; lra). lia.
  - exfalso; lra.
  - apply Zfloor_le; lra.
Qed.

Lemma RA_near x z : (Rabs (x - IZR z) < / 2)%R -> RA x = z.
Proof.
  intros H. apply Rabs_def2 in H as (H1 & H2). unfold RA. destruct (Rlt_bool_spec x 0) as [Hx|Hx].
  - enough (Zfloor (- x + / 2) = - z) by lia. apply Zfloor_imp. rewrite plus_IZR, opp_IZR. split; lra.
  - apply Zfloor_imp. rewrite plus_IZR. split; lra.
Qed.

(** ** Exact conversions *)
Notation fexp32 := (SpecFloat.fexp 24 128).
Notation fexp64 := (SpecFloat.fexp 53 1024).

Lemma fexp32_FLT : fexp32 = FLT_exp (-149) 24. Proof. reflexivity. Qed.
Lemma fexp64_FLT : fexp64 = FLT_exp (-1074) 53. Proof. reflexivity. Qed.

Lemma format_int p emin z : emin <= 0 -> 0 < p -> Z.abs z <= 2 ^ p -> generic_format radix2 (FLT_exp emin p) (IZR z).
Proof.
  intros He Hp Hz. destruct (Z.eq_dec (Z.abs z) (2 ^ p)) as [E|Hne].
  - assert (G : generic_format radix2 (FLT_exp emin p) (IZR (2 ^ p))).
    { rewrite IZR_pow2 by lia. apply generic_format_FLT_bpow; [exact Hp|lia]. }
    destruct (Z.abs_eq_or_opp z) as [Ez|Ez].
    + rewrite <- E, Ez in G. exact G.
    + rewrite <- E, Ez in G. rewrite opp_IZR in G. apply generic_format_opp in G. now rewrite Ropp_involutive in G.
  - apply generic_format_FLT. exists (Float radix2 z 0); unfold F2R; cbn [Fnum Fexp]; [cbn; ring| |lia].
    change (Z.abs z < 2 ^ p). lia.
Qed.

Lemma lt_bpow z n : 0 <= n -> Z.abs z < 2 ^ n -> (Rabs (IZR z) < bpow radix2 n)%R.
Proof. intros Hn H. rewrite <- abs_IZR, <- IZR_pow2 by auto. now apply IZR_lt. Qed.

Lemma f32_of_Z_ok z : Z.abs z <= 2 ^ 24 -> B2R (f32_of_Z z) = IZR z /\ is_finite (f32_of_Z z) = true.
Proof.
  intros H. pose proof (binary_normalize_correct 24 128 prec24 emax128 mode_NE z 0 false) as C. cbv zeta in C.
  assert (EF : F2R (Float radix2 z 0) = IZR z) by (unfold F2R; cbn; ring). rewrite EF in C.
  rewrite round_generic in C; [|apply valid_rnd_N|rewrite fexp32_FLT; apply format_int; lia].
  rewrite Rlt_bool_true in C. { unfold f32_of_Z. tauto. }
  apply Rlt_le_trans with (bpow radix2 25); [|apply bpow_le; lia]. apply lt_bpow; [lia|].
  assert (2 ^ 24 < 2 ^ 25) by reflexivity. lia.
Qed.

Lemma f64_of_Z_ok z : Z.abs z <= 2 ^ 53 -> B2R (f64_of_Z z) = IZR z /\ is_finite (f64_of_Z z) = true.
Proof.
  intros H. pose proof (binary_normalize_correct 53 1024 prec53 emax1024 mode_NE z 0 false) as C. cbv zeta in C.
  assert (EF : F2R (Float radix2 z 0) = IZR z) by (unfold F2R; cbn; ring). rewrite EF in C.
  rewrite round_generic in C; [|apply valid_rnd_N|rewrite fexp64_FLT; apply format_int; lia].
  rewrite Rlt_bool_true in C. { unfold f64_of_Z. tauto. }
  apply Rlt_le_trans with (bpow radix2 54); [|apply bpow_le; lia]. apply lt_bpow; [lia|].
  assert (2 ^ 53 < 2 ^ 54) by reflexivity. lia.
Qed.

(** A finite binary32 is an integer of 24 bits times a power of two >= 2^-149. *)
Lemma f32_parts (x : f32) : is_finite x = true ->
  exists m e, B2R x = F2R (Float radix2 m e) /\ Z.abs m < 2 ^ 24 /\ -149 <= e <= 104.
Proof.
  destruct x as [s|s| |s m e Hb]; cbn [is_finite]; try discriminate; intros _.
  - exists 0, 0. cbn. split; [unfold F2R; cbn; ring|]. lia.
  - exists (cond_Zopp s (Zpos m)), e. split; [reflexivity|].
    apply andb_prop in Hb as (H1 & H2). apply Z.leb_le in H2.
    unfold SpecFloat.canonical_mantissa in H1. apply Zeq_bool_eq in H1. unfold SpecFloat.fexp, SpecFloat.emin in H1.
    split; [|lia].
    assert (Hd : Z.pos (SpecFloat.digits2_pos m) <= 24) by lia. rewrite Digits.Zpos_digits2_pos in Hd.
    replace (Z.abs (cond_Zopp s (Zpos m))) with (Z.abs (Zpos m)) by (destruct s; reflexivity).
    change (2 ^ 24) with (radix2 ^ 24). apply (Digits.Zpower_gt_Zdigits radix2). exact Hd.
Qed.

Lemma format64_parts m e : Z.abs m < 2 ^ 53 -> -1074 <= e -> generic_format radix2 fexp64 (F2R (Float radix2 m e)).
Proof.
  intros Hm He. rewrite fexp64_FLT. apply generic_format_FLT. exists (Float radix2 m e); auto.
Qed.

Lemma parts_bound m e k n : Z.abs m < 2 ^ k -> 0 <= k -> k + e <= n -> (Rabs (F2R (Float radix2 m e)) < bpow radix2 n)%R.
Proof.
  intros Hm Hk Hn. rewrite <- F2R_Zabs. unfold F2R. cbn [Fnum Fexp].
  apply Rlt_le_trans with (bpow radix2 (k + e)); [|now apply bpow_le].
  rewrite bpow_plus. apply Rmult_lt_compat_r; [apply bpow_gt_0|]. rewrite <- IZR_pow2 by auto. now apply IZR_lt.
Qed.

Lemma widen_ok (x : f32) : is_finite x = true -> B2R (widen x) = B2R x /\ is_finite (widen x) = true.
Proof.
  intros Hf. destruct (f32_parts x Hf) as (m & e & E & Hm & He).
  destruct x as [s|s| |s mx ex Hb]; cbn [is_finite] in Hf; try discriminate; [cbn; auto|].
  cbn [widen].
  pose proof (binary_normalize_correct 53 1024 prec53 emax1024 mode_NE (cond_Zopp s (Zpos mx)) ex s) as C. cbv zeta in C.
  change (F2R (Float radix2 (cond_Zopp s (Z.pos mx)) ex)) with (B2R (B754_finite s mx ex Hb)) in C.
  rewrite E in *. 
  assert (H53 : 2 ^ 24 < 2 ^ 53) by reflexivity.
  rewrite round_generic in C; [|apply valid_rnd_N|apply format64_parts; lia].
  rewrite Rlt_bool_true in C; [tauto|]. apply (parts_bound m e 24); lia.
Qed.

(** Product of a widened float by a time step is exact. *)
Lemma product_ok (x : f32) t : is_finite x = true -> 0 <= t <= 2 ^ 24 ->
  B2R (Bmult mode_NE (widen x) (f64_of_Z t)) = (B2R x * IZR t)%R /\
  is_finite (Bmult mode_NE (widen x) (f64_of_Z t)) = true.
Proof.
  intros Hf Ht. destruct (widen_ok x Hf) as (W1 & W2).
  assert (H53 : 2 ^ 24 <= 2 ^ 53) by (apply Z.pow_le_mono_r; lia).
  destruct (f64_of_Z_ok t) as (T1 & T2); [lia|].
  pose proof (Bmult_correct 53 1024 prec53 emax1024 mode_NE (widen x) (f64_of_Z t)) as C.
  rewrite W1, W2, T1, T2 in C. destruct (f32_parts x Hf) as (m & e & E & Hm & He).
  assert (EP : (B2R x * IZR t)%R = F2R (Float radix2 (m * t) e)).
  { rewrite E. unfold F2R. cbn [Fnum Fexp]. rewrite mult_IZR. ring. }
  assert (Hmt : Z.abs (m * t) < 2 ^ 53).
  { rewrite Z.abs_mul, (Z.abs_eq t) by lia. assert (2 ^ 24 * 2 ^ 24 < 2 ^ 53) by reflexivity. nia. }
  rewrite EP in C |- *. rewrite round_generic in C; [|apply valid_rnd_N|apply format64_parts; lia].
  rewrite Rlt_bool_true in C; [tauto|]. apply (parts_bound (m * t) e 53); lia.
Qed.

Lemma Rabs_div a b : b <> 0%R -> Rabs (a / b) = (Rabs a / Rabs b)%R.
Proof. intros H. unfold Rdiv. rewrite Rabs_mult, Rabs_inv. reflexivity. Qed.

(** Desmearing width: nearest integer to |s|/(T-1), halfway cases up. *)
Definition near (a b : Z) : Z := (2 * a + b) / (2 * b).

Lemma near_spec a b k : 0 < b -> near a b = k <-> (2 * k - 1) * b <= 2 * a < (2 * k + 1) * b.
Proof.
  intros Hb. unfold near. split.
  - intros <-. pose proof (Z.div_mod (2 * a + b) (2 * b) ltac:(lia)). pose proof (Z.mod_pos_bound (2 * a + b) (2 * b) ltac:(lia)). nia.
  - intros H. symmetry. apply Z.div_unique with (2 * a + b - 2 * b * k); lia.
Qed.

(** ** The slope *)
Section Slope.
  Variables T s : Z.
  Hypothesis HT : 2 <= T <= 2 ^ 24.
  Hypothesis Hs : Z.abs s < 2 ^ 22.
  Let n := T - 1.
  Let q := (IZR s / IZR n)%R.

  Lemma n_pos : (1 <= IZR n)%R. Proof. apply IZR_le. unfold n. lia. Qed.

  Lemma q_abs : (Rabs q <= bpow radix2 22)%R.
  Proof.
    unfold q. rewrite Rabs_div by (pose proof n_pos; lra). rewrite (Rabs_pos_eq (IZR n)) by (pose proof n_pos; lra).
    apply Rle_trans with (Rabs (IZR s)).
    - apply Rmult_le_reg_r with (IZR n); [pose proof n_pos; lra|]. unfold Rdiv. rewrite Rmult_assoc, Rinv_l by (pose proof n_pos; lra).
      pose proof n_pos. pose proof (Rabs_pos (IZR s)). nra.
    - left. apply lt_bpow; lia.
  Qed.

  Definition mR : R := round radix2 (FLT_exp (-149) 24) ZnearestE q.

  Lemma slope_value : B2R (slope T s) = mR /\ is_finite (slope T s) = true.
  Proof.
    unfold slope. fold n. pose proof n_pos as Hn.
    assert (2 ^ 22 <= 2 ^ 24) by (apply Z.pow_le_mono_r; lia).
    destruct (f32_of_Z_ok s) as (A1 & A2); [lia|]. destruct (f32_of_Z_ok n) as (B1 & B2); [unfold n; lia|].
    pose proof (Bdiv_correct 24 128 prec24 emax128 mode_NE (f32_of_Z s) (f32_of_Z n)) as C.
    rewrite A1, A2, B1 in C. specialize (C ltac:(lra)). fold q in C.
    rewrite Rlt_bool_true in C. { destruct C as (C1 & C2 & _). split; [exact C1|exact C2]. }
    apply Rle_lt_trans with (bpow radix2 22); [|apply bpow_lt; lia].
    apply abs_round_le_generic; [apply fexp_correct; reflexivity|apply valid_rnd_N| |exact q_abs].
    rewrite fexp32_FLT. apply generic_format_FLT_bpow; [reflexivity|lia].
  Qed.

  Lemma mR_sign_pos : 0 <= s -> (0 <= mR)%R.
  Proof.
    intros H. unfold mR. apply round_ge_generic; [apply FLT_exp_valid; reflexivity|apply valid_rnd_N|apply generic_format_0|].
    unfold q. apply Rmult_le_pos; [now apply IZR_le|]. left. apply Rinv_0_lt_compat. pose proof n_pos. lra.
  Qed.
  Lemma mR_sign_neg : s <= 0 -> (mR <= 0)%R.
  Proof.
    intros H. unfold mR. apply round_le_generic; [apply FLT_exp_valid; reflexivity|apply valid_rnd_N|apply generic_format_0|].
    unfold q. assert (IZR s <= 0)%R by now apply IZR_le. assert (0 < / IZR n)%R by (apply Rinv_0_lt_compat; pose proof n_pos; lra). unfold Rdiv. nra.
  Qed.

  Lemma q_big : s <> 0 -> (bpow radix2 (-24) <= Rabs q)%R.
  Proof.
    intros H. unfold q. pose proof n_pos. rewrite Rabs_div by lra. rewrite (Rabs_pos_eq (IZR n)) by lra.
    assert (1 <= Rabs (IZR s))%R by (rewrite <- abs_IZR; apply IZR_le; lia).
    assert (IZR n <= bpow radix2 24)%R by (rewrite <- IZR_pow2 by lia; apply IZR_le; unfold n; lia).
    change (-24) with (- (24)). rewrite bpow_opp. apply Rle_trans with (/ IZR n)%R.
    - apply Rinv_le; [lra|auto].
    - unfold Rdiv. assert (0 < / IZR n)%R by (apply Rinv_0_lt_compat; lra). nra.
  Qed.

  Lemma mR_error : (Rabs (mR - q) <= bpow radix2 (-24) * Rabs q)%R.
  Proof.
    destruct (Z.eq_dec s 0) as [E|Hne].
    - unfold mR, q. rewrite E. unfold Rdiv. rewrite Rmult_0_l, round_0 by apply valid_rnd_N.
      rewrite Rminus_0_r, Rabs_R0. lra.
    - pose proof (relative_error_N_FLT radix2 (-149) 24 ltac:(lia) (fun x => negb (Z.even x)) q) as E.
      unfold mR, ZnearestE. eapply Rle_trans; [apply E|].
      + apply Rle_trans with (bpow radix2 (-24)); [apply bpow_le; lia|now apply q_big].
      + right. rewrite bpow_plus. change (- (24)) with (-24). change (bpow radix2 1) with 2%R. field.
  Qed.

  Lemma mR_nonzero_neg : s < 0 -> (mR < 0)%R.
  Proof.
    intros H. pose proof mR_error as E. assert (Hq : (q < 0)%R).
    { unfold q. assert (IZR s < 0)%R by now apply IZR_lt. assert (0 < / IZR n)%R by (apply Rinv_0_lt_compat; pose proof n_pos; lra). unfold Rdiv. nra. }
    rewrite (Rabs_left q Hq) in E. apply Rabs_le_inv in E.
    assert (bpow radix2 (-24) < 1)%R by (apply (bpow_lt radix2 (-24) 0); lia). pose proof (bpow_gt_0 radix2 (-24)). nra.
  Qed.

  Lemma end_point : RA (mR * IZR n) = s.
  Proof.
    apply RA_near. pose proof n_pos as Hn.
    replace (mR * IZR n - IZR s)%R with ((mR - q) * IZR n)%R by (unfold q; field; lra).
    rewrite Rabs_mult, (Rabs_pos_eq (IZR n)) by lra.
    apply Rle_lt_trans with (bpow radix2 (-24) * Rabs q * IZR n)%R.
    - apply Rmult_le_compat_r; [lra|apply mR_error].
    - replace (bpow radix2 (-24) * Rabs q * IZR n)%R with (bpow radix2 (-24) * Rabs (IZR s))%R.
      + apply Rlt_le_trans with (bpow radix2 (-24) * bpow radix2 22)%R.
        * apply Rmult_lt_compat_l; [apply bpow_gt_0|]. apply lt_bpow; lia.
        * rewrite <- bpow_plus. change (-24 + 22) with (-2). change (bpow radix2 (-2)) with (/ 4)%R. lra.
      + unfold q. rewrite Rabs_div by lra. rewrite (Rabs_pos_eq (IZR n)) by lra. field. lra.
  Qed.

  (** The offset of the track, before the int conversion. *)
  Definition off (t : Z) : Z := RA (mR * IZR t).

  Lemma off_0 : off 0 = 0.
  Proof. unfold off. rewrite Rmult_0_r. apply RA_near. rewrite Rminus_0_r, Rabs_R0. lra. Qed.

  Lemma off_last : off (T - 1) = s.
  Proof. exact end_point. Qed.

  Lemma off_mono t u : 0 <= s -> 0 <= t <= u -> off t <= off u.
  Proof.
    intros H Htu. unfold off. apply RA_mono. apply Rmult_le_compat_l; [now apply mR_sign_pos|]. apply IZR_le. lia.
  Qed.
  Lemma off_anti t u : s <= 0 -> 0 <= t <= u -> off u <= off t.
  Proof.
    intros H Htu. unfold off. apply RA_mono. apply Rmult_le_compat_neg_l; [now apply mR_sign_neg|]. apply IZR_le. lia.
  Qed.

  Lemma off_between t : 0 <= t < T -> (0 <= s -> 0 <= off t <= s) /\ (s <= 0 -> s <= off t <= 0).
  Proof.
    intros Ht. split; intros H.
    - pose proof (off_mono 0 t H ltac:(lia)). pose proof (off_mono t (T - 1) H ltac:(lia)). rewrite off_0, off_last in *. lia.
    - pose proof (off_anti 0 t H ltac:(lia)). pose proof (off_anti t (T - 1) H ltac:(lia)). rewrite off_0, off_last in *. lia.
  Qed.

  Lemma cpu_offset_ok t : 0 <= t < T -> cpu_offset (widen (slope T s)) t = Ok (off t).
  Proof.
    intros Ht. unfold cpu_offset. destruct slope_value as (S1 & S2).
    destruct (product_ok (slope T s) t S2) as (P1 & P2); [lia|].
    rewrite (round_to_int_RA _ P2), P1, S1. fold (off t).
    destruct (off_between t Ht) as (B1 & B2).
    assert (2 ^ 22 < 2 ^ 31) by reflexivity.
    replace ((- 2 ^ 31 <=? off t) && (off t <? 2 ^ 31)) with true; [reflexivity|]. lia.
  Qed.

  Lemma ge_zero_sign {p e} (x : binary_float p e) : is_finite x = true -> ge_zero x = negb (Rlt_bool (B2R x) 0).
  Proof.
    destruct x as [b|b| |b m ex Hb]; cbn [is_finite]; try discriminate; intros _; cbn.
    - rewrite Rlt_bool_false by lra. reflexivity.
    - destruct b; cbn.
      + rewrite Rlt_bool_true; [reflexivity|]. apply F2R_lt_0. reflexivity.
      + rewrite Rlt_bool_false; [reflexivity|]. left. apply F2R_gt_0. reflexivity.
  Qed.

  Lemma ge_zero_slope : ge_zero (widen (slope T s)) = (0 <=? s).
  Proof.
    destruct slope_value as (S1 & S2). destruct (widen_ok _ S2) as (W1 & W2).
    rewrite (ge_zero_sign _ W2), W1, S1. destruct (Z.leb_spec 0 s) as [H|H].
    - rewrite Rlt_bool_false; [reflexivity|]. now apply mR_sign_pos.
    - rewrite Rlt_bool_true; [reflexivity|]. now apply mR_nonzero_neg.
  Qed.

End Slope.

Lemma mR_opp T s : mR T (- s) = (- mR T s)%R.
Proof.
  unfold mR. rewrite opp_IZR. replace (- IZR s / IZR (T - 1))%R with (- (IZR s / IZR (T - 1)))%R by (unfold Rdiv; ring).
  apply round_NE_opp.
Qed.

Lemma RA_slope_abs T s : 2 <= T <= 2 ^ 24 -> 0 <= s < 2 ^ 22 -> RA (mR T s) = near s (T - 1).
Proof.
  intros HT Hs. pose proof (n_pos T s HT) as Hn. set (n := T - 1) in *.
  assert (Hs' : Z.abs s < 2 ^ 22) by lia.
  pose proof (mR_error T s HT) as E. 
  set (k := near s n). assert (Hk : near s n = k) by reflexivity. apply near_spec in Hk; [|unfold n; lia].
  set (q := (IZR s / IZR n)%R) in *.
  assert (Hq : (0 <= q)%R).
  { unfold q. apply Rmult_le_pos; [apply IZR_le; lia|]. left. apply Rinv_0_lt_compat. lra. }
  assert (Eq : (q * IZR n = IZR s)%R) by (unfold q; field; lra).
  assert (Hk0 : 0 <= k). { assert (0 < n) by (unfold n; lia). nia. }
  assert (Hks : k <= 2 ^ 22). { assert (0 < n) by (unfold n; lia). nia. }
  assert (Hm0 : (0 <= mR T s)%R) by (apply mR_sign_pos; lia).
  (* lower bound *)
  assert (L : (IZR k - / 2 <= mR T s)%R).
  { destruct (Z.eq_dec k 0) as [Ek|Ek]; [rewrite Ek; cbn; lra|].
    unfold mR. apply round_ge_generic; [apply FLT_exp_valid; reflexivity|apply valid_rnd_N| |].
    - replace (IZR k - / 2)%R with (F2R (Float radix2 (2 * k - 1) (-1))).
      + apply generic_format_FLT. exists (Float radix2 (2 * k - 1) (-1)); [reflexivity| |cbn; lia].
        cbn [Fnum]. change (radix2 ^ 24) with (2 ^ 24). assert (2 * 2 ^ 22 < 2 ^ 24) by reflexivity. lia.
      + unfold F2R. cbn [Fnum Fexp]. rewrite minus_IZR, mult_IZR. change (bpow radix2 (-1)) with (/ 2)%R. lra.
    - fold n. fold q. apply Rmult_le_reg_r with (IZR n); [lra|]. rewrite Eq.
      destruct Hk as (Hk & _). apply IZR_le in Hk. rewrite !mult_IZR, minus_IZR, mult_IZR in Hk. lra. }
  (* upper bound *)
  assert (U : (mR T s < IZR k + / 2)%R).
  { apply Rabs_le_inv in E. fold n in E. fold q in E. rewrite (Rabs_pos_eq q Hq) in E.
    apply Rle_lt_trans with (q + bpow radix2 (-24) * q)%R; [lra|].
    apply Rmult_lt_reg_r with (IZR n); [lra|].
    replace ((q + bpow radix2 (-24) * q) * IZR n)%R with (IZR s + bpow radix2 (-24) * IZR s)%R by (rewrite <- Eq; ring).
    assert (H1 : (IZR s <= (IZR k + / 2) * IZR n - / 2)%R).
    { destruct Hk as (_ & Hk). assert (Hk' : 2 * s + 1 <= (2 * k + 1) * n) by lia. apply IZR_le in Hk'.
      rewrite plus_IZR, !mult_IZR, plus_IZR, mult_IZR in Hk'. lra. }
    assert (H2 : (bpow radix2 (-24) * IZR s < / 2)%R).
    { apply Rlt_trans with (bpow radix2 (-24) * bpow radix2 22)%R.
      - apply Rmult_lt_compat_l; [apply bpow_gt_0|]. rewrite <- IZR_pow2 by lia. apply IZR_lt. lia.
      - rewrite <- bpow_plus. change (-24 + 22) with (-2). change (bpow radix2 (-2)) with (/ 4)%R. lra. }
    lra. }
  unfold RA. rewrite Rlt_bool_false by auto. apply Zfloor_imp. rewrite plus_IZR. split; lra.
Qed.

Lemma desmear_width_ok T s : 2 <= T <= 2 ^ 24 -> Z.abs s < 2 ^ 22 ->
  desmear_width (slope T s) = Ok (Z.max 1 (near (Z.abs s) (T - 1))).
Proof.
  intros HT Hs. destruct (slope_value T s HT Hs) as (S1 & S2).
  assert (Hnn : is_nan (slope T s) = false) by (destruct (slope T s); try discriminate S2; reflexivity).
  assert (Ha : B2R (Babs (slope T s)) = Rabs (mR T s)) by (rewrite B2R_Babs; now rewrite S1).
  assert (Hf : is_finite (Babs (slope T s)) = true) by (rewrite is_finite_Babs; exact S2).
  assert (E : round_to_int (Babs (slope T s)) = Ok (near (Z.abs s) (T - 1))).
  { rewrite (round_to_int_RA _ Hf), Ha.
    assert (Em : Rabs (mR T s) = mR T (Z.abs s)).
    { destruct (Z_le_gt_dec 0 s) as [H|H].
      - rewrite Z.abs_eq by auto. apply Rabs_pos_eq. apply mR_sign_pos; auto.
      - rewrite Z.abs_neq by lia. rewrite mR_opp. apply Rabs_left1. apply mR_sign_neg; [auto|lia]. }
    rewrite Em, RA_slope_abs by lia.
    assert (Hb : 0 <= near (Z.abs s) (T - 1) <= 2 ^ 22).
    { pose proof (proj1 (near_spec (Z.abs s) (T - 1) _ ltac:(lia)) eq_refl). nia. }
    assert (2 ^ 22 < 2 ^ 31) by reflexivity.
    replace (_ && _) with true by lia. reflexivity. }
  unfold desmear_width. destruct (slope T s) eqn:Esl; try discriminate S2; rewrite E; reflexivity.
Qed.
