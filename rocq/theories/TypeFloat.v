(** Element types: arithmetic and comparisons with a float operand, logical and. *)
From Verif Require Import DriftFloatProofs.
From Verif Require Export CcFloat TypeFacts TypeModel.
From Coq Require Import ZifyBool Lia Reals Lra.
From Flocq Require Import Core BinarySingleNaN.
Local Open Scope Z_scope.

(** ** What is expected *)
(** Rounding to binary32, ties to even, without a largest number. *)
Definition RN (x : R) : R := round radix2 (FLT_exp (-149) 24) ZnearestE x.
(** The number an element is, and the binary32 number it is read as beside a float: the largest finite ones are below 2^128, the infinities are +-2^128. *)
Definition exactly (v : elem) : R := match v with NF x => fval x | NZ z => IZR z end.
Definition nearest (v : elem) : R := match v with NF x => fval x | NZ z => RN (IZR z) end.
Definition finite_elem (v : elem) : Prop := match v with NF x => is_finite x = true | NZ _ => True end.
Definition not_nan (v : elem) : Prop := match v with NF x => is_nan x = false | NZ _ => True end.
Definition real_op (o : aop) (x y : R) : R := match o with OpAdd => (x + y)%R | OpSub => (x - y)%R | OpMul => (x * y)%R | OpDiv => (x / y)%R end.
Definition related (r : relop) (x y : R) : Prop :=
  match r with RGt => (y < x)%R | RGe => (y <= x)%R | RLt => (x < y)%R | RLe => (x <= y)%R | REq => x = y end.
Definition strict (r : relop) : bool := match r with RGt | RLt => true | _ => false end.
Definition array_ty (t : ty) : Prop := t = F32 \/ small_int t.

(** ** Conversions *)
Lemma RN_mono x y : (x <= y)%R -> (RN x <= RN y)%R.
Proof. apply round_le; [apply FLT_exp_valid; reflexivity|apply valid_rnd_N]. Qed.
Lemma array_int_range t z : array_ty t -> of_type t (NZ z) -> Z.abs z <= 2 ^ 32.
Proof. intros [-> |[-> |[-> | ->]]]; cbn [of_type least greatest]; lia. Qed.
Lemma f32_of_int' z : Z.abs z <= 2 ^ 32 -> B2R (f32_of_Z z) = RN (IZR z) /\ is_finite (f32_of_Z z) = true.
Proof.
  intros H. pose proof (binary_normalize_correct 24 128 prec24 emax128 mode_NE z 0 false) as C. cbv zeta in C.
  assert (EF : F2R (Float radix2 z 0) = IZR z) by (unfold F2R; cbn; ring). rewrite EF in C.
  rewrite Rlt_bool_true in C. { destruct C as (C1 & C2 & _). split; [exact C1|exact C2]. }
  apply Rle_lt_trans with (bpow radix2 32); [|apply bpow_lt; lia].
  apply abs_round_le_generic; [exact (fexp_correct 24 128 prec24)|apply valid_rnd_N| |].
  - rewrite fexp32_FLT. apply generic_format_FLT_bpow; [reflexivity|lia].
  - rewrite <- abs_IZR, <- IZR_pow2 by lia. apply IZR_le. exact H.
Qed.
Lemma fval_finite x : is_finite x = true -> fval x = B2R x. Proof. destruct x; try discriminate; reflexivity. Qed.
Lemma cast_float t v : array_ty t -> of_type t v -> exists x, cast F32 v = Ok (NF x) /\ fval x = nearest v /\ (finite_elem v -> is_finite x = true) /\ (not_nan v <-> is_nan x = false).
Proof.
  intros Ht Hv. destruct v as [x|z]; cbn [cast nearest finite_elem not_nan]; eexists; (split; [reflexivity|]); [tauto|].
  destruct (f32_of_int' z (array_int_range t z Ht Hv)) as (A & B). rewrite fval_finite by exact B. split; [exact A|]. split; [auto|]. split; [|auto]. intros _. destruct (f32_of_Z z); try discriminate; reflexivity.
Qed.
Lemma trunc_Z_ok (x : f32) : is_finite x = true -> trunc_Z x = Some (Ztrunc (B2R x)).
Proof.
  destruct x as [s|s| |s m e H]; intros Hf; try discriminate; cbn [trunc_Z B2R]; [now rewrite Ztrunc_IZR|]. f_equal.
  rewrite F2R_cond_Zopp. assert (E : Ztrunc (cond_Ropp s (F2R (Float radix2 (Z.pos m) e))) = cond_Zopp s (Ztrunc (F2R (Float radix2 (Z.pos m) e)))) by (destruct s; cbn [cond_Ropp cond_Zopp]; [apply Ztrunc_opp|reflexivity]).
  rewrite E. f_equal. unfold F2R. cbn [Fnum Fexp]. destruct (0 <=? e) eqn:Ee.
  - rewrite <- (IZR_Zpower radix2) by lia. rewrite <- mult_IZR, Ztrunc_IZR. reflexivity.
  - rewrite Ztrunc_floor by (apply Rmult_le_pos; [apply IZR_le; lia|apply bpow_ge_0]). rewrite <- Zfloor_div by (pose proof (Z.pow_pos_nonneg 2 (- e)); lia).
    f_equal. unfold Rdiv. f_equal. replace e with (- (- e)) at 2 by lia. rewrite bpow_opp. f_equal. rewrite <- (IZR_Zpower radix2) by lia. reflexivity.
Qed.
Lemma common_float ta tb : array_ty ta -> array_ty tb -> ta = F32 \/ tb = F32 -> common ta tb = F32.
Proof. intros [-> |[-> |[-> | ->]]] [-> |[-> |[-> | ->]]] [|]; try discriminate; reflexivity. Qed.

(** ** Arithmetic *)
Lemma fop_ok o x y : is_finite x = true -> is_finite y = true -> (o = OpDiv -> B2R y <> 0%R) ->
  let w := RN (real_op o (B2R x) (B2R y)) in
  if Rlt_bool (Rabs w) (bpow radix2 128) then B2R (fop o x y) = w /\ is_finite (fop o x y) = true
  else exists s, fop o x y = B754_infinity s.
Proof.
  intros Hx Hy Hd w.
  assert (G : forall z : f32, forall s, B2SF z = binary_overflow 24 128 mode_NE s -> exists s, z = B754_infinity s).
  { intros [s'|s'| |s' m e H] s E; try discriminate. now exists s'. }
  destruct o; cbn [fop real_op] in *.
  - pose proof (Bplus_correct 24 128 prec24 emax128 mode_NE x y Hx Hy) as C. change (round _ _ _ _) with w in C. destruct (Rlt_bool _ _); [tauto|]. eapply G. apply C.
  - pose proof (Bminus_correct 24 128 prec24 emax128 mode_NE x y Hx Hy) as C. change (round _ _ _ _) with w in C. destruct (Rlt_bool _ _); [tauto|]. eapply G. apply C.
  - pose proof (Bmult_correct 24 128 prec24 emax128 mode_NE x y) as C. change (round _ _ _ _) with w in C. rewrite Hx, Hy in C. destruct (Rlt_bool _ _); [tauto|]. eapply G. apply C.
  - pose proof (Bdiv_correct 24 128 prec24 emax128 mode_NE x y (Hd eq_refl)) as C. change (round _ _ _ _) with w in C. rewrite Hx in C. destruct (Rlt_bool _ _); [tauto|]. eapply G. apply C.
Qed.
Definition float_result (ta : ty) (w : R) (r : outcome elem) : Prop :=
  match ta with
  | F32 => exists v, r = Ok (NF v) /\ if Rlt_bool (Rabs w) (bpow radix2 128) then is_finite v = true /\ B2R v = w else exists s, v = B754_infinity s
  | _ => if Rlt_bool (Rabs w) (bpow radix2 128) && (least ta <=? Ztrunc w) && (Ztrunc w <=? greatest ta) then r = Ok (NZ (Ztrunc w)) else r = UB
  end.
Lemma arith_float ta tb o x y : array_ty ta -> array_ty tb -> ta = F32 \/ tb = F32 -> of_type ta x -> of_type tb y ->
  finite_elem x -> finite_elem y -> (o = OpDiv -> nearest y <> 0%R) ->
  float_result ta (RN (real_op o (nearest x) (nearest y))) (arith ta ta tb o x y).
Proof.
  intros Ha Hb Hf Tx Ty Fx Fy Hd. unfold arith. rewrite (common_float _ _ Ha Hb Hf).
  destruct (cast_float ta x Ha Tx) as (u & -> & Eu & Fu & _). destruct (cast_float tb y Hb Ty) as (v & -> & Ev & Fv & _).
  specialize (Fu Fx). specialize (Fv Fy). rewrite fval_finite in Eu, Ev by assumption. cbn [obind in_type].
  pose proof (fop_ok o u v Fu Fv) as G. rewrite Eu, Ev in G. specialize (G Hd). cbv zeta in G.
  set (w := RN _) in *. unfold float_result. destruct (Rlt_bool (Rabs w) (bpow radix2 128)) eqn:El.
  - destruct G as (G1 & G2). destruct Ha as [-> |Ha].
    + cbn [cast]. eexists. split; [reflexivity|]. split; assumption.
    + assert (C : forall t, t <> F32 -> cast t (NF (fop o u v)) = if fits t (Ztrunc w) then Ok (NZ (Ztrunc w)) else UB).
      { intros t Hne. pose proof (trunc_Z_ok _ G2) as E. rewrite G1 in E. destruct t; try congruence; cbn [cast]; rewrite E; reflexivity. }
      destruct (small_not _ Ha) as (Na & _). rewrite (C ta Na). pose proof (fits_spec ta (Ztrunc w) Na) as Fs.
      destruct (fits ta (Ztrunc w)) eqn:E; [apply proj1 in Fs; specialize (Fs eq_refl)|];
        (destruct ((least ta <=? Ztrunc w) && (Ztrunc w <=? greatest ta)) eqn:E2; [|]); destruct ta; try congruence; cbn [andb]; rewrite ?E2; try reflexivity; exfalso; try lia; apply proj2 in Fs; discriminate Fs; lia.
  - destruct G as (s & ->). destruct Ha as [-> |Ha].
    + cbn [cast]. eexists. split; [reflexivity|]. now exists s.
    + destruct (small_not _ Ha) as (Na & _). destruct ta; try congruence; reflexivity.
Qed.
(** A NaN beside anything, and a quotient by zero. *)
Lemma fop_nan o x y : is_nan x = true \/ is_nan y = true -> is_nan (fop o x y) = true.
Proof.
  intros [H|H]; [destruct x as [| | |]; try discriminate; destruct o; reflexivity|].
  destruct y as [| | |]; try discriminate. destruct o, x; reflexivity.
Qed.
Lemma fop_zero x y : is_finite y = true -> B2R y = 0%R -> is_finite (fop OpDiv x y) = false.
Proof.
  intros Hf H. destruct y as [s|s| |s m e Hb]; try discriminate; [destruct x; reflexivity|]. exfalso. cbn [B2R] in H. apply eq_0_F2R in H. destruct s; discriminate.
Qed.
Lemma arith_nonfinite ta tb o x y : array_ty ta -> array_ty tb -> ta = F32 \/ tb = F32 -> of_type ta x -> of_type tb y ->
  ~ not_nan x \/ ~ not_nan y \/ (o = OpDiv /\ finite_elem y /\ nearest y = 0%R) ->
  if match ta with F32 => true | _ => false end
  then exists v, arith ta ta tb o x y = Ok (NF v) /\ is_finite v = false /\ (~ not_nan x \/ ~ not_nan y -> is_nan v = true)
  else arith ta ta tb o x y = UB.
Proof.
  intros Ha Hb Hf Tx Ty Hn. unfold arith. rewrite (common_float _ _ Ha Hb Hf).
  destruct (cast_float ta x Ha Tx) as (u & -> & Eu & Fu & Nu). destruct (cast_float tb y Hb Ty) as (v & -> & Ev & Fv & Nv). cbn [obind in_type].
  assert (N : ~ not_nan x \/ ~ not_nan y -> is_nan (fop o u v) = true).
  { intros H. apply fop_nan. destruct (is_nan u), (is_nan v); auto. exfalso. tauto. }
  assert (F : is_finite (fop o u v) = false).
  { assert (G : is_nan (fop o u v) = true -> is_finite (fop o u v) = false) by (destruct (fop o u v); try discriminate; auto).
    destruct Hn as [Hn|[Hn|(-> & Fy & Ey)]]; [apply G; tauto|apply G; tauto|]. specialize (Fv Fy). rewrite fval_finite in Ev by exact Fv. apply fop_zero; congruence. }
  destruct Ha as [-> |Ha]; [cbn [cast]; eexists; split; [reflexivity|]; split; assumption|].
  destruct (small_not _ Ha) as (Na & _). destruct (fop o u v); try discriminate F; destruct ta; try congruence; reflexivity.
Qed.

(** ** Comparisons *)
Lemma Bcompare_fval (a b : f32) : is_nan a = false -> is_nan b = false -> Bcompare a b = Some (Rcompare (fval a) (fval b)).
Proof.
  intros Na Nb. pose proof (bpow_gt_0 radix2 128) as Hp. destruct (is_finite a && is_finite b) eqn:Ef.
  - apply andb_prop in Ef as (Ea & Eb). rewrite Bcompare_correct by auto. now rewrite !fval_finite by assumption.
  - assert (Hlt : forall s m e H, (- bpow radix2 128 < B2R (B754_finite s m e H : f32) < bpow radix2 128)%R).
    { intros s m e H. pose proof (abs_B2R_lt_emax 24 128 (B754_finite s m e H)) as Hb. apply Rabs_lt_inv in Hb. exact Hb. }
    assert (Hz : forall s, B2R (B754_zero s : f32) = 0%R) by reflexivity.
    destruct a as [sa|[|]| |sa m e H], b as [sb|[|]| |sb m' e' H']; cbn [is_finite andb] in Ef; try discriminate;
      cbn [fval]; rewrite ?Hz; try (pose proof (Hlt sa m e H)); try (pose proof (Hlt sb m' e' H')); unfold Bcompare; cbn [B2SF SpecFloat.SFcompare];
      symmetry; f_equal; first [apply Rcompare_Eq; lra|apply Rcompare_Lt; lra|apply Rcompare_Gt; lra].
Qed.
Lemma Bcompare_nan (a b : f32) : is_nan a = true \/ is_nan b = true -> Bcompare a b = None.
Proof. intros [H|H]; [destruct a; try discriminate; reflexivity|]. destruct b; try discriminate. now destruct a as [|[|]| |[|]]. Qed.
Lemma holds_related r x y : holds r (Some (Rcompare x y)) = true <-> related r x y.
Proof. destruct (Rcompare_spec x y), r; cbn; split; intros; try discriminate; try reflexivity; try lra. Qed.
Lemma holds_Z r x y : holds r (Some (Z.compare x y)) = true <-> related r (IZR x) (IZR y).
Proof.
  rewrite <- holds_related. now rewrite Rcompare_IZR.
Qed.
Definition flag (b : bool) : elem := NZ (if b then 1 else 0).
Lemma compare_float ta tb r x y : array_ty ta -> array_ty tb -> ta = F32 \/ tb = F32 -> of_type ta x -> of_type tb y ->
  exists b, compare ta tb r x y = Ok (flag b) /\ (b = true <-> not_nan x /\ not_nan y /\ related r (nearest x) (nearest y)).
Proof.
  intros Ha Hb Hf Tx Ty. unfold compare. rewrite (common_float _ _ Ha Hb Hf).
  destruct (cast_float ta x Ha Tx) as (u & -> & Eu & _ & Nu). destruct (cast_float tb y Hb Ty) as (v & -> & Ev & _ & Nv). cbn [obind].
  eexists. split; [reflexivity|]. rewrite Nu, Nv, <- Eu, <- Ev. destruct (is_nan u) eqn:E1, (is_nan v) eqn:E2.
  1-3: rewrite Bcompare_nan by auto; destruct r; cbn; intuition discriminate.
  rewrite Bcompare_fval by assumption. rewrite holds_related. tauto.
Qed.
Lemma compare_int ta tb r x y : small_int ta -> small_int tb -> of_type ta (NZ x) -> of_type tb (NZ y) ->
  let u := unsigned_pair ta tb in
  exists b, compare ta tb r (NZ x) (NZ y) = Ok (flag b) /\ (b = true <-> related r (IZR (read_as u x)) (IZR (read_as u y))).
Proof.
  intros Sa Sb Hx Hy u. unfold compare. rewrite (common_small _ _ Sa Sb). fold u. destruct u eqn:Eu; cbn [cast obind].
  - eexists. split; [reflexivity|]. rewrite holds_Z. reflexivity.
  - destruct (small_in_I32 _ _ _ _ Sa Sb Eu Hx Hy) as (Rx & Ry). rewrite !wrap_id by (try discriminate; assumption).
    eexists. split; [reflexivity|]. rewrite holds_Z. reflexivity.
Qed.
(** Rounding cannot turn an order round. *)
Lemma RN_format (x : R) : generic_format radix2 (FLT_exp (-149) 24) x -> RN x = x.
Proof. intros H. apply round_generic; [apply valid_rnd_N|exact H]. Qed.
Lemma fval_format (x : f32) : generic_format radix2 (FLT_exp (-149) 24) (fval x).
Proof.
  assert (B : generic_format radix2 (FLT_exp (-149) 24) (bpow radix2 128)) by (apply generic_format_FLT_bpow; [reflexivity|lia]).
  destruct x as [s|[|]| |s m e H]; cbn [fval]; [apply generic_format_0|now apply generic_format_opp|exact B|apply generic_format_0|].
  rewrite <- fexp32_FLT. apply generic_format_B2R.
Qed.
Lemma nearest_RN v : nearest v = RN (exactly v).
Proof. destruct v as [x|z]; cbn [nearest exactly]; [|reflexivity]. symmetry. apply RN_format, fval_format. Qed.
Lemma related_nearest r x y : if strict r then related r (nearest x) (nearest y) -> related r (exactly x) (exactly y)
                              else related r (exactly x) (exactly y) -> related r (nearest x) (nearest y).
Proof.
  rewrite !nearest_RN. destruct r; cbn [strict related]; intros H.
  - destruct (Rlt_or_le (exactly y) (exactly x)) as [|G]; [assumption|]. apply RN_mono in G. lra.
  - now apply RN_mono.
  - destruct (Rlt_or_le (exactly x) (exactly y)) as [|G]; [assumption|]. apply RN_mono in G. lra.
  - now apply RN_mono.
  - now rewrite H.
Qed.
Lemma nearest_small z : Z.abs z <= 2 ^ 24 -> nearest (NZ z) = IZR z.
Proof. intros H. apply RN_format. apply format_int; lia. Qed.

(** ** Logical and *)
Lemma land_U32 x y : (Z.land (x mod 4294967296) (y mod 4294967296)) mod 256 = (Z.land x y) mod 256.
Proof.
  change 4294967296 with (2 ^ 32). change 256 with (2 ^ 8). apply Z.bits_inj'. intros n Hn.
  destruct (Z.lt_ge_cases n 8); [rewrite !Z.mod_pow2_bits_low, !Z.land_spec, !Z.mod_pow2_bits_low by lia; reflexivity|now rewrite !Z.mod_pow2_bits_high by lia].
Qed.
Lemma land_I32 x y : - 2147483648 <= x <= 2147483647 -> - 2147483648 <= y <= 2147483647 -> - 2147483648 <= Z.land x y <= 2147483647.
Proof.
  intros Hx Hy.
  assert (K : forall z, - 2147483648 <= z <= 2147483647 <-> (forall n, 31 <= n -> Z.testbit z n = Z.testbit z 31)).
  { intros z. change 2147483648 with (2 ^ 31). change 2147483647 with (2 ^ 31 - 1).
    assert (B : forall n, 31 <= n -> Z.testbit z n = Z.testbit (z / 2 ^ 31) (n - 31)) by (intros n Hn; rewrite Z.div_pow2_bits by lia; f_equal; lia).
    split.
    - intros H n Hn. rewrite !B by lia. assert (z / 2 ^ 31 = 0 \/ z / 2 ^ 31 = -1) as [-> | ->] by (change (2 ^ 31) with 2147483648 in *; lia); [now rewrite !Z.bits_0|]. rewrite !Z.bits_m1 by lia. reflexivity.
    - intros H. assert (D : z / 2 ^ 31 = 0 \/ z / 2 ^ 31 = -1); [|change (2 ^ 31) with 2147483648 in *; lia].
      destruct (Z.testbit z 31) eqn:E.
      + right. apply Z.bits_inj'. intros n Hn. rewrite Z.bits_m1 by exact Hn. rewrite Z.div_pow2_bits by lia. apply H. lia.
      + left. apply Z.bits_inj'. intros n Hn. rewrite Z.bits_0. rewrite Z.div_pow2_bits by lia. apply H. lia. }
  apply K. intros n Hn. rewrite !Z.land_spec. apply K with (n := n) in Hx; [|exact Hn]. apply K with (n := n) in Hy; [|exact Hn]. now rewrite Hx, Hy.
Qed.
Lemma logical_and_int ta tb x y : small_int ta -> small_int tb -> of_type ta (NZ x) -> of_type tb (NZ y) ->
  logical_and ta tb (NZ x) (NZ y) = Ok (NZ (Z.land x y mod 256)).
Proof.
  intros Sa Sb Hx Hy. destruct (small_not _ Sa) as (Na & _). destruct (small_not _ Sb) as (Nb & _).
  assert (E : logical_and ta tb (NZ x) (NZ y) = let c := common ta tb in let! a := cast c (NZ x) in let! b := cast c (NZ y) in
    match a, b with NZ u, NZ v => cast U8 (NZ (wrap c (Z.land u v))) | _, _ => UB end) by (destruct ta, tb; try congruence; reflexivity).
  rewrite E. cbv zeta. rewrite (common_small _ _ Sa Sb). destruct (unsigned_pair ta tb) eqn:Eu; cbn [cast obind].
  - do 2 f_equal. change (wrap U32 ?z) with (z mod 4294967296). change (wrap U8 ?z) with (z mod 256). rewrite <- (land_U32 x y).
    change 256 with (2 ^ 8). change 4294967296 with (2 ^ 32). apply Z.bits_inj'. intros n Hn.
    destruct (Z.lt_ge_cases n 8); [rewrite !Z.mod_pow2_bits_low by lia; reflexivity|now rewrite !Z.mod_pow2_bits_high by lia].
  - destruct (small_in_I32 _ _ _ _ Sa Sb Eu Hx Hy) as (Rx & Ry). rewrite !(wrap_id I32) by (try discriminate; try assumption; rewrite ?wrap_id by (try discriminate; assumption); apply land_I32; assumption). reflexivity.
Qed.
