(** Reductions of integer arrays: what is expected of the elements reduced to one result, and the lemmas about folds. *)
From Verif Require Import DriftFloatProofs.
From Verif Require Export TypeFloat TRedModel TypeFacts TypeModel.
From Coq Require Import ZifyBool Lia Reals Lra.
From Flocq Require Import Core BinarySingleNaN.
Local Open Scope Z_scope.

(** ** What is expected *)
(** The sums are modulo the range of unsigned types; those of int32 must stay in range at every step. *)
Definition unsigned_ty (t : ty) : bool := match t with U8 | U32 => true | _ => false end.
Definition sums_fit (t : ty) (zs : list Z) : Prop := unsigned_ty t = true \/ forall k, least t <= zsum (firstn k zs) <= greatest t.
Definition squares (zs : list Z) : list Z := map (fun x => x * x) zs.
Definition each_square_fits (t : ty) (zs : list Z) : Prop := unsigned_ty t = true \/ Forall (fun x => x * x <= greatest t) zs.
Definition is_sum (t : ty) (zs : list Z) (r : outcome elem) : Prop :=
  (sums_fit t zs -> exists z, r = Ok (NZ z) /\ stands_for t (zsum zs) z) /\ (~ sums_fit t zs -> r = UB).
Definition is_mean (t : ty) (zs : list Z) (n : Z) (r : outcome elem) : Prop :=
  (sums_fit t zs -> exists z, r = Ok (NZ (Z.quot z n)) /\ stands_for t (zsum zs) z) /\ (~ sums_fit t zs -> r = UB).
(** The square root of a difference of sums, in integers. *)
Definition is_stddev (t : ty) (zs : list Z) (r : outcome elem) : Prop :=
  let c := zlen zs mod modulus t in
  (c <> 0 -> each_square_fits t zs ->
     r = Ok (NZ (if c =? 1 then Z.sqrt ((zsum (squares zs) - zsum zs * zsum zs) mod modulus t) else 0))) /\
  (c = 0 \/ ~ each_square_fits t zs -> r = UB).
(** Masked: [zs] are the elements used, [n0] is the number of all. *)
Definition is_masked_stddev (t : ty) (n0 : Z) (zs : list Z) (r : outcome elem) : Prop :=
  (n0 mod modulus t <> 0 -> sums_fit t (squares zs) ->
     exists s1 s2, stands_for t (zsum zs) s1 /\ stands_for t (zsum (squares zs)) s2 /\
       let v := s2 / zlen zs - Z.quot s1 (zlen zs) * Z.quot s1 (zlen zs) in if v <? 0 then r = UB else r = Ok (NZ (Z.sqrt v))) /\
  (n0 mod modulus t = 0 \/ ~ sums_fit t (squares zs) -> r = UB).

(** ** Single steps *)
Lemma acc_U8 a x : 0 <= a <= 255 -> 0 <= x <= 255 -> accumulate U8 (Ok (NZ a)) (NZ x) = Ok (NZ ((a + x) mod 256)).
Proof.
  intros Ha Hx. unfold accumulate, promoted. cbn [obind common in_type zop signed andb].
  rewrite (proj2 (fits_spec I32 (a + x) ltac:(discriminate))) by (cbn; lia). reflexivity.
Qed.
Lemma acc_U32 a x : accumulate U32 (Ok (NZ a)) (NZ x) = Ok (NZ ((a + x) mod 4294967296)).
Proof.
  unfold accumulate, promoted. cbn [obind common in_type zop signed andb cast]. do 2 f_equal. change (wrap U32 ?z) with (z mod 4294967296). apply Z.mod_mod. lia.
Qed.
Lemma acc_I32 a x : accumulate I32 (Ok (NZ a)) (NZ x) = if fits I32 (a + x) then Ok (NZ (a + x)) else UB.
Proof.
  unfold accumulate, promoted. cbn [obind common in_type zop signed andb]. destruct (fits I32 (a + x)) eqn:E; [|reflexivity]. cbn [obind cast].
  rewrite wrap_id; [reflexivity|discriminate|]. apply fits_spec; [discriminate|exact E].
Qed.
Lemma acc_unsigned t a x : unsigned_ty t = true -> of_type t (NZ a) -> of_type t (NZ x) -> accumulate t (Ok (NZ a)) (NZ x) = Ok (NZ ((a + x) mod modulus t)).
Proof. destruct t; try discriminate; intros _ Ha Hx; [now apply acc_U8|apply acc_U32]. Qed.
Lemma mod_typed t z : unsigned_ty t = true -> of_type t (NZ (z mod modulus t)).
Proof. destruct t; try discriminate; intros _; cbn [of_type least greatest modulus]; lia. Qed.
Lemma mod_stands t z : unsigned_ty t = true -> stands_for t z (z mod modulus t).
Proof.
  intros H. split; [pose proof (mod_typed t z H); destruct t; try discriminate; assumption|]. exists (- (z / modulus t)). destruct t; try discriminate; cbn [modulus]; lia.
Qed.

(** ** Sums *)
Lemma sum_unsigned t zs : unsigned_ty t = true -> Forall (fun z => of_type t (NZ z)) zs -> forall a, of_type t (NZ a) ->
  fold_left (accumulate t) (map NZ zs) (Ok (NZ a)) = Ok (NZ ((a + zsum zs) mod modulus t)).
Proof.
  intros Hu H. induction H as [|x zs Hx H IH]; intros a Ha; cbn [map fold_left].
  - rewrite zsum_nil, Z.add_0_r. rewrite Z.mod_small; [reflexivity|]. destruct t; try discriminate; cbn [of_type least greatest modulus] in *; lia.
  - rewrite acc_unsigned by assumption. rewrite IH by now apply mod_typed. do 2 f_equal. rewrite zsum_cons. rewrite Z.add_mod_idemp_l by (destruct t; discriminate). f_equal. lia.
Qed.
Lemma sum_ub t (xs : list elem) : fold_left (accumulate t) xs UB = UB.
Proof. induction xs; [reflexivity|]. cbn [fold_left]. exact IHxs. Qed.
Lemma sum_I32 zs : forall a, of_type I32 (NZ a) ->
  ((forall k, least I32 <= a + zsum (firstn k zs) <= greatest I32) -> fold_left (accumulate I32) (map NZ zs) (Ok (NZ a)) = Ok (NZ (a + zsum zs))) /\
  (~ (forall k, least I32 <= a + zsum (firstn k zs) <= greatest I32) -> fold_left (accumulate I32) (map NZ zs) (Ok (NZ a)) = UB).
Proof.
  induction zs as [|x zs IH]; intros a Ha; cbn [map fold_left].
  - split; [intros _; now rewrite zsum_nil, Z.add_0_r|]. intros H. exfalso. apply H. intros k. rewrite firstn_nil, zsum_nil, Z.add_0_r. exact Ha.
  - rewrite acc_I32. destruct (fits I32 (a + x)) eqn:E.
    + assert (T : of_type I32 (NZ (a + x))) by (apply fits_spec in E; [exact E|discriminate]). destruct (IH (a + x) T) as (I1 & I2).
      assert (Eq : (forall k, least I32 <= a + zsum (firstn k (x :: zs)) <= greatest I32) <-> (forall k, least I32 <= a + x + zsum (firstn k zs) <= greatest I32)).
      { split; intros H k.
        - specialize (H (S k)). cbn [firstn] in H. rewrite zsum_cons in H. lia.
        - destruct k as [|k]; [cbn [firstn]; rewrite zsum_nil, Z.add_0_r; exact Ha|]. specialize (H k). cbn [firstn]. rewrite zsum_cons. lia. }
      rewrite Eq. rewrite zsum_cons. split; intros H; [rewrite I1 by exact H; do 2 f_equal; lia|now apply I2].
    + rewrite sum_ub. split; [|reflexivity]. intros H. exfalso. specialize (H 1%nat). cbn [firstn] in H. rewrite zsum_cons, zsum_nil in H.
      assert (F : fits I32 (a + x) = true) by (apply fits_spec; [discriminate|lia]). congruence.
Qed.
Lemma small_cases t : small_int t -> unsigned_ty t = true \/ t = I32. Proof. intros [-> |[-> | ->]]; auto. Qed.
Lemma zero_typed t : small_int t -> of_type t (NZ 0). Proof. intros [-> |[-> | ->]]; cbn; lia. Qed.
Lemma sum_result t zs : small_int t -> Forall (fun z => of_type t (NZ z)) zs -> is_sum t zs (fold_left (accumulate t) (map NZ zs) (Ok (NZ 0))).
Proof.
  intros Hs H. destruct (small_cases t Hs) as [Hu| ->].
  - split; [|intros Hn; exfalso; apply Hn; now left]. intros _. rewrite sum_unsigned by (try assumption; now apply zero_typed). rewrite Z.add_0_l. eexists. split; [reflexivity|]. now apply mod_stands.
  - destruct (sum_I32 zs 0 (zero_typed _ Hs)) as (I1 & I2). split.
    + intros [|F]; [discriminate|]. rewrite I1 by exact F. eexists. split; [reflexivity|]. rewrite Z.add_0_l. apply stands_self. specialize (F (length zs)). now rewrite firstn_all in F.
    + intros Hn. apply I2. intros F. apply Hn. now right.
Qed.
Lemma prefixes_dec lo hi zs : forall a, (forall k, lo <= a + zsum (firstn k zs) <= hi) \/ ~ (forall k, lo <= a + zsum (firstn k zs) <= hi).
Proof.
  induction zs as [|x zs IH]; intros a.
  - destruct (Z_le_dec lo a) as [H1|H1]; [destruct (Z_le_dec a hi) as [H2|H2]|].
    + left. intros k. rewrite firstn_nil, zsum_nil. lia.
    + right. intros H. specialize (H 0%nat). rewrite firstn_nil, zsum_nil in H. lia.
    + right. intros H. specialize (H 0%nat). rewrite firstn_nil, zsum_nil in H. lia.
  - destruct (IH (a + x)) as [H|H].
    + destruct (Z_le_dec lo a) as [H1|H1]; [destruct (Z_le_dec a hi) as [H2|H2]|].
      * left. intros [|k]; cbn [firstn]; rewrite ?zsum_nil, ?zsum_cons; [lia|]. specialize (H k). lia.
      * right. intros G. specialize (G 0%nat). cbn [firstn] in G. rewrite zsum_nil in G. lia.
      * right. intros G. specialize (G 0%nat). cbn [firstn] in G. rewrite zsum_nil in G. lia.
    + right. intros G. apply H. intros k. specialize (G (S k)). cbn [firstn] in G. rewrite zsum_cons in G. lia.
Qed.
Lemma sums_fit_dec t zs : sums_fit t zs \/ ~ sums_fit t zs.
Proof.
  unfold sums_fit. destruct (unsigned_ty t); [now left; left|]. destruct (prefixes_dec (least t) (greatest t) zs 0) as [H|H].
  - left. right. intros k. specialize (H k). lia.
  - right. intros [|G]; [discriminate|]. apply H. intros k. specialize (G k). lia.
Qed.

(** ** Promoted operations of unsigned types *)
Lemma prom_unsigned t o x y : unsigned_ty t = true -> o <> OpDiv -> (t = U8 -> Z.abs (zop o x y) <= 1000000) ->
  exists r, promoted t o (NZ x) (NZ y) = Ok (NZ r) /\ r mod modulus t = zop o x y mod modulus t /\ (t = U8 -> r = zop o x y).
Proof.
  intros Hu Ho Hb. unfold promoted, in_type. assert (E : match o with OpDiv => true | _ => false end = false) by (destruct o; congruence). rewrite E. cbn [andb].
  destruct t; try discriminate; cbn [common signed].
  - specialize (Hb eq_refl). rewrite (proj2 (fits_spec I32 _ ltac:(discriminate))) by (cbn; lia). eexists. split; [reflexivity|]. auto.
  - eexists. split; [reflexivity|]. split; [|discriminate]. change (wrap U32 ?z) with (z mod 4294967296). cbn [modulus]. apply Z.mod_mod. lia.
Qed.
Lemma cast_unsigned t r : unsigned_ty t = true -> cast t (NZ r) = Ok (NZ (r mod modulus t)).
Proof. destruct t; try discriminate; reflexivity. Qed.
Lemma modulus_pos t : 0 < modulus t. Proof. destruct t; cbn; lia. Qed.

(** ** Square roots *)
Lemma f64_int z : Z.abs z <= 2 ^ 64 -> exists x, f64_of_Z z = x /\ is_finite x = true /\ B2R x = round radix2 (SpecFloat.fexp 53 1024) ZnearestE (IZR z) /\ (z < 0 -> Bsign x = true).
Proof.
  intros H. exists (f64_of_Z z). split; [reflexivity|]. pose proof (binary_normalize_correct 53 1024 prec53 emax1024 mode_NE z 0 false) as C. cbv zeta in C.
  assert (EF : F2R (Float radix2 z 0) = IZR z) by (unfold F2R; cbn; ring). rewrite EF in C.
  rewrite Rlt_bool_true in C.
  - destruct C as (C1 & C2 & C3). split; [exact C2|]. split; [exact C1|]. intros Hz. change (Bsign (f64_of_Z z) = true). unfold f64_of_Z. rewrite C3.
    rewrite Rcompare_Lt; [reflexivity|]. apply IZR_lt. exact Hz.
  - apply Rle_lt_trans with (bpow radix2 64); [|apply bpow_lt; lia].
    apply abs_round_le_generic; [exact (fexp_correct 53 1024 prec53)|apply valid_rnd_N| |].
    + change (SpecFloat.fexp 53 1024) with (FLT_exp (-1074) 53). apply generic_format_FLT_bpow; [reflexivity|lia].
    + rewrite <- abs_IZR, <- IZR_pow2 by lia. apply IZR_le. exact H.
Qed.
Lemma root_negative t z : z < 0 -> Z.abs z <= 2 ^ 64 -> root t (NZ z) = UB.
Proof.
  intros Hz Hb. destruct (f64_int z Hb) as (x & Ex & Fx & Vx & Sx). specialize (Sx Hz). cbn [root]. rewrite Ex.
  destruct x as [s|s| |s m e Hm]; try discriminate Fx; cbn [Bsign] in Sx; subst s.
  - exfalso. cbn [B2R] in Vx. symmetry in Vx.
    assert (L : (round radix2 (SpecFloat.fexp 53 1024) ZnearestE (IZR z) <= -1)%R); [|rewrite Vx in L; lra].
    apply round_le_generic; [exact (fexp_correct 53 1024 prec53)|apply valid_rnd_N| |apply (IZR_le z (-1)); lia].
    replace (-1)%R with (- bpow radix2 0)%R by (cbn; ring). apply generic_format_opp. change (SpecFloat.fexp 53 1024) with (FLT_exp (-1074) 53). apply generic_format_FLT_bpow; [reflexivity|lia].
  - reflexivity.
Qed.
Lemma trunc_ok64 (x : f64) : is_finite x = true -> trunc_Z x = Some (Ztrunc (B2R x)).
Proof.
  destruct x as [s|s| |s m e H]; intros Hf; try discriminate; cbn [trunc_Z B2R]; [now rewrite Ztrunc_IZR|]. f_equal.
  rewrite F2R_cond_Zopp. assert (E : Ztrunc (cond_Ropp s (F2R (Float radix2 (Z.pos m) e))) = cond_Zopp s (Ztrunc (F2R (Float radix2 (Z.pos m) e)))) by (destruct s; cbn [cond_Ropp cond_Zopp]; [apply Ztrunc_opp|reflexivity]).
  rewrite E. f_equal. unfold F2R. cbn [Fnum Fexp]. destruct (0 <=? e) eqn:Ee.
  - rewrite <- (IZR_Zpower radix2) by lia. rewrite <- mult_IZR, Ztrunc_IZR. reflexivity.
  - rewrite Ztrunc_floor by (apply Rmult_le_pos; [apply IZR_le; lia|apply bpow_ge_0]). rewrite <- Zfloor_div by (pose proof (Z.pow_pos_nonneg 2 (- e)); lia).
    f_equal. unfold Rdiv. f_equal. replace e with (- (- e)) at 2 by lia. rewrite bpow_opp. f_equal. rewrite <- (IZR_Zpower radix2) by lia. reflexivity.
Qed.
Lemma format64 m e : Z.abs m <= 2 ^ 53 -> -1074 <= e -> e <= 900 -> generic_format radix2 (SpecFloat.fexp 53 1024) (IZR m * bpow radix2 e).
Proof.
  intros Hm He _. change (SpecFloat.fexp 53 1024) with (FLT_exp (-1074) 53). destruct (Z.eq_dec (Z.abs m) (2 ^ 53)) as [E|E].
  - assert (F : generic_format radix2 (FLT_exp (-1074) 53) (bpow radix2 (53 + e))) by (apply generic_format_FLT_bpow; [reflexivity|lia]).
    assert (B : bpow radix2 (53 + e) = (IZR (2 ^ 53) * bpow radix2 e)%R) by (rewrite bpow_plus, IZR_pow2 by lia; reflexivity).
    destruct (Z.abs_spec m) as [(_ & A)|(_ & A)]; [rewrite A in E; subst m; now rewrite <- B|].
    replace m with (- 2 ^ 53) by lia. rewrite opp_IZR, <- Ropp_mult_distr_l, <- B. now apply generic_format_opp.
  - apply generic_format_FLT. exists (Float radix2 m e); [reflexivity| |]; cbn [Fnum Fexp]; [change (radix2 ^ 53) with (2 ^ 53); lia|exact He].
Qed.
Lemma root_exact t v : t <> F32 -> 0 <= v <= 2 ^ 32 -> root t (NZ v) = if fits t (Z.sqrt v) then Ok (NZ (Z.sqrt v)) else UB.
Proof.
  intros Ht Hv. cbn [root]. destruct (f64_of_Z_ok v ltac:(lia)) as (V & F).
  pose proof (Bsqrt_correct 53 1024 prec53 emax1024 mode_NE (f64_of_Z v)) as (S1 & S2 & _). rewrite V in S1.
  assert (Fin : is_finite (Bsqrt mode_NE (f64_of_Z v)) = true).
  { rewrite S2. destruct (f64_of_Z v) as [s|s| |s m e H]; try discriminate F; [reflexivity|]. destruct s; [|reflexivity]. exfalso. cbn [B2R] in V.
    pose proof (F2R_lt_0 radix2 (Float radix2 (cond_Zopp true (Z.pos m)) e) ltac:(reflexivity)) as N. rewrite V in N. apply (lt_IZR v 0) in N. lia. }
  rewrite (trunc_ok64 _ Fin), S1.
  assert (K : Ztrunc (round radix2 (SpecFloat.fexp 53 1024) (round_mode mode_NE) (sqrt (IZR v))) = Z.sqrt v); [|now rewrite K].
  pose proof (Z.sqrt_spec v ltac:(lia)) as (Q1 & Q2). set (k := Z.sqrt v) in *. assert (0 <= k) by apply Z.sqrt_nonneg. assert (k <= 65536) by nia.
  assert (L : (IZR k <= round radix2 (SpecFloat.fexp 53 1024) (round_mode mode_NE) (sqrt (IZR v)))%R).
  { apply round_ge_generic; [exact (fexp_correct 53 1024 prec53)|apply valid_rnd_N| |].
    - replace (IZR k) with (IZR k * bpow radix2 0)%R by (cbn; ring). apply format64; lia.
    - rewrite <- (sqrt_Rsqr (IZR k)) by (apply (IZR_le 0); lia). apply sqrt_le_1_alt. unfold Rsqr. rewrite <- mult_IZR. now apply IZR_le. }
  assert (U : (round radix2 (SpecFloat.fexp 53 1024) (round_mode mode_NE) (sqrt (IZR v)) < IZR (k + 1))%R).
  { apply Rle_lt_trans with (IZR ((k + 1) * 2 ^ 20 - 1) * bpow radix2 (-20))%R.
    - apply round_le_generic; [exact (fexp_correct 53 1024 prec53)|apply valid_rnd_N| |]; [apply format64; lia|].
      set (y := (IZR ((k + 1) * 2 ^ 20 - 1) * bpow radix2 (-20))%R).
      assert (Y : (y = IZR (k + 1) - bpow radix2 (-20))%R).
      { unfold y. rewrite minus_IZR, mult_IZR, (IZR_pow2 20) by lia. rewrite Rmult_minus_distr_r, Rmult_assoc, <- bpow_plus. replace (20 + -20) with 0 by lia. change (bpow radix2 0) with 1%R. ring. }
      assert (B : (bpow radix2 (-20) = / 1048576)%R) by (cbn; reflexivity || (cbn; lra)).
      assert (K1 : (1 <= IZR (k + 1) <= 65537)%R) by (split; apply IZR_le; lia).
      assert (Yp : (0 <= y)%R) by (rewrite Y, B; lra).
      rewrite <- (sqrt_Rsqr y) by exact Yp. apply sqrt_le_1_alt. unfold Rsqr. rewrite Y.
      assert (Vr : (IZR v <= IZR (k + 1) * IZR (k + 1) - 1)%R) by (rewrite <- mult_IZR, <- minus_IZR; apply IZR_le; lia).
      apply Rle_trans with (1 := Vr). rewrite B. nra.
    - rewrite minus_IZR, mult_IZR, (IZR_pow2 20) by lia. rewrite Rmult_minus_distr_r, Rmult_assoc, <- bpow_plus. replace (20 + -20) with 0 by lia. change (bpow radix2 0) with 1%R. pose proof (bpow_gt_0 radix2 (-20)). lra. }
  rewrite Ztrunc_floor by (apply Rle_trans with (2 := L); apply (IZR_le 0); lia). apply Zfloor_imp. split; assumption.
Qed.
Lemma root_small t v : small_int t -> 0 <= v <= greatest t -> root t (NZ v) = Ok (NZ (Z.sqrt v)).
Proof.
  intros Hs Hv. destruct (small_not t Hs) as (Ht & _). rewrite root_exact; [|exact Ht|destruct Hs as [-> |[-> | ->]]; cbn [greatest] in Hv; lia].
  rewrite (proj2 (fits_spec t _ Ht)); [reflexivity|]. pose proof (Z.sqrt_nonneg v). pose proof (Z.sqrt_le_lin v ltac:(lia)).
  split; [|lia]. destruct Hs as [-> |[-> | ->]]; cbn [least] in *; lia.
Qed.
