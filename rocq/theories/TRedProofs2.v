(** Reductions of integer arrays: masked deviations, means in double precision. *)
From Verif Require Import DriftFloatProofs CudaOffsetProofs.
From Verif Require Export TRedProofs TRedFacts TRedModel TypeFacts TypeModel.
From Coq Require Import ZifyBool Lia Reals Lra.
From Flocq Require Import Core BinarySingleNaN.
Local Open Scope Z_scope.

(** ** Masked standard deviation *)
Lemma squares_nonneg zs k : 0 <= zsum (firstn k (squares zs)).
Proof. revert k. induction zs as [|x zs IH]; intros [|k]; cbn [squares map firstn]; rewrite ?zsum_nil, ?zsum_cons; try lia. specialize (IH k). unfold squares in IH. nia. Qed.
Lemma squares_sum zs : 0 <= zsum (squares zs).
Proof. pose proof (squares_nonneg zs (length (squares zs))) as P. now rewrite firstn_all in P. Qed.
Lemma squares_cons x zs : squares (x :: zs) = x * x :: squares zs. Proof. reflexivity. Qed.
Lemma prefix_le zs k : zsum (firstn k (squares zs)) <= zsum (squares zs).
Proof.
  revert k. induction zs as [|x zs IH]; intros [|k]; rewrite ?squares_cons; try (change (squares []) with (@nil Z)); cbn [firstn]; rewrite ?zsum_nil, ?zsum_cons; try apply Z.le_refl.
  - pose proof (squares_sum zs). nia.
  - specialize (IH k). lia.
Qed.
Lemma abs_le_squares zs k : Z.abs (zsum (firstn k zs)) <= zsum (squares zs).
Proof.
  revert k. induction zs as [|x zs IH]; intros [|k]; rewrite ?squares_cons; try (change (squares []) with (@nil Z)); cbn [firstn]; rewrite ?zsum_nil, ?zsum_cons; try (cbn; discriminate).
  - pose proof (squares_sum zs). nia.
  - specialize (IH k). nia.
Qed.
Lemma acc2_unsigned t a b x : unsigned_ty t = true -> of_type t (NZ a) -> of_type t (NZ b) -> of_type t (NZ x) ->
  accumulate2 t (Ok (NZ a, NZ b)) (NZ x) = Ok (NZ ((a + x) mod modulus t), NZ ((b + x * x) mod modulus t)).
Proof.
  intros Hu Ta Tb Tx. unfold accumulate2. cbn [obind fst snd]. rewrite acc_unsigned by assumption. cbn [obind].
  destruct (prom_unsigned t OpMul x x Hu ltac:(discriminate)) as (p & -> & P1 & P2); [intros ->; cbn in *; nia|]. cbn [obind].
  destruct (prom_unsigned t OpAdd b p Hu ltac:(discriminate)) as (q & -> & Q1 & Q2); [intros ->; specialize (P2 eq_refl); cbn in *; nia|]. cbn [obind].
  rewrite cast_unsigned by exact Hu. cbn [obind]. do 3 f_equal. rewrite Q1. cbn [zop] in *. rewrite <- Z.add_mod_idemp_r, P1, Z.add_mod_idemp_r by (destruct t; discriminate). reflexivity.
Qed.
Lemma fold2_unsigned t zs : unsigned_ty t = true -> Forall (fun z => of_type t (NZ z)) zs -> forall a b, of_type t (NZ a) -> of_type t (NZ b) ->
  fold_left (accumulate2 t) (map NZ zs) (Ok (NZ a, NZ b)) = Ok (NZ ((a + zsum zs) mod modulus t), NZ ((b + zsum (squares zs)) mod modulus t)).
Proof.
  intros Hu H. induction H as [|x zs Hx H IH]; intros a b Ta Tb; cbn [map fold_left squares].
  - rewrite !zsum_nil, !Z.add_0_r, !Z.mod_small; [reflexivity| |]; destruct t; try discriminate; cbn in *; lia.
  - rewrite acc2_unsigned by assumption. rewrite IH by now apply mod_typed. fold (squares zs). rewrite !zsum_cons, !Z.add_mod_idemp_l by (destruct t; discriminate). do 3 f_equal; f_equal; lia.
Qed.
Lemma fold2_ub t (xs : list elem) : fold_left (accumulate2 t) xs UB = UB. Proof. induction xs; [reflexivity|exact IHxs]. Qed.
Lemma acc2_I32 a b x : accumulate2 I32 (Ok (NZ a, NZ b)) (NZ x) =
  if fits I32 (a + x) && fits I32 (x * x) && fits I32 (b + x * x) then Ok (NZ (a + x), NZ (b + x * x)) else UB.
Proof.
  unfold accumulate2. cbn [obind fst snd]. rewrite acc_I32. destruct (fits I32 (a + x)); [|reflexivity]. cbn [obind andb]. unfold promoted. cbn [common in_type zop signed andb].
  destruct (fits I32 (x * x)); [|reflexivity]. cbn [obind andb in_type zop signed]. destruct (fits I32 (b + x * x)) eqn:E; [|reflexivity]. cbn [obind cast].
  rewrite wrap_id; [reflexivity|discriminate|]. apply fits_spec; [discriminate|exact E].
Qed.
Lemma fold2_I32_ok zs : forall a b, 0 <= b -> Z.abs a <= b -> b + zsum (squares zs) <= 2147483647 ->
  fold_left (accumulate2 I32) (map NZ zs) (Ok (NZ a, NZ b)) = Ok (NZ (a + zsum zs), NZ (b + zsum (squares zs))).
Proof.
  induction zs as [|x zs IH]; intros a b Hb Hab Hs; cbn [map fold_left squares].
  - now rewrite !zsum_nil, !Z.add_0_r.
  - cbn [squares map] in Hs. fold (squares zs) in *. rewrite zsum_cons in Hs. pose proof (squares_nonneg zs (length (squares zs))) as P. rewrite firstn_all in P.
    rewrite acc2_I32. assert (Z.abs x <= x * x) by nia. assert (0 <= x * x) by nia.
    rewrite (proj2 (fits_spec I32 (a + x) ltac:(discriminate))) by (cbn; lia). rewrite (proj2 (fits_spec I32 (x * x) ltac:(discriminate))) by (cbn; lia).
    rewrite (proj2 (fits_spec I32 (b + x * x) ltac:(discriminate))) by (cbn; lia). cbn [andb]. rewrite IH by lia. rewrite !zsum_cons. do 3 f_equal; lia.
Qed.
Lemma fold2_I32_ub zs : forall a b, 0 <= b <= 2147483647 -> 2147483647 < b + zsum (squares zs) ->
  fold_left (accumulate2 I32) (map NZ zs) (Ok (NZ a, NZ b)) = UB.
Proof.
  induction zs as [|x zs IH]; intros a b Hb Hs; cbn [map fold_left squares] in *.
  - rewrite zsum_nil in Hs. lia.
  - fold (squares zs) in *. rewrite zsum_cons in Hs. rewrite acc2_I32. destruct (_ && _) eqn:E; [|apply fold2_ub].
    apply andb_prop in E as (E & E3). apply fits_spec in E3; [|discriminate]. cbn in E3. apply IH; nia.
Qed.
Lemma sqrt_fits t v : small_int t -> 0 <= v <= greatest t -> fits t (Z.sqrt v) = true.
Proof.
  intros Hs Hv. destruct (small_not t Hs) as (Ht & _). apply fits_spec; [exact Ht|]. pose proof (Z.sqrt_nonneg v). pose proof (Z.sqrt_le_lin v ltac:(lia)).
  split; [|lia]. destruct Hs as [-> |[-> | ->]]; cbn [least] in *; lia.
Qed.
Lemma dev_value t n0 n s1 s2 : small_int t -> 0 <= n0 < 2 ^ 31 -> n0 mod modulus t <> 0 -> 1 <= n < 2 ^ 31 -> of_type t (NZ s1) -> of_type t (NZ s2) -> 0 <= s2 ->
  let v := s2 / n - Z.quot s1 n * Z.quot s1 n in
  masked_dev_value t n0 (Ok (NZ s1, NZ s2)) n = if v <? 0 then UB else Ok (NZ (Z.sqrt v)).
Proof.
  intros Hs Hn0 E0 Hn T1 T2 P2 v. assert (R1 : least t <= s1 <= greatest t) by (destruct Hs as [-> |[-> | ->]]; exact T1). assert (R2 : least t <= s2 <= greatest t) by (destruct Hs as [-> |[-> | ->]]; exact T2).
  unfold masked_dev_value. rewrite scale_some by assumption. cbn [obind fst snd].
  destruct (divide_small t s1 n Hs R1 ltac:(lia) ltac:(lia)) as (D1 & _). destruct (divide_small t s2 n Hs R2 ltac:(lia) ltac:(lia)) as (D2 & _). rewrite D1, D2. cbn [obind].
  set (mu := Z.quot s1 n) in *. rewrite Z.quot_div_nonneg by lia. set (q := s2 / n) in *.
  assert (B1 : - 4294967296 <= mu <= 4294967295) by (apply quot_between; try lia; now apply (small_bounds t)). pose proof (small_bounds t s2 Hs R2).
  assert (Q0 : 0 <= q) by (apply Z.div_pos; lia). assert (Q1 : q <= s2) by (apply Z.div_le_upper_bound; [lia|]; clear - P2 Hn; nia). assert (M0 : 0 <= mu * mu) by (clear; nia). clearbody mu q. clear D1 D2.
  cbn [in_type zop signed andb]. destruct (fits I64 (mu * mu)) eqn:F.
  - cbn [obind in_type zop signed andb]. apply fits_spec in F; [|discriminate]. cbn [least greatest] in F. rewrite I64_fits by lia. cbn [obind]. change (q - mu * mu) with v.
    destruct (v <? 0) eqn:V.
    + apply root_negative; [lia|]. unfold v. lia.
    + apply root_small; [exact Hs|]. unfold v in *. lia.
  - cbn [obind]. assert (V : v < 0); [|replace (v <? 0) with true by lia; reflexivity]. destruct (Z.le_gt_cases 0 v); [|assumption]. exfalso.
    assert (G : fits I64 (mu * mu) = true) by (apply I64_fits; unfold v in *; lia). congruence.
Qed.
Lemma masked_stddev_result t n0 zs : small_int t -> Forall (fun z => of_type t (NZ z)) zs -> 1 <= zlen zs < 2 ^ 31 -> 0 <= n0 < 2 ^ 31 ->
  is_masked_stddev t n0 zs (masked_dev_value t n0 (fold_left (accumulate2 t) (map NZ zs) (Ok (NZ 0, NZ 0))) (zlen zs)).
Proof.
  intros Hs H Hn Hn0. split.
  - intros E0 F. pose proof (squares_nonneg zs (length (squares zs))) as P. rewrite firstn_all in P. destruct (small_cases t Hs) as [Hu| ->].
    + rewrite fold2_unsigned by (try assumption; now apply zero_typed). rewrite !Z.add_0_l. exists (zsum zs mod modulus t), (zsum (squares zs) mod modulus t).
      split; [now apply mod_stands|]. split; [now apply mod_stands|]. cbv zeta.
      pose proof (Z.mod_pos_bound (zsum (squares zs)) (modulus t) (modulus_pos t)).
      pose proof (dev_value t n0 (zlen zs) (zsum zs mod modulus t) (zsum (squares zs) mod modulus t) Hs Hn0 E0 Hn (mod_typed _ _ Hu) (mod_typed _ _ Hu) ltac:(lia)) as D. cbv zeta in D. rewrite D.
      destruct (_ <? 0); reflexivity.
    + destruct F as [|F]; [discriminate|]. pose proof (F (length (squares zs))) as Fa. rewrite firstn_all in Fa. cbn [greatest least] in Fa.
      pose proof (fold2_I32_ok zs 0 0 ltac:(lia) ltac:(lia) ltac:(lia)) as E. rewrite !Z.add_0_l in E. rewrite E.
      exists (zsum zs), (zsum (squares zs)). pose proof (abs_le_squares zs (length zs)) as A. rewrite firstn_all in A.
      split; [apply stands_self; cbn; lia|]. split; [apply stands_self; exact Fa|]. cbv zeta.
      pose proof (dev_value I32 n0 (zlen zs) (zsum zs) (zsum (squares zs)) Hs Hn0 E0 Hn ltac:(cbn; lia) ltac:(cbn; lia) P) as D. cbv zeta in D. rewrite D. destruct (_ <? 0); reflexivity.
  - intros [E|N].
    + unfold masked_dev_value. rewrite scale_zero by assumption. reflexivity.
    + destruct (small_cases t Hs) as [Hu| ->]; [exfalso; apply N; now left|].
      assert (L : 2147483647 < 0 + zsum (squares zs)).
      { destruct (Z.le_gt_cases (0 + zsum (squares zs)) 2147483647) as [G|G]; [|exact G]. exfalso. apply N. right. intros k. pose proof (squares_nonneg zs k). pose proof (prefix_le zs k). cbn [least greatest]. lia. }
      rewrite (fold2_I32_ub zs 0 0 ltac:(lia) L). unfold masked_dev_value. destruct (scale_of I32 n0) as [k|e|] eqn:E; try reflexivity. unfold scale_of in E. destruct (_ =? _); discriminate.
Qed.

(** ** Means in double precision *)
Lemma plus64 (s : f64) a z : is_finite s = true -> B2R s = IZR a -> Z.abs z <= 2 ^ 53 -> Z.abs (a + z) <= 2 ^ 53 ->
  B2R (Bplus mode_NE s (f64_of_Z z)) = IZR (a + z) /\ is_finite (Bplus mode_NE s (f64_of_Z z)) = true.
Proof.
  intros Fs Vs Hz Ha. destruct (f64_of_Z_ok z Hz) as (V & F). pose proof (Bplus_correct 53 1024 prec53 emax1024 mode_NE s (f64_of_Z z) Fs F) as C.
  rewrite Vs, V, <- plus_IZR in C.
  assert (G : generic_format radix2 (SpecFloat.fexp 53 1024) (IZR (a + z))) by (replace (IZR (a + z)) with (IZR (a + z) * bpow radix2 0)%R by (cbn; ring); apply format64; lia).
  rewrite round_generic in C by (try apply valid_rnd_N; exact G). rewrite Rlt_bool_true in C; [tauto|].
  apply Rle_lt_trans with (bpow radix2 53); [|apply bpow_lt; lia]. rewrite <- abs_IZR, <- (IZR_pow2 53) by lia. now apply IZR_le.
Qed.
Lemma fold_double zs : forall (s : f64) a, is_finite s = true -> B2R s = IZR a -> Z.abs a + zsum (map Z.abs zs) <= 2 ^ 53 ->
  B2R (fold_left add_double (map NZ zs) s) = IZR (a + zsum zs) /\ is_finite (fold_left add_double (map NZ zs) s) = true.
Proof.
  induction zs as [|x zs IH]; intros s a Fs Vs Hb; cbn [map fold_left].
  - rewrite zsum_nil, Z.add_0_r. auto.
  - cbn [map] in Hb. rewrite zsum_cons in Hb. assert (0 <= zsum (map Z.abs zs)) by (clear; induction zs; cbn [map]; rewrite ?zsum_nil, ?zsum_cons; lia).
    destruct (plus64 s a x Fs Vs ltac:(lia) ltac:(lia)) as (V & F). destruct (IH (add_double s (NZ x)) (a + x)) as (I1 & I2); [exact F|exact V|lia|].
    rewrite zsum_cons. rewrite Z.add_assoc. auto.
Qed.
Lemma RN64_range x : (Rabs x <= bpow radix2 53)%R -> (Rabs (round radix2 (SpecFloat.fexp 53 1024) ZnearestE x) <= bpow radix2 53)%R.
Proof.
  intros H. apply abs_round_le_generic; [exact (fexp_correct 53 1024 prec53)|apply valid_rnd_N| |exact H].
  change (SpecFloat.fexp 53 1024) with (FLT_exp (-1074) 53). apply generic_format_FLT_bpow; [reflexivity|lia].
Qed.
Lemma quotient_result zs n : 1 <= n < 2 ^ 31 -> zsum (map Z.abs zs) <= 2 ^ 53 ->
  exists v, quotient_float (fold_left add_double (map NZ zs) (B754_zero false)) n = NF v /\ is_finite v = true /\
    B2R v = RN (round radix2 (FLT_exp (-1074) 53) ZnearestE (IZR (zsum zs) / IZR n)).
Proof.
  intros Hn Hb. destruct (fold_double zs (B754_zero false) 0 eq_refl eq_refl ltac:(lia)) as (V & F). rewrite Z.add_0_l in V. set (s := fold_left _ _ _) in *.
  destruct (f64_of_Z_ok n ltac:(lia)) as (Vn & Fn).
  assert (N1 : (1 <= IZR n)%R) by (apply (IZR_le 1); lia).
  pose proof (Bdiv_correct 53 1024 prec53 emax1024 mode_NE s (f64_of_Z n) ltac:(rewrite Vn; lra)) as C. rewrite V, Vn in C.
  assert (A : (Rabs (IZR (zsum zs)) <= bpow radix2 53)%R).
  { rewrite <- abs_IZR, <- (IZR_pow2 53) by lia. apply IZR_le. assert (G : Z.abs (zsum zs) <= zsum (map Z.abs zs)) by (clear; induction zs; cbn [map]; rewrite ?zsum_nil, ?zsum_cons; lia). lia. }
  assert (B : (Rabs (IZR (zsum zs) / IZR n) <= bpow radix2 53)%R).
  { unfold Rdiv. rewrite Rabs_mult, (Rabs_pos_eq (/ IZR n)) by (left; apply Rinv_0_lt_compat; lra). pose proof (Rabs_pos (IZR (zsum zs))).
    assert (/ IZR n <= 1)%R by (rewrite <- Rinv_1; apply Rinv_le; lra). assert (0 < / IZR n)%R by (apply Rinv_0_lt_compat; lra). nra. }
  pose proof (RN64_range _ B) as R64. rewrite Rlt_bool_true in C by (apply Rle_lt_trans with (1 := R64); apply bpow_lt; lia). destruct C as (C1 & C2 & _).
  rewrite F in C2. unfold quotient_float.
  destruct (narrow_ok (Bdiv mode_NE s (f64_of_Z n)) C2) as (N2 & N3).
  { rewrite C1. apply Rle_trans with (1 := R64). apply bpow_le. lia. }
  eexists. split; [reflexivity|]. split; [exact N3|]. rewrite N2, C1. reflexivity.
Qed.
