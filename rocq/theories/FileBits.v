(** Bytes and bits are read back as written. *)
From Coq Require Import Reals Lra ZArith Lia.
From Flocq Require Import Core BinarySingleNaN.
From Verif Require Import FileModel DriftFloatProofs.
Local Open Scope Z_scope.

Section Bits.
Context (prec emax : Z) {Hp : FLX.Prec_gt_0 prec} {He : Prec_lt_emax prec emax}.
Hypotheses (P2 : 2 <= prec) (E2 : 1 < emax).
Notation bits_of := (bits_of prec emax).
Notation of_bits := (of_bits prec emax (Hp := Hp) (He := He)).
Notation fexp := (SpecFloat.fexp prec emax).

Lemma lt_emax : prec < emax. Proof. exact He. Qed.
Lemma pow_pos n : 0 <= n -> 0 < 2 ^ n. Proof. intros. apply Z.pow_pos_nonneg; lia. Qed.

(** Mantissa and exponent of a finite number. *)
Lemma bounded_parts m e : SpecFloat.bounded prec emax m e = true ->
  low_exp prec emax <= e <= emax - prec /\ Zpos m < 2 ^ prec /\ (Zpos m < 2 ^ (prec - 1) -> e = low_exp prec emax).
Proof.
  intros H. apply andb_prop in H as [Hc He']. apply Zle_bool_imp_le in He'.
  unfold SpecFloat.canonical_mantissa in Hc. apply Zeq_bool_eq in Hc.
  rewrite Digits.Zpos_digits2_pos in Hc. unfold SpecFloat.fexp, SpecFloat.emin in Hc. unfold low_exp.
  pose proof (Digits.Zdigits_correct radix2 (Zpos m)) as [D1 D2]. rewrite Z.abs_eq in D1, D2 by lia.
  change (Zpower radix2) with (Z.pow 2) in D1, D2.
  set (d := Digits.Zdigits radix2 (Zpos m)) in *.
  split; [lia|]. split.
  - apply Z.lt_le_trans with (1 := D2). apply Z.pow_le_mono_r; lia.
  - intros Hm. assert (d <= prec - 1); [|lia].
    destruct (Z.le_gt_cases d (prec - 1)); [auto|]. exfalso.
    assert (2 ^ (prec - 1) <= 2 ^ (d - 1)) by (apply Z.pow_le_mono_r; lia). lia.
Qed.

Lemma bits_range pay x : 0 < pay < 2 ^ (prec - 1) -> 0 <= bits_of pay x < 2 ^ (prec - 1) * (4 * emax).
Proof.
  intros Hpay. pose proof (pow_pos (prec - 1) ltac:(lia)) as HB. set (B := 2 ^ (prec - 1)) in *.
  assert (H2 : 2 ^ prec = 2 * B) by (unfold B; replace prec with (1 + (prec - 1)) at 1 by lia; rewrite Z.pow_add_r; lia).
  destruct x as [s|s| |s m e H]; unfold FileModel.bits_of, sign_bit; fold B; try (destruct s; nia); [nia|].
  destruct (bounded_parts m e H) as (He1 & Hm & Hs). rewrite H2 in Hm. unfold low_exp in *. fold B in Hs.
  destruct (Z.ltb_spec (Zpos m) B) as [Hl|Hl]; destruct s; nia.
Qed.

Lemma normalize_finite s m e H :
  binary_normalize prec emax Hp He mode_NE (cond_Zopp s (Zpos m)) e s = B754_finite s m e H.
Proof.
  pose proof (binary_normalize_correct prec emax Hp He mode_NE (cond_Zopp s (Zpos m)) e s) as C.
  set (x := B754_finite s m e H : binary_float prec emax) in *.
  assert (Ev : F2R (Float radix2 (cond_Zopp s (Zpos m)) e) = B2R x) by reflexivity.
  cbv zeta in C. rewrite Ev in C. rewrite round_generic in C; [|apply valid_rnd_round_mode|apply generic_format_B2R].
  rewrite Rlt_bool_true in C by apply abs_B2R_lt_emax.
  destruct C as (C1 & C2 & C3). apply B2R_Bsign_inj; [auto|reflexivity|auto|].
  rewrite C3. change (Bsign x) with s.
  destruct s.
  - rewrite Rcompare_Lt; [reflexivity|]. change (B2R x) with (F2R (Float radix2 (Zneg m) e)). apply F2R_lt_0. reflexivity.
  - rewrite Rcompare_Gt; [reflexivity|]. change (B2R x) with (F2R (Float radix2 (Zpos m) e)). apply F2R_gt_0. reflexivity.
Qed.
Lemma normalize_zero s e : binary_normalize prec emax Hp He mode_NE 0 e s = B754_zero s.
Proof. reflexivity. Qed.

Lemma of_bits_parts s r : 0 <= r < 2 ^ (prec - 1) * (2 * emax) ->
  (2 ^ (prec - 1) * (2 * emax) <=? sign_bit prec emax s + r) = s /\
  (sign_bit prec emax s + r) mod (2 ^ (prec - 1) * (2 * emax)) = r.
Proof.
  intros Hr. set (T := 2 ^ (prec - 1) * (2 * emax)) in *. unfold sign_bit. fold T. destruct s.
  - split; [apply Z.leb_le; lia|]. rewrite <- (Z.mul_1_l T) at 1. rewrite Z.add_comm, Z.mod_add by lia. apply Z.mod_small; lia.
  - split; [apply Z.leb_gt; lia|]. apply Z.mod_small; lia.
Qed.

Theorem bits_back pay x : 0 < pay < 2 ^ (prec - 1) -> of_bits (bits_of pay x) = x.
Proof.
  intros Hpay. pose proof (pow_pos (prec - 1) ltac:(lia)) as HB. set (B := 2 ^ (prec - 1)) in *.
  assert (H2 : 2 ^ prec = 2 * B) by (unfold B; replace prec with (1 + (prec - 1)) at 1 by lia; rewrite Z.pow_add_r; lia).
  unfold FileModel.of_bits. fold B.
  destruct x as [s|s| |s m e H]; unfold FileModel.bits_of; fold B.
  - destruct (of_bits_parts s 0) as (A1 & A2); [fold B; nia|]. rewrite Z.add_0_r in A1, A2. fold B in A1, A2. rewrite A1, A2.
    rewrite Z.div_0_l, Z.mod_0_l by lia. rewrite (proj2 (Z.eqb_neq 0 _)) by lia. cbn [Z.eqb]. destruct s; reflexivity.
  - destruct (of_bits_parts s ((2 * emax - 1) * B)) as (A1 & A2); [fold B; nia|]. fold B in A1, A2. rewrite A1, A2.
    rewrite Z.div_mul, Z.mod_mul by lia. rewrite !Z.eqb_refl. reflexivity.
  - destruct (of_bits_parts false ((2 * emax - 1) * B + pay)) as (A1 & A2); [fold B; nia|]. fold B in A1, A2. unfold sign_bit in A1, A2.
    rewrite Z.add_0_l in A1, A2. rewrite A1, A2.
    rewrite (Z.add_comm (_ * _)), Z.div_add, Z.mod_add, Z.div_small, Z.mod_small by lia. rewrite Z.add_0_l, Z.eqb_refl.
    rewrite (proj2 (Z.eqb_neq pay 0)) by lia. reflexivity.
  - destruct (bounded_parts m e H) as (He1 & Hm & Hs). rewrite H2 in Hm. fold B in Hs. unfold low_exp in He1.
    destruct (Z.ltb_spec (Zpos m) B) as [Hl|Hl].
    + specialize (Hs Hl). destruct (of_bits_parts s (Zpos m)) as (A1 & A2); [fold B; nia|]. fold B in A1, A2. rewrite A1, A2.
      rewrite Z.div_small, Z.mod_small by lia. rewrite (proj2 (Z.eqb_neq 0 _)) by lia. rewrite Z.eqb_refl.
      subst e. apply normalize_finite.
    + set (E := e - low_exp prec emax + 1). assert (HE : 1 <= E <= 2 * emax - 2) by (unfold E, low_exp; lia).
      destruct (of_bits_parts s (E * B + (Zpos m - B))) as (A1 & A2); [fold B; nia|]. fold B in A1, A2. rewrite A1, A2.
      rewrite (Z.add_comm (E * B)), Z.div_add, Z.mod_add, Z.div_small, Z.mod_small by lia. rewrite Z.add_0_l.
      rewrite (proj2 (Z.eqb_neq E (2 * emax - 1))), (proj2 (Z.eqb_neq E 0)) by lia.
      replace (Zpos m - B + B) with (Zpos m) by lia. replace (E - 1 + low_exp prec emax) with e by (unfold E; lia).
      apply normalize_finite.
Qed.
End Bits.

Lemma bits32_back pay x : 0 < pay < 2 ^ 23 -> of_bits32 (bits32 pay x) = x.
Proof. intros H. apply (bits_back 24 128 ltac:(lia) ltac:(lia) pay x H). Qed.
Lemma bits64_back pay x : 0 < pay < 2 ^ 52 -> of_bits64 (bits64 pay x) = x.
Proof. intros H. apply (bits_back 53 1024 ltac:(lia) ltac:(lia) pay x H). Qed.
Lemma bits32_range pay x : 0 < pay < 2 ^ 23 -> 0 <= bits32 pay x < 2 ^ 32.
Proof. intros H. pose proof (bits_range 24 128 ltac:(lia) ltac:(lia) pay x H) as R. exact R. Qed.
Lemma bits64_range pay x : 0 < pay < 2 ^ 52 -> 0 <= bits64 pay x < 2 ^ 64.
Proof. intros H. pose proof (bits_range 53 1024 ltac:(lia) ltac:(lia) pay x H) as R. exact R. Qed.

(** ** Bytes *)
Lemma le_length n z : List.length (le n z) = n.
Proof. revert z; induction n; cbn; auto. Qed.
Lemma of_le_le n z : of_le (le n z) = z mod 256 ^ Z.of_nat n.
Proof.
  revert z; induction n; intros z; [cbn; rewrite Z.mod_1_r; reflexivity|]. cbn [le of_le]. rewrite IHn.
  rewrite Nat2Z.inj_succ, Z.pow_succ_r by lia. rewrite Z.rem_mul_r by (try apply Z.pow_pos_nonneg; lia). reflexivity.
Qed.
Lemma of_le_exact n z : 0 <= z < 256 ^ Z.of_nat n -> of_le (le n z) = z.
Proof. intros. rewrite of_le_le. apply Z.mod_small; auto. Qed.
Lemma of_le_word z : 0 <= z < 2 ^ 64 -> of_le (le 8 z) = z.
Proof. intros. apply of_le_exact. exact H. Qed.
Lemma pack_low a b : 0 <= a < 2 ^ 32 -> low32 (pack a b) = a.
Proof. intros. unfold low32, pack. rewrite Z.mod_add by lia. apply Z.mod_small; auto. Qed.
Lemma pack_high a b : 0 <= a < 2 ^ 32 -> high32 (pack a b) = b.
Proof. intros. unfold high32, pack. rewrite Z.div_add, Z.div_small by lia. lia. Qed.
Lemma pack_range a b : 0 <= a < 2 ^ 32 -> 0 <= b < 2 ^ 32 -> 0 <= pack a b < 2 ^ 64.
Proof. unfold pack. intros. change (2 ^ 64) with (2 ^ 32 * 2 ^ 32). nia. Qed.
Lemma u32_range z : 0 <= u32 z < 2 ^ 32. Proof. apply Z.mod_pos_bound. reflexivity. Qed.
Lemma int32_u32 z : to_int32 (u32 z) = to_int32 z.
Proof. unfold to_int32, u32. rewrite Z.add_mod_idemp_l by lia. reflexivity. Qed.
Lemma int32_again z : to_int32 (to_int32 z) = to_int32 z.
Proof. unfold to_int32. replace ((z + 2 ^ 31) mod 2 ^ 32 - 2 ^ 31 + 2 ^ 31) with ((z + 2 ^ 31) mod 2 ^ 32) by lia. rewrite Z.mod_mod; lia. Qed.
