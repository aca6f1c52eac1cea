(** The number of samples per spectrum; channels that have no estimate. *)
From Coq Require Import ZifyBool Lia Reals Lra Psatz.
From Flocq Require Import Core BinarySingleNaN.
From Verif Require Import KurtModel FlagReal DriftFloatProofs FloatErr AccProofs KurtProofs.
Local Open Scope R_scope.

Lemma round_to_int64_RA (x : f64) : is_finite x = true ->
  round_to_int64 x = if ((- 2 ^ 63 <=? RA (B2R x)) && (RA (B2R x) <? 2 ^ 63))%Z then Ok (RA (B2R x)) else UB.
Proof.
  assert (R0 : RA 0 = 0%Z). { unfold RA. rewrite Rlt_bool_false by lra. apply Zfloor_imp. rewrite plus_IZR. split; lra. }
  destruct x as [s|s| |s m e Hb]; cbn [is_finite]; try discriminate; intros _.
  - cbn. rewrite R0. reflexivity.
  - cbn [round_to_int64 B2R]. cbv zeta.
    assert (Hp : 0 < F2R (Float radix2 (Zpos m) e)) by (apply F2R_gt_0; reflexivity).
    assert (E : RA (F2R (Float radix2 (Zpos m) e)) = round_mag m e). { unfold RA. rewrite Rlt_bool_false by lra. apply eq_IZR. now rewrite round_mag_floor. }
    rewrite F2R_cond_Zopp. destruct s; cbn [cond_Zopp cond_Ropp]; [rewrite RA_opp|]; rewrite E; reflexivity.
Qed.
Lemma RA_error x : 0 <= x -> Rabs (IZR (RA x) - x) <= / 2 /\ (0 <= RA x)%Z.
Proof.
  intros H. unfold RA. rewrite Rlt_bool_false by lra. pose proof (Zfloor_lb (x + / 2)). pose proof (Zfloor_ub (x + / 2)). split; [apply Rabs_le; lra|]. rewrite <- (Zfloor_IZR 0). apply Zfloor_le. lra.
Qed.
Lemma samples_ok (tsamp foff : f64) : is_finite tsamp = true -> is_finite foff = true -> bpow radix2 (-100) <= B2R tsamp <= bpow radix2 100 -> bpow radix2 (-100) <= Rabs (B2R foff) <= bpow radix2 100 ->
  let v := B2R tsamp * Rabs (B2R foff) * 1000000 in v < 2147483647 ->
  exists N, round_to_int64 (sk_ratio tsamp foff) = Ok N /\ round_to_int (sk_ratio tsamp foff) = Ok N /\ (0 <= N < 2 ^ 31)%Z /\ Rabs (IZR N - v) <= / 2 + v * bpow radix2 (-50).
Proof.
  intros Ft Ff Ht Hf v Hv. pose proof (bpow_gt_0 radix2 (-100)) as Pp. assert (Sf : scaled (-100) 100 (B2R foff)) by (right; exact Hf). assert (St : scaled (-100) 100 (B2R tsamp)) by (right; rewrite Rabs_pos_eq by lra; exact Ht).
  destruct (scaled_int (10 ^ 6) ltac:(lia)) as (F6 & V6 & S6). destruct (scaled_int 1 ltac:(lia)) as (F1 & V1 & S1).
  rewrite <- V6 in S6. rewrite <- V1 in S1. destruct (mul_rel (f64_of_Z (10 ^ 6)) foff _ _ _ _ F6 Ff S6 Sf ltac:(lia) ltac:(lia)) as (Fp & (e1 & E1 & Vp) & Sp). set (p := mul64 (f64_of_Z (10 ^ 6)) foff) in *.
  pose proof eps_range as (Q1 & Q2). pose proof (Rabs_le_inv _ _ E1) as B1. assert (Nf : B2R foff <> 0) by (intros K; rewrite K, Rabs_R0 in Hf; lra).
  assert (Np : B2R p <> 0). { rewrite Vp, V6. apply Rmult_integral_contrapositive_currified; [apply Rmult_integral_contrapositive_currified; [change (10 ^ 6)%Z with 1000000%Z; lra|exact Nf]|lra]. }
  destruct (div_rel (f64_of_Z 1) p _ _ _ _ F1 Fp Np S1 Sp ltac:(lia) ltac:(lia)) as (Fq & (e2 & E2 & Vq) & Sq). set (q := div64 (f64_of_Z 1) p) in *. pose proof (Rabs_le_inv _ _ E2) as B2.
  assert (Nq : B2R q <> 0). { rewrite Vq, V1. apply Rmult_integral_contrapositive_currified; [|lra]. unfold Rdiv. rewrite Rmult_1_l. now apply Rinv_neq_0_compat. }
  assert (Fa : is_finite (Babs q) = true) by (rewrite is_finite_Babs; exact Fq). assert (Va : B2R (Babs q) = Rabs (B2R q)) by apply B2R_Babs.
  assert (Sa : scaled (0 - (53 + 100 + 1) - 1) (53 - (0 + -100 - 1) + 1) (B2R (Babs q))). { rewrite Va. destruct Sq as [K|K]; [contradiction|]. right. rewrite Rabs_Rabsolu. exact K. }
  assert (Na : B2R (Babs q) <> 0) by (rewrite Va; now apply Rabs_no_R0).
  destruct (div_rel tsamp (Babs q) _ _ _ _ Ft Fa Na St Sa ltac:(lia) ltac:(lia)) as (Fr & (e3 & E3 & Vr) & _). pose proof (Rabs_le_inv _ _ E3) as B3.
  change (div64 tsamp (Babs q)) with (sk_ratio tsamp foff) in *.
  assert (V : B2R (sk_ratio tsamp foff) = v * ((1 + e1) * (1 + e3) / (1 + e2))).
  { rewrite Vr, Va, Vq, V1, Vp, V6. unfold Rdiv. rewrite Rmult_1_l, Rabs_mult, Rabs_inv, !Rabs_mult, (Rabs_pos_eq (1 + e1)), (Rabs_pos_eq (1 + e2)) by lra. change (10 ^ 6)%Z with 1000000%Z. rewrite (Rabs_pos_eq 1000000) by lra. unfold v. field.
    repeat split; try lra; now apply Rabs_no_R0. }
  assert (v0 : 0 <= v) by (unfold v; apply Rmult_le_pos; [apply Rmult_le_pos; [lra|apply Rabs_pos]|lra]).
  assert (G : Rabs ((1 + e1) * (1 + e3) / (1 + e2) - 1) <= 4 * eps).
  { assert (P2 : 0 < 1 + e2) by lra. replace ((1 + e1) * (1 + e3) / (1 + e2) - 1) with ((e1 + e3 + e1 * e3 - e2) / (1 + e2)) by (field; lra). unfold Rdiv. rewrite Rabs_mult, (Rabs_pos_eq (/ (1 + e2))) by (left; now apply Rinv_0_lt_compat).
    apply Rmult_le_reg_r with (1 + e2); [exact P2|]. rewrite Rmult_assoc, Rinv_l, Rmult_1_r by lra. set (ep := eps) in *. clearbody ep. assert (Rabs (e1 * e3) <= ep * / 1000000) by (rewrite Rabs_mult; apply Rmult_le_compat; auto using Rabs_pos; lra). apply Rabs_le_inv in H. apply Rabs_le. nra. }
  set (g := (1 + e1) * (1 + e3) / (1 + e2)) in *. clearbody g. assert (Er : Rabs (B2R (sk_ratio tsamp foff) - v) <= v * bpow radix2 (-50)).
  { rewrite V. replace (v * g - v) with (v * (g - 1)) by ring. rewrite Rabs_mult, (Rabs_pos_eq v) by exact v0. apply Rmult_le_compat_l; [exact v0|]. eapply Rle_trans; [exact G|]. right. rewrite eps_val. change (bpow radix2 (-50)) with (/ 1125899906842624). field. }
  set (r := B2R (sk_ratio tsamp foff)) in *. assert (r0 : 0 <= r). { rewrite V. apply Rmult_le_pos; [exact v0|]. apply Rabs_le_inv in G. lra. }
  destruct (RA_error r r0) as (Ra & Rp). exists (RA r). pose proof (bpow_gt_0 radix2 (-50)) as P50. assert (b50 : bpow radix2 (-50) <= / 1000000000000) by (change (bpow radix2 (-50)) with (/ 1125899906842624); lra).
  assert (vb : v * bpow radix2 (-50) <= / 100) by nra. pose proof (Rabs_le_inv _ _ Er). pose proof (Rabs_le_inv _ _ Ra).
  assert (Up : (RA r < 2 ^ 31)%Z) by (apply lt_IZR; change (IZR (2 ^ 31)) with 2147483648; lra).
  split; [rewrite round_to_int64_RA by exact Fr; fold r; replace ((- 2 ^ 63 <=? RA r) && (RA r <? 2 ^ 63))%Z with true by lia; reflexivity|].
  split; [rewrite round_to_int_RA by exact Fr; fold r; replace ((- 2 ^ 31 <=? RA r) && (RA r <? 2 ^ 31))%Z with true by lia; reflexivity|]. split; [lia|]. apply Rabs_le. lra.
Qed.

(** ** Channels without an estimate *)
Local Open Scope Z_scope.
Lemma plus_nonfinite (a b : f32) : is_finite a = false \/ is_finite b = false -> is_finite (Bplus mode_NE a b) = false.
Proof. intros H. destruct a as [s|s| |s m e Ha], b as [t|t| |t k g Hb]; destruct H as [H|H]; try discriminate H; cbn; try reflexivity; destruct s, t; reflexivity. Qed.
Lemma mult_nonfinite (a : f32) : is_finite a = false -> is_finite (Bmult mode_NE a a) = false.
Proof. destruct a; try discriminate; reflexivity. Qed.
Lemma div_nonfinite (a b : f32) : is_finite a = false -> is_finite b = false -> Bdiv mode_NE a b = B754_nan.
Proof. destruct a, b; try discriminate; reflexivity. Qed.
Lemma fold_nonfinite (l : list f32) : forall a, is_finite a = false \/ Exists (fun x => is_finite x = false) l -> is_finite (fold_left (Bplus mode_NE) l a) = false.
Proof.
  induction l as [|x l IH]; intros a [H|H]; cbn [fold_left]; [exact H|inversion H|apply IH; left; apply plus_nonfinite; now left|]. inversion H; subst; apply IH; [left; apply plus_nonfinite; now right|now right].
Qed.
Lemma after_nan (k a b : f32) : Bmult mode_NE (Bminus mode_NE (Bmult mode_NE (B754_nan : f32) a) b) k = B754_nan. Proof. destruct a, b, k; reflexivity. Qed.
Definition column_estimate (N M : Z) (d : f32) (xs : list f32) : f32 :=
  sk_value ops32 N M d (fold_left (Bplus mode_NE) xs (f32_of_Z 0)) (fold_left (Bplus mode_NE) (map (fun x => Bmult mode_NE x x) xs) (f32_of_Z 0)).
Lemma nonfinite_column N M d xs : Exists (fun x => is_finite x = false) xs -> column_estimate N M d xs = B754_nan.
Proof.
  intros H. unfold column_estimate, sk_value. cbn [o_mul o_sub o_div ops32]. rewrite div_nonfinite; [apply after_nan| |].
  - apply fold_nonfinite. right. induction H as [x l Hx|x l _ IH]; cbn [map]; [left; now apply mult_nonfinite|now right].
  - apply mult_nonfinite, fold_nonfinite. now right.
Qed.
Lemma zero_column N M d n : column_estimate N M d (repeat (B754_zero false) n) = B754_nan.
Proof.
  unfold column_estimate. assert (Z : forall n, fold_left (Bplus mode_NE) (repeat (B754_zero false : f32) n) (f32_of_Z 0) = B754_zero false) by (clear; induction n as [|n IH]; [reflexivity|exact IH]).
  rewrite Z. replace (map _ (repeat (B754_zero false) n)) with (repeat (B754_zero false : f32) n) by (clear; induction n as [|n IH]; [reflexivity|cbn [repeat map]; now rewrite <- IH]). rewrite Z. unfold sk_value. cbn [o_mul o_sub o_div ops32]. apply after_nan.
Qed.
Lemma zero_div (a : f32) : Bdiv mode_NE a (f32_of_Z 0) = B754_nan \/ exists s, Bdiv mode_NE a (f32_of_Z 0) = B754_infinity s.
Proof. destruct a as [s|s| |s m e Ha]; cbn; auto; right; eexists; reflexivity. Qed.
Lemma single_column N d x : column_estimate N 1 d [x] = B754_nan.
Proof.
  unfold column_estimate. cbn [map fold_left]. set (s := Bplus mode_NE (f32_of_Z 0) x). set (q := Bplus mode_NE (f32_of_Z 0) (Bmult mode_NE x x)). unfold sk_value. cbn [o_mul o_sub o_div o_add o_of ops32]. change (1 - 1) with 0. rewrite Z.mul_1_l.
  assert (E : q = Bmult mode_NE s s).
  { assert (Z : f32_of_Z 0 = B754_zero false) by reflexivity. unfold q, s. rewrite Z. destruct x as [t|t| |t m e Hx]; try (destruct t; reflexivity); try reflexivity.
    change (Bplus mode_NE (B754_zero false) (B754_finite t m e Hx)) with (B754_finite t m e Hx : f32). set (w := Bmult mode_NE _ _).
    pose proof (Bmult_correct 24 128 prec24 emax128 mode_NE (B754_finite t m e Hx) (B754_finite t m e Hx)) as C. fold w in C.
    destruct w as [t'|t'| |t' m' e' Hw]; try reflexivity. destruct (Rlt_bool _ _) in C.
    - destruct C as (_ & _ & C). specialize (C eq_refl). cbn [Bsign] in C. rewrite C. destruct t; reflexivity.
    - exfalso. revert C. cbn [B2SF Bsign]. unfold binary_overflow. cbn [overflow_to_inf]. discriminate. }
  rewrite E. set (w := Bmult mode_NE s s). assert (Y : Bdiv mode_NE w w = B754_nan \/ (is_finite (Bdiv mode_NE w w) = true /\ B2R (Bdiv mode_NE w w) = 1%R)).
  { destruct (is_finite w) eqn:Fw; [|left; destruct w; try discriminate Fw; reflexivity]. destruct w as [t'|t'| |t' m' e' Hw]; try discriminate Fw; [left; reflexivity|right]. set (w' := B754_finite t' m' e' Hw : f32) in *.
    assert (Nw : B2R w' <> 0%R). { intros K. assert (Bsign w' = Bsign w') by reflexivity. unfold w' in K. cbn [B2R] in K. apply eq_0_F2R in K. destruct t'; discriminate K. }
    destruct (div_ok w' w' Fw Nw) as (F & V); [unfold Rdiv; rewrite Rinv_r by exact Nw; rewrite Rabs_R1; change 1%R with (bpow radix2 0); apply bpow_le; lia|]. split; [exact F|]. rewrite V. unfold Rdiv. rewrite Rinv_r by exact Nw.
    apply round_generic; [apply valid_rnd_N|]. change 1%R with (bpow radix2 0). change (SpecFloat.fexp 24 128) with (FLT_exp (-149) 24). apply generic_format_FLT_bpow; [reflexivity|lia]. }
  destruct Y as [-> |(F & V)]; [apply after_nan|]. destruct (f32_of_Z_ok 1 ltac:(lia)) as (V1 & F1). set (y := Bdiv mode_NE w w) in *.
  assert (one : round radix2 (SpecFloat.fexp 24 128) ZnearestE 1 = 1%R). { apply round_generic; [apply valid_rnd_N|]. change 1%R with (bpow radix2 0). change (SpecFloat.fexp 24 128) with (FLT_exp (-149) 24). apply generic_format_FLT_bpow; [reflexivity|lia]. }
  assert (small1 : (1 <= bpow radix2 127)%R) by (change 1%R with (bpow radix2 0); apply bpow_le; lia).
  destruct (mult_ok y (f32_of_Z 1) F F1) as (F2 & V2); [rewrite V, V1, Rmult_1_r, Rabs_R1; exact small1|]. rewrite V, V1, Rmult_1_r, one in V2.
  destruct (minus_ok (Bmult mode_NE y (f32_of_Z 1)) (f32_of_Z 1) F2 F1) as (F3 & V3); [rewrite V2, V1, Rminus_diag_eq, Rabs_R0 by reflexivity; apply bpow_ge_0|]. rewrite V2, V1, Rminus_diag_eq, round_0 in V3 by (try reflexivity; apply valid_rnd_N).
  set (z := Bminus mode_NE (Bmult mode_NE y (f32_of_Z 1)) (f32_of_Z 1)) in *. destruct z as [t|t| |t m e Hz]; try discriminate F3.
  - destruct (zero_div (Bplus mode_NE (Bmult mode_NE (f32_of_Z N) d) (f32_of_Z 1))) as [-> |(t' & ->)]; reflexivity.
  - exfalso. cbn [B2R] in V3. apply eq_0_F2R in V3. destruct t; discriminate V3.
Qed.
