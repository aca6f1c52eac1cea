(** When the signal-to-noise ratio computed in single precision exceeds a threshold. *)
From Verif Require Import CcFloat DsumProofs.
From Coq Require Import ZifyBool Lia Reals Lra Psatz.
From Flocq Require Import Core BinarySingleNaN.
Local Open Scope R_scope.

Lemma u32_val : u32 = / IZR 16777216. Proof. reflexivity. Qed.
Lemma u32_unit : unit_ro 24 = u32. Proof. unfold unit_ro, u32. change (bpow radix2 (-24)) with (/ IZR 16777216). change (bpow radix2 (- (24) + 1)) with (/ IZR 8388608). lra. Qed.
Notation rd32 := (round radix2 (SpecFloat.fexp 24 128) ZnearestE).
Lemma difference (x y : f32) : is_finite x = true -> is_finite y = true -> Rabs (B2R x) <= bpow radix2 101 -> Rabs (B2R y) <= bpow radix2 101 ->
  let d := Bminus mode_NE x y in is_finite d = true /\ exists e, Rabs e <= u32 /\ B2R d = (B2R x - B2R y) * (1 + e).
Proof.
  intros Fx Fy Bx By d. pose proof (Bminus_correct 24 128 prec24 emax128 mode_NE x y Fx Fy) as C. change (round_mode mode_NE) with ZnearestE in C.
  assert (B : Rabs (B2R x - B2R y) <= bpow radix2 102).
  { change 102%Z with (101 + 1)%Z. rewrite bpow_plus_1. change (IZR radix2) with 2. eapply Rle_trans; [apply Rabs_triang|]. rewrite Rabs_Ropp. lra. }
  rewrite Rlt_bool_true in C.
  - destruct C as (C1 & C2 & _). split; [exact C2|]. destruct (plus_rounds 24 128 prec24 (B2R x) (- B2R y)) as (e & He & E); [apply generic_format_B2R|apply generic_format_opp, generic_format_B2R|].
    exists e. rewrite u32_unit in He. split; [exact He|]. unfold d. rewrite C1. exact E.
  - apply Rle_lt_trans with (bpow radix2 102); [|apply bpow_lt; lia]. apply abs_round_le_generic; [exact (fexp_correct 24 128 prec24)|apply valid_rnd_N| |exact B].
    change (SpecFloat.fexp 24 128) with (FLT_exp (-149) 24). apply generic_format_FLT_bpow; [reflexivity|lia].
Qed.
(** The quotient of a number by a positive one: rounded, or infinite with the sign of the dividend. *)
Lemma quotient (y w : f32) : is_finite y = true -> is_finite w = true -> 0 < B2R w ->
  let s := Bdiv mode_NE y w in let q := B2R y / B2R w in is_nan s = false /\
  (is_finite s = true /\ B2R s = rd32 q /\ fval s = rd32 q \/
   bpow radix2 128 <= Rabs (rd32 q) /\ (fval s = bpow radix2 128 /\ 0 <= q \/ fval s = - bpow radix2 128 /\ q <= 0)).
Proof.
  intros Fy Fw Pw s q. pose proof (Bdiv_correct 24 128 prec24 emax128 mode_NE y w ltac:(lra)) as C. change (round_mode mode_NE) with ZnearestE in C. fold q in C.
  destruct (Rlt_bool_spec (Rabs (rd32 q)) (bpow radix2 128)) as [H|H].
  - destruct C as (C1 & C2 & _). fold s in C1, C2. rewrite Fy in C2. destruct s; try discriminate C2; (split; [reflexivity|]); left; repeat split; auto.
  - change (binary_overflow 24 128 mode_NE (xorb (Bsign y) (Bsign w))) with (SpecFloat.S754_infinity (xorb (Bsign y) (Bsign w))) in C. fold s in C.
    assert (Sw : Bsign w = false).
    { destruct w as [sw|sw| |sw mw ew pw]; try discriminate Fw; [cbn in Pw; lra|]. destruct sw; [|reflexivity]. exfalso. assert (B2R (B754_finite true mw ew pw : f32) <= 0) by (apply F2R_le_0; cbn; lia). lra. }
    rewrite Sw, xorb_false_r in C. destruct s; cbn [B2SF] in C; try discriminate C. injection C as ->. split; [reflexivity|]. right. split; [exact H|].
    assert (Iw : 0 < / B2R w) by now apply Rinv_0_lt_compat.
    destruct y as [sy|sy| |sy my ey py]; try discriminate Fy; cbn [Bsign fval] in *.
    + unfold q. cbn [B2R]. destruct sy; [right|left]; (split; [reflexivity|]); unfold Rdiv; rewrite Rmult_0_l; lra.
    + unfold q. destruct sy; [right|left]; (split; [reflexivity|]); unfold Rdiv.
      * assert (B2R (B754_finite true my ey py) <= 0) by (apply F2R_le_0; cbn; lia). nra.
      * assert (0 <= B2R (B754_finite false my ey py)) by (apply F2R_ge_0; cbn; lia). apply Rmult_le_pos; lra.
Qed.

Lemma next32 t : bpow radix2 (-126) <= t -> generic_format radix2 (SpecFloat.fexp 24 128) t -> exists s, generic_format radix2 (SpecFloat.fexp 24 128) s /\ t < s <= t * (1 + 2 * u32).
Proof.
  intros Ht Ft. pose proof (bpow_gt_0 radix2 (-126)) as P. change (SpecFloat.fexp 24 128) with (FLT_exp (-149) 24) in *. exists (succ radix2 (FLT_exp (-149) 24) t).
  assert (V : Valid_exp (FLT_exp (-149) 24)) by (apply FLT_exp_valid; reflexivity). split; [now apply generic_format_succ|]. split; [apply succ_gt_id; lra|].
  rewrite succ_eq_pos by lra. pose proof (ulp_FLT_le radix2 (-149) 24 t) as U. rewrite Rabs_pos_eq in U by lra. specialize (U Ht). change (bpow radix2 (1 - 24)) with (/ IZR 8388608) in U. rewrite u32_val. lra.
Qed.
Lemma grow a b e u : 0 < a -> 0 < u <= / 1000000 -> - u <= e -> a * (1 + 4 * u) <= b -> a * (1 + 2 * u) <= b * (1 + e).
Proof.
  intros A (U & U') E H. assert (a <= b) by nra. apply Rle_trans with (b * (1 - u)); [|apply Rmult_le_compat_l; lra]. apply Rle_trans with (a * (1 + 4 * u) * (1 - u)); [|apply Rmult_le_compat_r; lra].
  rewrite Rmult_assoc. apply Rmult_le_compat_l; [lra|]. nra.
Qed.
Lemma shrink a b e u : 0 <= a -> 0 < u <= / 1000000 -> - u <= e <= u -> a <= b * (1 + e) -> a * (1 - u) <= b.
Proof.
  intros A (U & U') (E & E') H. assert (0 <= b). { destruct (Rle_lt_dec 0 b); [assumption|exfalso]. assert (b * (1 + e) < 0) by nra. lra. }
  apply Rle_trans with (b * (1 + e) * (1 - u)); [apply Rmult_le_compat_r; lra|]. rewrite Rmult_assoc. rewrite <- (Rmult_1_r b) at 2. apply Rmult_le_compat_l; [lra|]. nra.
Qed.
Lemma gather_errors z q r k h u a b c : 0 < u <= / 1000000 -> 0 <= k -> 0 <= z -> 0 <= r -> z <= r + k -> q <= (1 + 4 * u) * z -> a <= u * q + h -> b <= 4 * u * z -> c <= k -> a + b + c <= 8 * u * r + 2 * k + h.
Proof.
  intros (U & U') K Z0 R0 Z Q A B C. assert (u * q <= u * 2 * z). { apply Rle_trans with (u * ((1 + 4 * u) * z)); [apply Rmult_le_compat_l; lra|]. rewrite Rmult_assoc. apply Rmult_le_compat_l; [lra|]. apply Rmult_le_compat_r; lra. }
  assert (6 * u * z <= 6 * u * (r + k)) by (apply Rmult_le_compat_l; lra). assert (6 * u * k <= 1 * k) by (apply Rmult_le_compat_r; lra). assert (0 <= u * r) by (apply Rmult_le_pos; lra). lra.
Qed.
Section Ratio.
  Variables x fl w thr : f32.
  Hypotheses (Fx : is_finite x = true) (Ff : is_finite fl = true) (Fw : is_finite w = true) (Ft : is_finite thr = true).
  Hypotheses (Bx : Rabs (B2R x) <= bpow radix2 101) (Bf : Rabs (B2R fl) <= bpow radix2 101) (Pw : 0 < B2R w).
  Let s := f32snr fl x w.
  Lemma thr_val : is_nan thr = false /\ fval thr = B2R thr.
  Proof. clear - Ft. destruct thr; try discriminate Ft; split; reflexivity. Qed.
  Lemma exceeds : bpow radix2 (-126) <= B2R thr -> B2R thr * B2R w * (1 + 4 * u32) <= B2R x - B2R fl -> f32gt s thr = true.
  Proof.
    intros Bt H. pose proof (bpow_gt_0 radix2 (-126)) as Pt. pose proof u32_pos as U. pose proof u32_small as U'. destruct thr_val as (Nt & Vt).
    destruct (difference x fl Fx Ff Bx Bf) as (Fd & e & He & Ed). set (y := Bminus mode_NE x fl) in *.
    assert (Tw : 0 < B2R thr * B2R w) by (apply Rmult_lt_0_compat; lra). apply Rabs_le_inv in He.
    assert (Y : B2R thr * B2R w * (1 + 2 * u32) <= B2R y). { rewrite Ed. apply grow; [exact Tw|split; assumption|lra|exact H]. }
    set (q := B2R y / B2R w). assert (Q : B2R thr * (1 + 2 * u32) <= q).
    { unfold q. apply Rmult_le_reg_r with (B2R w); [exact Pw|]. replace (B2R y / B2R w * B2R w) with (B2R y) by (field; lra). lra. }
    destruct (next32 (B2R thr) Bt (generic_format_B2R 24 128 thr)) as (t' & G & T1 & T2).
    assert (R1 : t' <= rd32 q) by (apply round_ge_generic; [exact (fexp_correct 24 128 prec24)|apply valid_rnd_N|exact G|lra]).
    destruct (quotient y w Fd Fw Pw) as (Ns & C). fold q in C. apply f32gt_val. split; [exact Ns|]. split; [exact Nt|]. rewrite Vt. unfold s, f32snr. fold y.
    destruct C as [(_ & _ & ->)|(_ & [(-> & _)|(_ & C)])].
    - lra.
    - apply Rle_lt_trans with (Rabs (B2R thr)); [apply Rle_abs|apply abs_B2R_lt_emax].
    - exfalso. assert (0 < q) by nra. lra.
  Qed.
  Lemma exceeded : 0 <= B2R thr -> f32gt s thr = true -> B2R thr * B2R w * (1 - u32) <= B2R x - B2R fl.
  Proof.
    intros Bt H. pose proof u32_pos as U. pose proof u32_small as U'. destruct thr_val as (Nt & Vt). apply f32gt_val in H as (_ & _ & H). rewrite Vt in H.
    destruct (difference x fl Fx Ff Bx Bf) as (Fd & e & He & Ed). set (y := Bminus mode_NE x fl) in *. set (q := B2R y / B2R w).
    destruct (quotient y w Fd Fw Pw) as (Ns & C). fold q in C. apply Rabs_le_inv in He.
    assert (Q : B2R thr <= q).
    { destruct (Rle_lt_dec (B2R thr) q) as [|Q]; [assumption|exfalso]. assert (R1 : rd32 q <= B2R thr) by (apply round_le_generic; [exact (fexp_correct 24 128 prec24)|apply valid_rnd_N|apply generic_format_B2R|lra]).
      unfold s, f32snr in H. fold y in H. destruct C as [(_ & _ & C)|(C1 & [(C & C2)|(C & _)])]; rewrite C in H; [lra| |].
      - assert (0 <= rd32 q) by (apply round_ge_generic; [exact (fexp_correct 24 128 prec24)|apply valid_rnd_N|apply generic_format_0|lra]). rewrite Rabs_pos_eq in C1 by assumption.
        pose proof (abs_B2R_lt_emax 24 128 thr) as T. rewrite Rabs_pos_eq in T by lra. lra.
      - pose proof (bpow_gt_0 radix2 128). lra. }
    assert (Y : B2R thr * B2R w <= B2R y). { unfold q in Q. apply Rmult_le_compat_r with (r := B2R w) in Q; [|lra]. replace (B2R y / B2R w * B2R w) with (B2R y) in Q by (field; lra). lra. }
    rewrite Ed in Y. assert (Tw : 0 <= B2R thr * B2R w) by (apply Rmult_le_pos; lra). apply shrink with e; [exact Tw|split; assumption|lra|exact Y].
  Qed.
  (** The ratio itself, up to rounding. *)
  Lemma ratio sigma avg E : 0 < sigma -> Rabs (B2R w - sigma) <= 2 * u32 * sigma -> 0 <= E -> Rabs (B2R x - avg) <= E -> Rabs ((avg - B2R fl) / sigma) + E / sigma <= bpow radix2 120 ->
    is_finite s = true /\ Rabs (B2R s - (avg - B2R fl) / sigma) <= 8 * u32 * Rabs ((avg - B2R fl) / sigma) + 2 * (E / sigma) + h32.
  Proof.
    intros Ps Hw PE Hx Hb. pose proof u32_pos as U. pose proof u32_small as U'. destruct (difference x fl Fx Ff Bx Bf) as (Fd & e & He & Ed). set (y := Bminus mode_NE x fl) in *. set (q := B2R y / B2R w).
    set (z := (B2R x - B2R fl) / sigma). set (rho := (avg - B2R fl) / sigma) in *. set (k := E / sigma) in *.
    assert (Is : 0 < / sigma) by now apply Rinv_0_lt_compat. assert (K : 0 <= k) by (unfold k, Rdiv; apply Rmult_le_pos; lra).
    assert (Hz : Rabs (z - rho) <= k). { replace (z - rho) with ((B2R x - avg) / sigma) by (unfold z, rho; field; lra). unfold Rdiv. rewrite Rabs_mult, (Rabs_pos_eq (/ sigma)) by lra. unfold k, Rdiv. apply Rmult_le_compat_r; lra. }
    assert (Zb : Rabs z <= Rabs rho + k) by (replace z with ((z - rho) + rho) by ring; eapply Rle_trans; [apply Rabs_triang|]; lra).
    assert (Hq : Rabs (q - z) <= 4 * u32 * Rabs z).
    { set (d := B2R w / sigma - 1). assert (Hd : Rabs d <= 2 * u32). { unfold d. replace (B2R w / sigma - 1) with ((B2R w - sigma) / sigma) by (field; lra). unfold Rdiv. rewrite Rabs_mult, (Rabs_pos_eq (/ sigma)) by lra.
        apply Rmult_le_reg_r with sigma; [exact Ps|]. rewrite Rmult_assoc, Rinv_l by lra. lra. }
      assert (Dw : B2R w = sigma * (1 + d)) by (unfold d; field; lra). apply Rabs_le_inv in Hd. apply Rabs_le_inv in He.
      replace (q - z) with (z * ((e - d) / (1 + d))) by (unfold q, z; rewrite Ed, Dw; field; lra). rewrite Rabs_mult, Rmult_comm. apply Rmult_le_compat_r; [apply Rabs_pos|].
      unfold Rdiv. rewrite Rabs_mult, (Rabs_pos_eq (/ (1 + d))) by (left; apply Rinv_0_lt_compat; lra). apply Rmult_le_reg_r with (1 + d); [lra|]. rewrite Rmult_assoc, Rinv_l, Rmult_1_r by lra. apply Rabs_le. nra. }
    assert (Qb : Rabs q <= (1 + 4 * u32) * Rabs z) by (replace q with ((q - z) + z) by ring; eapply Rle_trans; [apply Rabs_triang|]; lra).
    pose proof (Rabs_pos z) as Pz. pose proof (Rabs_pos rho) as Pr.
    assert (Qm : Rabs q <= bpow radix2 121). { change 121%Z with (120 + 1)%Z. rewrite bpow_plus_1. change (IZR radix2) with 2. nra. }
    assert (Rm : Rabs (rd32 q) < bpow radix2 128).
    { apply Rle_lt_trans with (bpow radix2 121); [|apply bpow_lt; lia]. apply abs_round_le_generic; [exact (fexp_correct 24 128 prec24)|apply valid_rnd_N| |exact Qm].
      change (SpecFloat.fexp 24 128) with (FLT_exp (-149) 24). apply generic_format_FLT_bpow; [reflexivity|lia]. }
    destruct (quotient y w Fd Fw Pw) as (_ & C). fold q in C. destruct C as [(C1 & C2 & _)|(C1 & _)]; [|lra].
    unfold s, f32snr. fold y. split; [exact C1|]. rewrite C2. pose proof (err32 q) as Er. fold u32 h32 in Er.
    replace (rd32 q - rho) with ((rd32 q - q) + (q - z) + (z - rho)) by ring. eapply Rle_trans; [apply Rabs_triang|]. eapply Rle_trans; [apply Rplus_le_compat_r, Rabs_triang|]. change (rnd32 q) with (rd32 q) in Er.
    apply gather_errors with (Rabs z) (Rabs q); try assumption. split; assumption.
  Qed.
End Ratio.
