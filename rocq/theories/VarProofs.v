(** Rounding of the square of a rounded square root. *)
From Verif Require Import RedProofs3 NdIndexFacts NdMemFacts NdProofs NdProofs2 PropRed PropTRed TypeModel DriftFloatProofs FsumModel FsumProofs2 PropFsum VarModel.
From Coq Require Import ZifyBool Lia Reals Lra.
From Flocq Require Import Core BinarySingleNaN.
Local Open Scope R_scope.

Lemma mixed (s : R) : 0 <= s -> bpow radix2 (-149) * s <= bpow radix2 (-49) * (s * s) + bpow radix2 (-249).
Proof.
  intros Hs. destruct (Rle_lt_dec (bpow radix2 (-100)) s) as [L|L].
  - assert (bpow radix2 (-149) <= bpow radix2 (-49) * s).
    { replace (bpow radix2 (-149)) with (bpow radix2 (-49) * bpow radix2 (-100)) by (rewrite <- bpow_plus; reflexivity). apply Rmult_le_compat_l; [apply bpow_ge_0|exact L]. }
    pose proof (bpow_ge_0 radix2 (-249)). nra.
  - replace (bpow radix2 (-249)) with (bpow radix2 (-149) * bpow radix2 (-100)) by (rewrite <- bpow_plus; reflexivity).
    pose proof (bpow_gt_0 radix2 (-149)). pose proof (bpow_ge_0 radix2 (-49)). assert (0 <= bpow radix2 (-49) * (s * s)) by (apply Rmult_le_pos; [assumption|nra]). nra.
Qed.
Lemma square_real (e t g s r T : R) : 0 <= s -> 0 <= e <= / 8000000 -> 0 <= t -> 0 <= g <= / 1000000000000 -> t * s <= g * (s * s) + T -> t * t <= T -> 0 <= T ->
  Rabs (r - s) <= e * s + t -> Rabs (r * r - s * s) <= (2 * e + 2 * e * e + 2 * g) * (s * s) + 4 * T.
Proof.
  intros Hs He Ht Hg M1 M2 HT H. set (d := r - s) in *. replace (r * r - s * s) with (2 * (s * d) + d * d) by (unfold d; ring).
  assert (D1 : Rabs (s * d) <= e * (s * s) + t * s). { rewrite Rabs_mult, (Rabs_pos_eq s) by exact Hs. replace (e * (s * s) + t * s) with (s * (e * s + t)) by ring. apply Rmult_le_compat_l; assumption. }
  assert (D2 : d * d <= 2 * (e * e) * (s * s) + 2 * (t * t)).
  { assert (Rabs d * Rabs d <= (e * s + t) * (e * s + t)) by (apply Rmult_le_compat; auto using Rabs_pos). rewrite <- Rabs_mult, Rabs_pos_eq in H0 by apply Rle_0_sqr. pose proof (Rle_0_sqr (e * s - t)) as Q. unfold Rsqr in Q. lra. }
  assert (D3 : 0 <= d * d) by apply Rle_0_sqr. clearbody d. clear H. assert (0 <= s * s) by nra. set (ss := s * s) in *. clearbody ss.
  replace (2 * e * e) with (2 * (e * e)) by ring. set (ee := e * e) in *. clearbody ee. unfold Rabs in *. destruct (Rcase_abs (s * d)), (Rcase_abs (2 * (s * d) + d * d)); lra.
Qed.
Lemma eps_small : 0 <= bpow radix2 (-23) <= / 8000000. Proof. split; [apply bpow_ge_0|]. change (bpow radix2 (-23)) with (/ IZR 8388608). lra. Qed.
Lemma root_square (r v : R) : 0 <= v -> Rabs (r - sqrt v) <= bpow radix2 (-23) * sqrt v + bpow radix2 (-149) ->
  Rabs (r * r - v) <= (2 * bpow radix2 (-23) + / 10000000000) * v + bpow radix2 (-247).
Proof.
  intros Hv H. pose proof (sqrt_pos v) as Hs. pose proof (sqrt_sqrt v Hv) as Q. pose proof eps_small as E. assert (G : 0 <= bpow radix2 (-49) <= / 1000000000000). { split; [apply bpow_ge_0|]. change (bpow radix2 (-49)) with (/ IZR 562949953421312). lra. }
  assert (T2 : bpow radix2 (-149) * bpow radix2 (-149) <= bpow radix2 (-249)) by (rewrite <- bpow_plus; apply bpow_le; lia).
  pose proof (square_real _ _ _ (sqrt v) r _ Hs E (bpow_ge_0 radix2 (-149)) G (mixed _ Hs) T2 (bpow_ge_0 _ _) H) as P. rewrite Q in P.
  replace (bpow radix2 (-247)) with (4 * bpow radix2 (-249)) by (change 4 with (bpow radix2 2); rewrite <- bpow_plus; reflexivity).
  set (e := bpow radix2 (-23)) in *. set (g := bpow radix2 (-49)) in *. assert (2 * e * e + 2 * g <= / 10000000000) by nra. assert ((2 * e + 2 * e * e + 2 * g) * v <= (2 * e + / 10000000000) * v) by (apply Rmult_le_compat_r; lra). lra.
Qed.
Lemma range32 x : Rabs x <= bpow radix2 127 -> Rabs (rnd32 x) < bpow radix2 128.
Proof.
  intros H. apply Rle_lt_trans with (bpow radix2 127); [|apply bpow_lt; lia]. apply abs_round_le_generic; [exact (fexp_correct 24 128 prec24)|apply valid_rnd_N| |exact H].
  change (SpecFloat.fexp 24 128) with (FLT_exp (-149) 24). apply generic_format_FLT_bpow; [reflexivity|lia].
Qed.
(** The square, rounded, of a rounded root of [v]. *)
Lemma square32_ok (r : f32) v : is_finite r = true -> 0 <= v <= bpow radix2 126 -> Rabs (B2R r - sqrt v) <= bpow radix2 (-23) * sqrt v + bpow radix2 (-149) ->
  is_finite (square32 r) = true /\ 0 <= B2R (square32 r) /\ Rabs (B2R (square32 r) - v) <= bpow radix2 (-21) * v + bpow radix2 (-149).
Proof.
  intros F (v0 & vB) H. pose proof (root_square (B2R r) v v0 H) as P. pose proof eps_small as E. pose proof (bpow_gt_0 radix2 (-247)) as T0. set (x := B2R r) in *. assert (X0 : 0 <= x * x) by apply Rle_0_sqr.
  assert (XB : x * x <= (1 + / 1000000) * v + bpow radix2 (-247)). { set (e := bpow radix2 (-23)) in *. assert ((2 * e + / 10000000000) * v <= / 1000000 * v) by (apply Rmult_le_compat_r; lra). apply Rabs_le_inv in P. lra. }
  assert (B : Rabs (x * x) <= bpow radix2 127).
  { rewrite Rabs_pos_eq by exact X0. replace (bpow radix2 127) with (2 * bpow radix2 126) by (change 2 with (bpow radix2 1) at 1; rewrite <- bpow_plus; reflexivity).
    assert (bpow radix2 (-247) <= / 2 * bpow radix2 126) by (rewrite half_bpow; apply bpow_le; lia). pose proof (bpow_gt_0 radix2 126). lra. }
  pose proof (Bmult_correct 24 128 prec24 emax128 mode_NE r r) as C. change (round_mode mode_NE) with ZnearestE in C. fold x in C. rewrite Rlt_bool_true in C by (apply range32, B). destruct C as (C1 & C2 & _). rewrite F in C2.
  unfold square32. split; [exact C2|]. rewrite C1. split.
  - rewrite <- (round_0 radix2 (SpecFloat.fexp 24 128) ZnearestE). apply round_le; [exact (fexp_correct 24 128 prec24)|apply valid_rnd_N|exact X0].
  - pose proof (err32 (x * x)) as R. rewrite (Rabs_pos_eq (x * x)) in R by exact X0. replace (rnd32 (x * x) - v) with ((rnd32 (x * x) - x * x) + (x * x - v)) by ring. eapply Rle_trans; [apply Rabs_triang|].
    replace (bpow radix2 (-149)) with (2 * bpow radix2 (-150)) by (change 2 with (bpow radix2 1) at 1; rewrite <- bpow_plus; reflexivity).
    replace (bpow radix2 (-21)) with (4 * bpow radix2 (-23)) by (change 4 with (bpow radix2 2); rewrite <- bpow_plus; reflexivity).
    assert (T1 : 2 * bpow radix2 (-247) <= bpow radix2 (-150)) by (change 2 with (bpow radix2 1) at 1; rewrite <- bpow_plus; apply bpow_le; lia).
    replace (bpow radix2 (-24)) with (/ 2 * bpow radix2 (-23)) in R by (rewrite half_bpow; reflexivity).
    assert (E2 : / 10000000 <= bpow radix2 (-23)) by (change (bpow radix2 (-23)) with (/ IZR 8388608); lra).
    set (e := bpow radix2 (-23)) in *. set (t := bpow radix2 (-247)) in *. set (h := bpow radix2 (-150)) in *.
    assert (R2 : / 2 * e * (x * x) <= / 2 * e * ((1 + / 1000000) * v + t)) by (apply Rmult_le_compat_l; [lra|exact XB]).
    assert (R3 : e * t <= t) by nra. assert (R4 : / 10000000000 * v <= / 1000 * (e * v)) by nra. assert (0 <= e * v) by nra. lra.
Qed.
(** It overflows where the root does not. *)
Lemma square32_over (r : f32) v : bpow radix2 129 <= v -> Rabs (B2R r - sqrt v) <= bpow radix2 (-23) * sqrt v + bpow radix2 (-149) -> square32 r = B754_infinity false.
Proof.
  intros vB H. pose proof (bpow_gt_0 radix2 129). pose proof (root_square (B2R r) v ltac:(lra) H) as P. pose proof eps_small as E. set (x := B2R r) in *.
  assert (XB : bpow radix2 128 <= x * x).
  { apply Rabs_le_inv in P. set (e := bpow radix2 (-23)) in *. assert ((2 * e + / 10000000000) * v <= / 1000000 * v) by (apply Rmult_le_compat_r; lra).
    assert (bpow radix2 (-247) <= bpow radix2 120) by (apply bpow_le; lia). replace (bpow radix2 129) with (512 * bpow radix2 120) in * by (change 512 with (bpow radix2 9); rewrite <- bpow_plus; reflexivity).
    replace (bpow radix2 128) with (256 * bpow radix2 120) by (change 256 with (bpow radix2 8); rewrite <- bpow_plus; reflexivity). lra. }
  pose proof (Bmult_correct 24 128 prec24 emax128 mode_NE r r) as C. change (round_mode mode_NE) with ZnearestE in C. fold x in C. rewrite Rlt_bool_false in C.
  - unfold square32. rewrite xorb_nilpotent in C. unfold BinarySingleNaN.binary_overflow in C. destruct (Bmult mode_NE r r) as [?|[|]| |? ? ? ?]; cbn in C; try discriminate. reflexivity.
  - apply Rle_trans with (rnd32 (x * x)); [|apply Rle_abs]. apply round_ge_generic; [exact (fexp_correct 24 128 prec24)|apply valid_rnd_N| |exact XB].
    change (SpecFloat.fexp 24 128) with (FLT_exp (-149) 24). apply generic_format_FLT_bpow; [reflexivity|lia].
Qed.
