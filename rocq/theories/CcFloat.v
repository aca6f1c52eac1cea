(** binary32 comparisons meet the assumptions of the component theorems. *)
From Verif Require Export DriftFloat.
From Coq Require Import Reals Lra Psatz ZArith.
Local Open Scope Z_scope.

(** The C++ > and < on floats: false as soon as one side is a NaN. *)
Definition f32gt (a b : f32) : bool := match Bcompare a b with Some Gt => true | _ => false end.
Definition f32lt (a b : f32) : bool := f32gt b a.
(** snr_threshold/2 (kernels/connected_components_cpu.cpp 140) and std::numeric_limits<float>::min(). *)
Definition f32half (a : f32) : f32 := Bdiv mode_NE a (f32_of_Z 2).
Definition f32_min : f32 := binary_normalize 24 128 prec24 emax128 mode_NE 1 (-126) false.
(** ((value - noise_floor) / noise), connected_components_cpu.cpp 115, 142. *)
Definition f32snr (floor x w : f32) : f32 := Bdiv mode_NE (Bminus mode_NE x floor) w.

Definition fval (x : f32) : R :=
  match x with B754_infinity s => (if s then - bpow radix2 128 else bpow radix2 128)%R | _ => B2R x end.

Lemma f32gt_val a b : f32gt a b = true <-> is_nan a = false /\ is_nan b = false /\ (fval b < fval a)%R.
Proof.
  pose proof (bpow_gt_0 radix2 128) as Hp.
  destruct (is_finite a && is_finite b) eqn:Ef.
  - apply andb_prop in Ef as (Ea & Eb). unfold f32gt. rewrite Bcompare_correct by auto.
    assert (Va : fval a = B2R a) by (destruct a; try discriminate; reflexivity).
    assert (Vb : fval b = B2R b) by (destruct b; try discriminate; reflexivity).
    rewrite Va, Vb. assert (is_nan a = false) by (destruct a; auto; discriminate). assert (is_nan b = false) by (destruct b; auto; discriminate).
    destruct (Rcompare_spec (B2R a) (B2R b)); split; intros; try discriminate; try (destruct H2 as (_ & _ & H2)); auto; exfalso; lra.
  - assert (Hlt : forall s m e H, (- bpow radix2 128 < B2R (B754_finite s m e H : f32) < bpow radix2 128)%R).
    { intros s m e H. pose proof (abs_B2R_lt_emax 24 128 (B754_finite s m e H)) as Hb. apply Rabs_lt_inv in Hb. exact Hb. }
    assert (Hz : forall s, B2R (B754_zero s : f32) = 0%R) by reflexivity.
    destruct a as [sa|[|]| |sa m e H], b as [sb|[|]| |sb m' e' H']; cbn [is_finite andb] in Ef; try discriminate;
      cbn [is_nan fval]; rewrite ?Hz; try (pose proof (Hlt sa m e H)); try (pose proof (Hlt sb m' e' H'));
      unfold f32gt, Bcompare; cbn [B2SF SpecFloat.SFcompare];
      (split; [intros G; first [discriminate G|repeat split; auto; lra] | intros (A & B & C); try discriminate; try reflexivity; exfalso; lra]).
Qed.

Lemma f32gt_trans a b c : f32gt a b = true -> f32gt b c = true -> f32gt a c = true.
Proof. rewrite !f32gt_val. intros (A & B & C) (A' & B' & C'). repeat split; auto. lra. Qed.
Lemma f32gt_irrefl a : f32gt a a = false.
Proof. destruct (f32gt a a) eqn:E; [|auto]. apply f32gt_val in E as (_ & _ & E). lra. Qed.
Lemma f32gt_mono s a b : is_nan b = false -> (fval b <= fval a)%R -> f32gt s a = true -> f32gt s b = true.
Proof. rewrite !f32gt_val. intros Hn Hle (A & B & C). repeat split; auto. lra. Qed.

Lemma f32_two : B2R (f32_of_Z 2) = 2%R /\ is_finite (f32_of_Z 2) = true.
Proof. split; [|reflexivity]. vm_compute. lra. Qed.

Lemma f32half_val t : is_finite t = true -> (0 <= B2R t)%R ->
  is_finite (f32half t) = true /\ B2R (f32half t) = round radix2 (SpecFloat.fexp 24 128) (round_mode mode_NE) (B2R t / 2) /\
  (B2R (f32half t) <= B2R t)%R.
Proof.
  intros Hf Ht. pose proof f32_two as (E2 & _).
  pose proof (Bdiv_correct 24 128 _ _ mode_NE t (f32_of_Z 2)) as Hd. rewrite E2 in Hd. specialize (Hd ltac:(lra)).
  assert (Hr : (round radix2 (SpecFloat.fexp 24 128) (round_mode mode_NE) (B2R t / 2) <= B2R t)%R).
  { apply round_le_generic; [apply fexp_correct; reflexivity|apply valid_rnd_round_mode|apply generic_format_B2R|lra]. }
  assert (H0 : (0 <= round radix2 (SpecFloat.fexp 24 128) (round_mode mode_NE) (B2R t / 2))%R).
  { apply round_ge_generic; [apply fexp_correct; reflexivity|apply valid_rnd_round_mode|apply generic_format_0|lra]. }
  pose proof (abs_B2R_lt_emax 24 128 t) as Hb. rewrite Rabs_pos_eq in Hb by auto.
  rewrite Rlt_bool_true in Hd by (rewrite Rabs_pos_eq; lra). destruct Hd as (H1 & H2 & _).
  fold (f32half t) in H1, H2. rewrite H2. split; [auto|]. rewrite H1. auto.
Qed.

(** A non-negative threshold is at least its half. *)
Lemma thr_half t s : is_finite t = true -> (0 <= B2R t)%R -> f32gt s t = true -> f32gt s (f32half t) = true.
Proof.
  intros Hf Ht. destruct (f32half_val t Hf Ht) as (F1 & _ & Hle). apply f32gt_mono.
  - destruct (f32half t); auto; discriminate.
  - destruct (f32half t); try discriminate; destruct t; try discriminate; exact Hle.
Qed.

(** For thresholds of at least 2^-125 a member always beats the initial peak value. *)
Lemma half_min t s : is_finite t = true -> (bpow radix2 (-125) <= B2R t)%R -> f32gt s (f32half t) = true -> f32gt s f32_min = true.
Proof.
  intros Hf Ht. assert (H0 : (0 <= B2R t)%R) by (pose proof (bpow_gt_0 radix2 (-125)); lra).
  destruct (f32half_val t Hf H0) as (F1 & E & _). apply f32gt_mono; [reflexivity|].
  assert (Em : fval f32_min = bpow radix2 (-126)) by (vm_compute; lra).
  rewrite Em. assert (Ev : fval (f32half t) = B2R (f32half t)) by (destruct (f32half t); auto; discriminate).
  rewrite Ev, E. apply round_ge_generic; [apply fexp_correct; reflexivity|apply valid_rnd_round_mode| |].
  - apply generic_format_bpow. vm_compute. discriminate.
  - pose proof (bpow_plus radix2 1 (-126)) as Hb. change (bpow radix2 1) with 2%R in Hb. change (1 + -126) with (-125) in Hb.
    rewrite Hb in Ht. apply Rmult_le_reg_l with 2%R; [lra|]. unfold Rdiv. replace (2 * (B2R t * / 2))%R with (B2R t) by field. exact Ht.
Qed.
