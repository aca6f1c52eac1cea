(** Facts about the hit model: float comparison, the order of hits, pickling state. *)
From Verif Require Export HitModel DriftFloatProofs.
From Coq Require Import ZifyBool ZifyNat Reals Lra.
Local Open Scope Z_scope.

(** ** Comparison of floats through their value *)
Section Values.
  Context {p q : Z} {Hp : Prec_gt_0 p} {Hq : Prec_lt_emax p q}.
  Definition xval (x : binary_float p q) : R :=
    match x with B754_infinity s => (if s then - bpow radix2 q else bpow radix2 q)%R | _ => B2R x end.
  Lemma compare_val (a b : binary_float p q) : is_nan a = false -> is_nan b = false ->
    Bcompare a b = Some (Rcompare (xval a) (xval b)).
  Proof.
    intros Ha Hb. pose proof (bpow_gt_0 radix2 q) as H0.
    destruct (is_finite a && is_finite b) eqn:Ef.
    - apply andb_prop in Ef as (Ea & Eb). rewrite Bcompare_correct by auto.
      assert (Va : xval a = B2R a) by (destruct a; try discriminate; reflexivity).
      assert (Vb : xval b = B2R b) by (destruct b; try discriminate; reflexivity).
      now rewrite Va, Vb.
    - assert (Hlt : forall s m e H, (- bpow radix2 q < B2R (B754_finite s m e H : binary_float p q) < bpow radix2 q)%R).
      { intros s m e H. pose proof (abs_B2R_lt_emax p q (B754_finite s m e H)) as G. now apply Rabs_lt_inv in G. }
      assert (Hz : forall s, B2R (B754_zero s : binary_float p q) = 0%R) by reflexivity.
      destruct a as [sa|[|]| |sa m e H], b as [sb|[|]| |sb m' e' H']; cbn [is_finite is_nan andb] in *; try discriminate;
        cbn [xval]; rewrite ?Hz; try (pose proof (Hlt sa m e H)); try (pose proof (Hlt sb m' e' H'));
        unfold Bcompare; cbn [B2SF SpecFloat.SFcompare]; f_equal; symmetry;
        first [apply Rcompare_Lt; lra|apply Rcompare_Gt; lra|apply Rcompare_Eq; lra].
  Qed.
  Lemma compare_nan (a b : binary_float p q) : is_nan a = true \/ is_nan b = true -> Bcompare a b = None.
  Proof. destruct a, b; cbn; intros [H|H]; try discriminate; reflexivity. Qed.
  Lemma eqb_val (a b : binary_float p q) : is_nan a = false -> is_nan b = false ->
    match Bcompare a b with Some Eq => true | _ => false end = true <-> xval a = xval b.
  Proof.
    intros Ha Hb. rewrite compare_val by auto. destruct (Rcompare_spec (xval a) (xval b)); split; intros; try discriminate; auto; exfalso; lra.
  Qed.
  Lemma ltb_val (a b : binary_float p q) : is_nan a = false -> is_nan b = false ->
    match Bcompare a b with Some Lt => true | _ => false end = true <-> (xval a < xval b)%R.
  Proof.
    intros Ha Hb. rewrite compare_val by auto. destruct (Rcompare_spec (xval a) (xval b)); split; intros; try discriminate; auto; exfalso; lra.
  Qed.
End Values.

(** ** The order of hits *)
Fixpoint lex (l m : list R) : Prop :=
  match l, m with
  | _, [] => False
  | [], _ :: _ => True
  | x :: l', y :: m' => (x < y)%R \/ x = y /\ lex l' m'
  end.
Lemma lex_irrefl l : ~ lex l l.
Proof. induction l as [|x l IH]; cbn; [tauto|]. intros [H|(_ & H)]; [lra|auto]. Qed.
Lemma lex_trans l m n : lex l m -> lex m n -> lex l n.
Proof.
  revert m n. induction l as [|x l IH]; intros [|y m] [|z n]; cbn; try tauto.
  intros [A|(-> & A)] [B|(-> & B)]; [left; lra|left; lra|left; lra|right; eauto].
Qed.
Lemma lex_total l m : lex l m \/ l = m \/ lex m l.
Proof.
  revert m. induction l as [|x l IH]; intros [|y m]; cbn; auto.
  destruct (Rtotal_order x y) as [H|[->|H]]; [auto| |auto].
  destruct (IH m) as [H|[->|H]]; auto.
Qed.

Fixpoint flat (m : rfi) : list R := match m with [] => [] | (k, v) :: m' => IZR k :: IZR v :: flat m' end.
Lemma rfi_eqb_flat a b : rfi_eqb a b = true <-> flat a = flat b.
Proof.
  revert b. induction a as [|(k, v) a IH]; intros [|(k', v') b]; cbn; split; intros H; try discriminate; auto.
  - apply andb_prop in H as (H & H3). apply andb_prop in H as (H1 & H2). apply IH in H3. rewrite H3.
    apply Z.eqb_eq in H1, H2. now subst.
  - injection H as H1 H2 H3. apply eq_IZR in H1, H2. subst. rewrite !Z.eqb_refl. cbn. now apply IH.
Qed.
Lemma rfi_eqb_eq a b : rfi_eqb a b = true <-> a = b.
Proof.
  revert b. induction a as [|(k, v) a IH]; intros [|(k', v') b]; cbn; split; intros H; try discriminate; auto.
  - apply andb_prop in H as (H & H3). apply andb_prop in H as (H1 & H2). apply IH in H3. apply Z.eqb_eq in H1, H2. now subst.
  - injection H as -> -> ->. rewrite !Z.eqb_refl. cbn. now apply IH.
Qed.
Lemma rfi_ltb_flat a b : rfi_ltb a b = true <-> lex (flat a) (flat b).
Proof.
  revert b. induction a as [|(k, v) a IH]; intros [|(k', v') b]; cbn [rfi_ltb flat lex]; try (split; [discriminate|tauto]); try tauto.
  unfold pair_ltb; cbn [fst snd]. rewrite <- IH.
  destruct (Z.ltb_spec k k'); cbn [orb]; [split; intros; auto; left; now apply IZR_lt|].
  destruct (Z.ltb_spec k' k); cbn [orb negb andb].
  - split; [discriminate|]. apply IZR_lt in H0. intros [G|(G & _)]; exfalso; lra.
  - assert (k = k') by lia. subst k'. destruct (Z.ltb_spec v v'); [split; intros; auto; right; split; auto; left; now apply IZR_lt|].
    destruct (Z.ltb_spec v' v).
    + split; [discriminate|]. apply IZR_lt in H2. intros [G|(_ & [G|(G & _)])]; exfalso; lra.
    + assert (v = v') by lia. subst v'. split; [intros G; right; split; auto|]. intros [G|(_ & [G|(_ & G)])]; auto; exfalso; lra.
Qed.

(** No compared field is NaN. *)
Definition no_nan (h : hit) : Prop :=
  is_nan (h_freq h) = false /\ is_nan (h_time h) = false /\ is_nan (h_dur h) = false /\ is_nan (h_drift h) = false /\
  is_nan (h_power h) = false /\ is_nan (h_snr h) = false /\ is_nan (h_band h) = false.
Definition key (h : hit) : list R :=
  IZR (h_index h) :: xval (h_freq h) :: xval (h_time h) :: xval (h_dur h) :: IZR (h_rate h) :: xval (h_drift h) ::
  xval (h_power h) :: IZR (h_steps h) :: xval (h_snr h) :: xval (h_band h) :: IZR (h_bins h) :: flat (h_rfi h).

Lemma step_Z (x y : Z) B l m : (B = true <-> lex l m) ->
  (if negb (x =? y) then x <? y else B) = true <-> lex (IZR x :: l) (IZR y :: m).
Proof.
  intros HB. cbn [lex]. destruct (Z.eqb_spec x y) as [->|Hn]; cbn [negb].
  - rewrite HB. split; [auto|]. intros [G|(_ & G)]; [exfalso; lra|auto].
  - rewrite Z.ltb_lt. split; [left; now apply IZR_lt|]. intros [G|(G & _)]; [now apply lt_IZR|]. apply eq_IZR in G. contradiction.
Qed.
Lemma step_f64 (x y : f64) B l m : is_nan x = false -> is_nan y = false -> (B = true <-> lex l m) ->
  (if negb (f64eq x y) then f64lt x y else B) = true <-> lex (xval x :: l) (xval y :: m).
Proof.
  intros Hx Hy HB. cbn [lex]. unfold f64eq, f64lt. pose proof (eqb_val x y Hx Hy) as HE. pose proof (ltb_val x y Hx Hy) as HL.
  destruct (Bcompare x y) as [[| |]|]; cbn [negb].
  - rewrite HB. assert (xval x = xval y) by tauto. split; [auto|]. intros [G|(_ & G)]; [exfalso; lra|auto].
  - rewrite HL. split; [auto|]. intros [G|(G & _)]; [auto|]. exfalso. apply HE in G. discriminate.
  - split; [discriminate|]. intros [G|(G & _)]; exfalso; [apply HL in G|apply HE in G]; discriminate.
  - split; [discriminate|]. intros [G|(G & _)]; exfalso; [apply HL in G|apply HE in G]; discriminate.
Qed.
Lemma f32lt_swap a b : f32lt a b = match Bcompare a b with Some Lt => true | _ => false end.
Proof. unfold f32lt, f32gt. rewrite (Bcompare_swap _ _ a b). now destruct (Bcompare a b) as [[| |]|]. Qed.
Lemma step_f32 (x y : f32) B l m : is_nan x = false -> is_nan y = false -> (B = true <-> lex l m) ->
  (if negb (f32eq x y) then f32lt x y else B) = true <-> lex (xval x :: l) (xval y :: m).
Proof.
  intros Hx Hy HB. cbn [lex]. rewrite f32lt_swap. unfold f32eq. pose proof (eqb_val x y Hx Hy) as HE. pose proof (ltb_val x y Hx Hy) as HL.
  destruct (Bcompare x y) as [[| |]|]; cbn [negb].
  - rewrite HB. assert (xval x = xval y) by tauto. split; [auto|]. intros [G|(_ & G)]; [exfalso; lra|auto].
  - rewrite HL. split; [auto|]. intros [G|(G & _)]; [auto|]. exfalso. apply HE in G. discriminate.
  - split; [discriminate|]. intros [G|(G & _)]; exfalso; [apply HL in G|apply HE in G]; discriminate.
  - split; [discriminate|]. intros [G|(G & _)]; exfalso; [apply HL in G|apply HE in G]; discriminate.
Qed.
Lemma hit_ltb_key a b : no_nan a -> no_nan b -> hit_ltb a b = true <-> lex (key a) (key b).
Proof.
  intros (A1 & A2 & A3 & A4 & A5 & A6 & A7) (B1 & B2 & B3 & B4 & B5 & B6 & B7). unfold hit_ltb, key.
  apply step_Z, step_f64; auto. apply step_f64; auto. apply step_f64; auto. apply step_Z, step_f64; auto. apply step_f64; auto.
  apply step_Z, step_f32; auto. apply step_f32; auto. apply step_Z, rfi_ltb_flat.
Qed.
Lemma hit_eqb_key a b : no_nan a -> no_nan b -> hit_eqb a b = true <-> key a = key b.
Proof.
  intros (A1 & A2 & A3 & A4 & A5 & A6 & A7) (B1 & B2 & B3 & B4 & B5 & B6 & B7). unfold hit_eqb, key.
  rewrite !andb_true_iff, !Z.eqb_eq, rfi_eqb_flat. unfold f64eq, f32eq. rewrite !eqb_val by auto.
  split.
  - intros (((((((((((-> & ->) & ->) & ->) & ->) & ->) & ->) & ->) & ->) & ->) & ->) & ->). reflexivity.
  - intros H. injection H as H1 H2 H3 H4 H5 H6 H7 H8 H9 H10 H11 H12. apply eq_IZR in H1, H5, H8, H11. tauto.
Qed.

(** ** Pickling state *)
Lemma narrow_widen (x : f32) : narrow (widen x) = x.
Proof.
  destruct (is_finite x) eqn:Ef; [|destruct x; try discriminate; reflexivity].
  destruct (widen_ok x Ef) as (W1 & W2).
  destruct x as [s|s| |s m e Hb] eqn:Ex; try discriminate; [reflexivity|]. rewrite <- Ex in *.
  assert (Hx : B2R x <> 0%R).
  { rewrite Ex. cbn. intros G. apply eq_0_F2R in G. destruct s; discriminate. }
  destruct (widen x) as [s'|s'| |s' m' e' Hb'] eqn:Ew; try discriminate W2.
  - exfalso. apply Hx. rewrite <- W1. reflexivity.
  - cbn [narrow].
    pose proof (binary_normalize_correct 24 128 prec24 emax128 mode_NE (cond_Zopp s' (Zpos m')) e' s') as C. cbv zeta in C.
    change (F2R (Float radix2 (cond_Zopp s' (Z.pos m')) e')) with (B2R (B754_finite s' m' e' Hb' : f64)) in C.
    rewrite W1 in C. rewrite round_generic in C; [|apply valid_rnd_N|apply generic_format_B2R].
    rewrite Rlt_bool_true in C by apply abs_B2R_lt_emax. destruct C as (C1 & C2 & _).
    apply B2R_inj; auto.
    + destruct (binary_normalize _ _ _ _ _ _ _ _) as [z|z| |z mz ez Hz]; try discriminate; [|reflexivity]. exfalso. apply Hx. now rewrite <- C1.
    + now rewrite Ex.
Qed.
Lemma widen_nan x : is_nan (widen x) = is_nan x.
Proof. destruct x as [s|s| |s m e Hb]; try reflexivity. destruct (widen_ok (B754_finite s m e Hb) eq_refl) as (_ & H). cbn [is_nan]. destruct (widen _); auto; discriminate. Qed.

(** Truncation of a float with an integer value. *)
Lemma trunc_int {p q} (x : binary_float p q) z : is_finite x = true -> B2R x = IZR z ->
  trunc_to_int64 x = if (- 2 ^ 63 <=? z) && (z <? 2 ^ 63) then Ok z else UB.
Proof.
  intros Hf Hv. destruct x as [s|s| |s m e Hb]; try discriminate; cbn [trunc_to_int64].
  - cbn in Hv. apply (eq_IZR 0) in Hv. subst. reflexivity.
  - assert (E : cond_Zopp s (if 0 <=? e then Z.pos m * 2 ^ e else Z.pos m / 2 ^ (- e)) = z); [|now rewrite E].
    cbn [B2R] in Hv. rewrite F2R_cond_Zopp in Hv.
    assert (E : (if 0 <=? e then Z.pos m * 2 ^ e else Z.pos m / 2 ^ (- e)) = cond_Zopp s z).
    { assert (Hm : F2R (Float radix2 (Z.pos m) e) = IZR (cond_Zopp s z)).
      { destruct s; cbn [cond_Ropp cond_Zopp] in *; [rewrite opp_IZR, <- Hv; ring|exact Hv]. }
      destruct (Z.leb_spec 0 e).
      - apply eq_IZR. rewrite <- Hm. unfold F2R. cbn [Fnum Fexp]. rewrite mult_IZR, IZR_pow2 by auto. reflexivity.
      - assert (G : Z.pos m = cond_Zopp s z * 2 ^ (- e)).
        { apply eq_IZR. rewrite mult_IZR, <- Hm, IZR_pow2 by lia. unfold F2R. cbn [Fnum Fexp].
          rewrite Rmult_assoc, <- bpow_plus. replace (e + - e) with 0 by lia. cbn. ring. }
        rewrite G. apply Z.div_mul. pose proof (Z.pow_pos_nonneg 2 (- e)). lia. }
    rewrite E. destruct s; cbn; lia.
Qed.
Lemma steps_exact t : Z.abs t <= 2 ^ 24 -> trunc_to_int64 (f32_of_Z t) = Ok t.
Proof.
  intros Ht. destruct (f32_of_Z_ok t Ht) as (H1 & H2). rewrite (trunc_int _ t H2 H1).
  assert (2 ^ 24 < 2 ^ 63) by reflexivity. destruct (_ && _) eqn:E; [reflexivity|lia].
Qed.
Lemma f32_big_int (x : f32) : is_finite x = true -> (bpow radix2 24 <= Rabs (B2R x))%R -> exists z, B2R x = IZR z.
Proof.
  intros Hf Hb. destruct (f32_parts x Hf) as (m & e & E & Hm & He).
  destruct (Z.le_gt_cases 0 e).
  - exists (m * 2 ^ e). rewrite E. unfold F2R. cbn [Fnum Fexp]. rewrite mult_IZR, IZR_pow2 by auto. reflexivity.
  - exfalso. rewrite E in Hb. pose proof (parts_bound m e 24 24 Hm). lra || (assert (Rabs (F2R (Float radix2 m e)) < bpow radix2 24)%R by (apply H0; lia); lra).
Qed.
Lemma f32_of_Z_format t (x : f32) : is_finite x = true -> B2R x = IZR t -> t <> 0 -> f32_of_Z t = x.
Proof.
  intros Hf Hv Hn. unfold f32_of_Z.
  pose proof (binary_normalize_correct 24 128 prec24 emax128 mode_NE t 0 false) as C. cbv zeta in C.
  assert (E0 : F2R (Float radix2 t 0) = IZR t) by (unfold F2R; cbn; ring). rewrite E0, <- Hv in C.
  rewrite round_generic in C; [|apply valid_rnd_N|apply generic_format_B2R].
  rewrite Rlt_bool_true in C by apply abs_B2R_lt_emax. destruct C as (C1 & C2 & _).
  assert (Hx : B2R x <> 0%R) by (rewrite Hv; intros G; apply (eq_IZR _ 0) in G; auto).
  apply B2R_inj; auto.
  - destruct (binary_normalize _ _ _ _ _ _ _ _) as [z|z| |z mz ez Hz]; try discriminate; [|reflexivity]. exfalso. apply Hx. now rewrite <- C1.
  - destruct x as [z|z| |z mz ez Hz]; try discriminate; [|reflexivity]. exfalso. apply Hx. reflexivity.
Qed.
Lemma steps_stable t t' : trunc_to_int64 (f32_of_Z t) = Ok t' -> f32_of_Z t' = f32_of_Z t.
Proof.
  intros H. destruct (Z.le_gt_cases (Z.abs t) (2 ^ 24)) as [Ht|Ht].
  - rewrite steps_exact in H by auto. injection H as <-. reflexivity.
  - assert (Hf : is_finite (f32_of_Z t) = true) by (destruct (f32_of_Z t); auto; discriminate).
    assert (Hb : (bpow radix2 24 <= Rabs (B2R (f32_of_Z t)))%R).
    { unfold f32_of_Z in *. pose proof (binary_normalize_correct 24 128 prec24 emax128 mode_NE t 0 false) as C. cbv zeta in C.
      assert (E0 : F2R (Float radix2 t 0) = IZR t) by (unfold F2R; cbn; ring). rewrite E0 in C.
      destruct (Rlt_bool _ _).
      - destruct C as (C1 & _). rewrite C1. apply abs_round_ge_generic; [apply FLT_exp_valid; reflexivity|apply valid_rnd_N| |].
        + apply generic_format_bpow. unfold SpecFloat.fexp, SpecFloat.emin; lia.
        + rewrite <- abs_IZR, <- IZR_pow2 by lia. apply IZR_le. lia.
      - exfalso. destruct (binary_normalize _ _ _ _ _ _ _ _); try discriminate; cbn in C; unfold binary_overflow in C; cbn in C; discriminate. }
    destruct (f32_big_int _ Hf Hb) as (z & Hz). rewrite (trunc_int _ z Hf Hz) in H.
    destruct (_ && _); [|discriminate]. injection H as <-. apply f32_of_Z_format; auto. intros ->.
    rewrite Hz in Hb. rewrite Rabs_R0 in Hb. pose proof (bpow_gt_0 radix2 24). lra.
Qed.
Lemma state_again h h0 h' : set_state h0 (get_state h) = Ok h' -> get_state h' = get_state h.
Proof.
  unfold set_state. cbn [get_state st_steps]. destruct (trunc_to_int64 (f32_of_Z (h_steps h))) as [t| |] eqn:E; try discriminate.
  cbn [obind]. intros H. injection H as <-. unfold get_state. cbn [st_index st_freq st_rate st_drift st_power st_snr st_band st_bins h_index h_freq h_rate h_drift h_power h_steps h_snr h_band h_bins].
  rewrite !narrow_widen, (steps_stable _ _ E). reflexivity.
Qed.
