(** Geometry of the track evaluated by the CUDA kernel (product narrowed to float, then lroundf). *)
From Verif Require Export DriftSearchProofs.
From Coq Require Import Reals Lra Psatz ZifyBool ZifyNat.
From Flocq Require Import Relative.
Local Open Scope Z_scope.

Definition rd32 (x : R) : R := round radix2 (FLT_exp (-149) 24) ZnearestE x.

#[local] Instance flt_valid : Valid_exp (FLT_exp (-149) 24). Proof. apply FLT_exp_valid. reflexivity. Qed.

Lemma rd32_mono x y : (x <= y)%R -> (rd32 x <= rd32 y)%R.
Proof. intros H. apply round_le; [apply flt_valid|apply valid_rnd_N|exact H]. Qed.

Lemma rd32_0 : rd32 0 = 0%R. Proof. apply round_0. apply valid_rnd_N. Qed.

Lemma narrow_ok (x : f64) : is_finite x = true -> (Rabs (B2R x) <= bpow radix2 100)%R ->
  B2R (narrow x) = rd32 (B2R x) /\ is_finite (narrow x) = true.
Proof.
  intros Hf Hb. destruct x as [s|s| |s m e H]; cbn [is_finite] in Hf; try discriminate.
  - cbn. rewrite rd32_0. auto.
  - cbn [narrow].
    pose proof (binary_normalize_correct 24 128 prec24 emax128 mode_NE (cond_Zopp s (Zpos m)) e s) as C. cbv zeta in C.
    change (F2R (Float radix2 (cond_Zopp s (Z.pos m)) e)) with (B2R (B754_finite s m e H)) in C.
    change (round radix2 fexp32 (round_mode mode_NE) (B2R (B754_finite s m e H))) with (rd32 (B2R (B754_finite s m e H))) in C.
    rewrite Rlt_bool_true in C; [tauto|].
    apply Rle_lt_trans with (bpow radix2 100); [|apply bpow_lt; lia].
    apply abs_round_le_generic; [apply flt_valid|apply valid_rnd_N| |exact Hb].
    apply generic_format_FLT_bpow; [reflexivity|lia].
Qed.

Lemma RA_half x : (Rabs (x - IZR (RA x)) <= / 2)%R.
Proof.
  unfold RA. destruct (Rlt_bool_spec x 0) as [H|H].
  - pose proof (Zfloor_lb (- x + / 2)). pose proof (Zfloor_ub (- x + / 2)). rewrite opp_IZR.
    apply Rabs_le. lra.
  - pose proof (Zfloor_lb (x + / 2)). pose proof (Zfloor_ub (x + / 2)). apply Rabs_le. lra.
Qed.

Definition offc (T s t : Z) : Z := RA (rd32 (mR T s * IZR t)).

Lemma track_end T s : 2 <= T <= 2 ^ 24 -> (Rabs (mR T s * IZR (T - 1) - IZR s) <= bpow radix2 (-24) * Rabs (IZR s))%R.
Proof.
  intros HT. pose proof (n_pos T s HT) as Hn. pose proof (mR_error T s HT) as E.
  replace (mR T s * IZR (T - 1) - IZR s)%R with ((mR T s - IZR s / IZR (T - 1)) * IZR (T - 1))%R by (field; lra).
  rewrite Rabs_mult, (Rabs_pos_eq (IZR (T - 1))) by lra.
  replace (bpow radix2 (-24) * Rabs (IZR s))%R with (bpow radix2 (-24) * Rabs (IZR s / IZR (T - 1)) * IZR (T - 1))%R.
  - apply Rmult_le_compat_r; [lra|exact E].
  - rewrite Rabs_div by lra. rewrite (Rabs_pos_eq (IZR (T - 1))) by lra. field. lra.
Qed.

Section Offc.
  Variables T s : Z.
  Hypothesis HT : 2 <= T <= 2 ^ 24.
  Hypothesis Hs : Z.abs s < 2 ^ 22.

  Lemma s_bound : (bpow radix2 (-24) * Rabs (IZR s) <= / 4)%R.
  Proof.
    apply Rle_trans with (bpow radix2 (-24) * bpow radix2 22)%R.
    - apply Rmult_le_compat_l; [apply bpow_ge_0|]. left. apply lt_bpow; lia.
    - rewrite <- bpow_plus. change (-24 + 22) with (-2). change (bpow radix2 (-2)) with (/ 4)%R. lra.
  Qed.

  Lemma product_bound t : 0 <= t < T -> (Rabs (mR T s * IZR t) <= bpow radix2 23)%R.
  Proof.
    intros Ht. apply Rle_trans with (Rabs (mR T s * IZR (T - 1))).
    - rewrite !Rabs_mult. apply Rmult_le_compat_l; [apply Rabs_pos|].
      rewrite !Rabs_pos_eq by (apply IZR_le; lia). apply IZR_le. lia.
    - pose proof (track_end T s HT) as E. pose proof s_bound as B.
      pose proof (Rabs_triang_inv (mR T s * IZR (T - 1)) (IZR s)) as I.
      assert (Rabs (IZR s) < bpow radix2 22)%R by (apply lt_bpow; lia).
      assert (bpow radix2 23 = 2 * bpow radix2 22)%R by (change 23 with (1 + 22); rewrite bpow_plus; reflexivity).
      assert (1 <= bpow radix2 22)%R by (apply (bpow_le radix2 0 22); lia). lra.
  Qed.

  Lemma cuda_offset_value t : 0 <= t < T -> is_finite (narrow (Bmult mode_NE (widen (slope T s)) (f64_of_Z t))) = true /\
    B2R (narrow (Bmult mode_NE (widen (slope T s)) (f64_of_Z t))) = rd32 (mR T s * IZR t).
  Proof.
    intros Ht. destruct (slope_value T s HT Hs) as (S1 & S2).
    destruct (product_ok (slope T s) t S2) as (P1 & P2); [lia|].
    destruct (narrow_ok _ P2) as (N1 & N2).
    - rewrite P1, S1. eapply Rle_trans; [apply product_bound; auto|]. apply bpow_le. lia.
    - rewrite N1, P1, S1. auto.
  Qed.

  Lemma offc_0 : offc T s 0 = 0.
  Proof. unfold offc. rewrite Rmult_0_r, rd32_0. apply RA_near. rewrite Rminus_0_r, Rabs_R0. lra. Qed.

  Lemma offc_last : offc T s (T - 1) = s.
  Proof.
    apply RA_near. set (x := (mR T s * IZR (T - 1))%R).
    assert (G : generic_format radix2 (FLT_exp (-149) 24) (IZR s)).
    { apply format_int; [lia|lia|]. assert (2 ^ 22 <= 2 ^ 24) by (apply Z.pow_le_mono_r; lia). lia. }
    destruct (round_N_pt radix2 (FLT_exp (-149) 24) (fun z => negb (Z.even z)) x) as (_ & Hn).
    specialize (Hn (IZR s) G). fold (rd32 x) in Hn.
    change (round radix2 (FLT_exp (-149) 24) (Znearest (fun z => negb (Z.even z))) x) with (rd32 x) in Hn.
    pose proof (track_end T s HT) as E. fold x in E. pose proof s_bound as B.
    rewrite (Rabs_minus_sym (IZR s) x) in Hn.
    replace (rd32 x - IZR s)%R with ((rd32 x - x) + (x - IZR s))%R by ring.
    assert (Hlt : (Rabs (IZR s) < bpow radix2 22)%R) by (apply lt_bpow; lia).
    assert (B' : (bpow radix2 (-24) * Rabs (IZR s) < / 4)%R).
    { apply Rlt_le_trans with (bpow radix2 (-24) * bpow radix2 22)%R.
      - apply Rmult_lt_compat_l; [apply bpow_gt_0|exact Hlt].
      - rewrite <- bpow_plus. change (-24 + 22) with (-2). change (bpow radix2 (-2)) with (/ 4)%R. lra. }
    eapply Rle_lt_trans; [apply Rabs_triang|]. lra.
  Qed.

  Lemma offc_mono t u : 0 <= s -> 0 <= t <= u -> offc T s t <= offc T s u.
  Proof.
    intros H Htu. apply RA_mono, rd32_mono, Rmult_le_compat_l; [now apply mR_sign_pos|]. apply IZR_le. lia.
  Qed.
  Lemma offc_anti t u : s <= 0 -> 0 <= t <= u -> offc T s u <= offc T s t.
  Proof.
    intros H Htu. apply RA_mono, rd32_mono, Rmult_le_compat_neg_l; [now apply mR_sign_neg|]. apply IZR_le. lia.
  Qed.
  Lemma offc_between t : 0 <= t < T -> (0 <= s -> 0 <= offc T s t <= s) /\ (s <= 0 -> s <= offc T s t <= 0).
  Proof.
    intros Ht. split; intros H.
    - pose proof (offc_mono 0 t H ltac:(lia)). pose proof (offc_mono t (T - 1) H ltac:(lia)). rewrite offc_0, offc_last in *. lia.
    - pose proof (offc_anti 0 t H ltac:(lia)). pose proof (offc_anti t (T - 1) H ltac:(lia)). rewrite offc_0, offc_last in *. lia.
  Qed.

  Lemma cuda_offset_ok t : 0 <= t < T -> cuda_offset (widen (slope T s)) t = Ok (offc T s t).
  Proof.
    intros Ht. unfold cuda_offset. destruct (cuda_offset_value t Ht) as (Hf & Hv).
    rewrite (round_to_int_RA _ Hf), Hv. fold (offc T s t). destruct (offc_between t Ht) as (A & B).
    assert (2 ^ 22 < 2 ^ 31) by reflexivity.
    replace ((- 2 ^ 31 <=? offc T s t) && (offc T s t <? 2 ^ 31)) with true; [reflexivity|]. lia.
  Qed.

  (** The two kernels' tracks are never more than one channel apart. *)
  Lemma off_offc_near t : 0 <= t < T -> Z.abs (off T s t - offc T s t) <= 1.
  Proof.
    intros Ht. unfold off, offc. set (x := (mR T s * IZR t)%R).
    pose proof (RA_half x) as A. pose proof (RA_half (rd32 x)) as B.
    assert (C : (Rabs (rd32 x - x) <= / 2)%R).
    { pose proof (error_le_half_ulp radix2 (FLT_exp (-149) 24) (fun z => negb (Z.even z)) x) as E.
      change (round radix2 (FLT_exp (-149) 24) (Znearest (fun z => negb (Z.even z))) x) with (rd32 x) in E.
      assert (U : (ulp radix2 (FLT_exp (-149) 24) x <= 1)%R).
      { pose proof (product_bound t Ht) as P. fold x in P.
        pose proof (ulp_le radix2 (FLT_exp (-149) 24) x (bpow radix2 23)) as L.
        rewrite ulp_bpow in L. change (bpow radix2 (FLT_exp (-149) 24 (23 + 1))) with 1%R in L.
        apply L. rewrite (Rabs_pos_eq (bpow radix2 23)) by apply bpow_ge_0. exact P. }
      lra. }
    apply Rabs_le_inv in A, B, C.
    assert (D : (Rabs (IZR (RA x - RA (rd32 x))) < 2)%R).
    { rewrite minus_IZR. apply Rabs_def1; lra. }
    rewrite <- abs_IZR in D. apply lt_IZR in D. lia.
  Qed.

  (** Power-of-two time spans: slope and products are exact in binary32 and the tracks coincide. *)
  Lemma off_offc_pow2 j t : T - 1 = 2 ^ j -> 0 <= j -> 0 <= t < T -> Z.abs s * t < 2 ^ 24 -> off T s t = offc T s t.
  Proof.
    intros Hj Hj0 Ht Hst. unfold off, offc. f_equal. symmetry.
    assert (Hj24 : j <= 24).
    { destruct (Z_le_gt_dec j 24) as [H|H]; [auto|]. assert (2 ^ 25 <= 2 ^ j) by (apply Z.pow_le_mono_r; lia).
      assert (2 ^ 24 < 2 ^ 25) by reflexivity. lia. }
    assert (Em : mR T s = F2R (Float radix2 s (- j))).
    { unfold mR. replace (IZR s / IZR (T - 1))%R with (F2R (Float radix2 s (- j))).
      - apply round_generic; [apply valid_rnd_N|]. apply generic_format_FLT. exists (Float radix2 s (- j)); [reflexivity| |cbn; lia].
        cbn [Fnum]. change (radix2 ^ 24) with (2 ^ 24). assert (2 ^ 22 < 2 ^ 24) by reflexivity. lia.
      - unfold F2R. cbn [Fnum Fexp]. rewrite bpow_opp, Hj, IZR_pow2 by auto. reflexivity. }
    apply round_generic; [apply valid_rnd_N|].
    replace (mR T s * IZR t)%R with (F2R (Float radix2 (s * t) (- j))).
    - apply generic_format_FLT. exists (Float radix2 (s * t) (- j)); [reflexivity| |cbn; lia].
      cbn [Fnum]. change (radix2 ^ 24) with (2 ^ 24). rewrite Z.abs_mul, (Z.abs_eq t) by lia. exact Hst.
    - rewrite Em. unfold F2R. cbn [Fnum Fexp]. rewrite mult_IZR. ring.
  Qed.
End Offc.

(** The rate the CUDA kernel sees. *)
Definition cuda_rate (T : Z) (desmear : bool) (s : Z) : rate :=
  Rate (0 <=? s) (fun t => nth (Z.to_nat t) (map (offc T s) (zrange T)) 0) s (width T desmear s).

Lemma cuda_rate_off T desmear s t : 0 <= t < T -> r_off (cuda_rate T desmear s) t = offc T s t.
Proof.
  intros Ht. cbn. erewrite nth_error_nth; [reflexivity|].
  rewrite nth_error_map, nth_error_zrange by lia. reflexivity.
Qed.

Lemma kernel_rate_cuda T low step desmear i : 2 <= T <= 2 ^ 24 -> Z.abs (grid_span low step i) < 2 ^ 22 ->
  kernel_rate cuda_offset T (drift_of T low step desmear i) = Ok (cuda_rate T desmear (grid_span low step i)).
Proof.
  intros HT Hs. unfold kernel_rate, drift_of. cbn [dr_slope dr_span dr_desmear].
  rewrite (mapM_ok _ (offc T (grid_span low step i))).
  - cbn. rewrite ge_zero_slope by auto. reflexivity.
  - intros t Ht. apply in_zrange in Ht. apply cuda_offset_ok; auto.
Qed.
