(** Spectra: indices, the CPU loop, the GPU kernel. *)
From Verif Require Export FreqModel GelProofs.
From Verif Require Import NdMemFacts DriftFloatProofs HitFacts CcFloat.
From Coq Require Import ZifyBool ZifyNat Lia Reals Lra.
From Flocq Require Import Core BinarySingleNaN Mult_error.
Local Open Scope Z_scope.

(** ** dc_index *)
Lemma ceil_f32_ok (x : f32) : is_finite x = true -> ceil_f32 x = Zceil (B2R x).
Proof.
  destruct x as [s|s| |s m e H]; intros Hf; try discriminate; cbn [ceil_f32 B2R]; [now rewrite Zceil_IZR|].
  assert (E : cond_Zopp s (Z.pos m) = (if s then - Z.pos m else Z.pos m)) by reflexivity. rewrite E. set (z := if s then _ else _). clear E.
  destruct (0 <=? e) eqn:E.
  - unfold F2R. cbn [Fnum Fexp]. rewrite <- (IZR_Zpower radix2) by lia. rewrite <- mult_IZR, Zceil_IZR. reflexivity.
  - unfold F2R. cbn [Fnum Fexp]. unfold Zceil. f_equal. rewrite <- Zfloor_div by (pose proof (Z.pow_pos_nonneg 2 (- e)); lia).
    f_equal. rewrite opp_IZR. unfold Rdiv. rewrite Ropp_mult_distr_l. f_equal.
    replace e with (- (- e)) at 2 by lia. rewrite bpow_opp. f_equal. rewrite <- (IZR_Zpower radix2) by lia. reflexivity.
Qed.
Definition rnd32 (x : R) : R := round radix2 (SpecFloat.fexp 24 128) (round_mode mode_NE) x.
Lemma f32_of_int z : Z.abs z <= 2 ^ 31 -> B2R (f32_of_Z z) = rnd32 (IZR z) /\ is_finite (f32_of_Z z) = true.
Proof.
  intros H. pose proof (binary_normalize_correct 24 128 prec24 emax128 mode_NE z 0 false) as C. cbv zeta in C.
  assert (EF : F2R (Float radix2 z 0) = IZR z) by (unfold F2R; cbn; ring). rewrite EF in C.
  rewrite Rlt_bool_true in C. { destruct C as (C1 & C2 & _). split; [exact C1|exact C2]. }
  apply Rle_lt_trans with (bpow radix2 31); [|apply bpow_lt; lia].
  apply abs_round_le_generic; [exact (fexp_correct 24 128 prec24)|apply valid_rnd_N| |].
  - rewrite fexp32_FLT. apply generic_format_FLT_bpow; [reflexivity|lia].
  - rewrite <- abs_IZR, <- IZR_pow2 by lia. apply IZR_le. exact H.
Qed.
Lemma rnd32_valid : Valid_exp (SpecFloat.fexp 24 128). Proof. exact (fexp_correct 24 128 prec24). Qed.
Lemma rnd32_ge x y : generic_format radix2 (SpecFloat.fexp 24 128) x -> (x <= y)%R -> (x <= rnd32 y)%R.
Proof. intros H1 H2. apply round_ge_generic; [exact rnd32_valid|apply valid_rnd_N|exact H1|exact H2]. Qed.
(** The index in real numbers: the int is rounded to 24 bits, halving is exact. *)
Lemma dc_real N : 1 <= N <= 2 ^ 31 -> dc_index N = Zceil (rnd32 (IZR (N - 1)) / 2).
Proof.
  intros HN. unfold dc_index. change (div32 (f32_of_Z (N - 1)) (f32_of_Z 2)) with (f32half (f32_of_Z (N - 1))).
  destruct (f32_of_int (N - 1)) as (A1 & A2); [lia|].
  assert (Hpos : (0 <= rnd32 (IZR (N - 1)))%R).
  { apply rnd32_ge; [apply generic_format_0|apply IZR_le; lia]. }
  destruct (f32half_val (f32_of_Z (N - 1)) A2) as (C1 & C2 & _); [now rewrite A1|].
  rewrite ceil_f32_ok by exact C1. rewrite C2, A1. f_equal. apply round_generic; [apply valid_rnd_N|].
  destruct (Z.eq_dec N 1) as [->|Hne].
  - replace (rnd32 (IZR (1 - 1)) / 2)%R with 0%R; [apply generic_format_0|]. unfold rnd32. change (1 - 1) with 0. rewrite round_0 by apply valid_rnd_N. lra.
  - replace (rnd32 (IZR (N - 1)) / 2)%R with (rnd32 (IZR (N - 1)) * bpow radix2 (-1))%R by reflexivity.
    rewrite fexp32_FLT. apply mult_bpow_exact_FLT.
    + rewrite <- fexp32_FLT. apply generic_format_round; [exact rnd32_valid|apply valid_rnd_N].
    + assert (1 <= mag radix2 (rnd32 (IZR (N - 1))))%Z; [|lia]. apply mag_ge_bpow. change (bpow radix2 (1 - 1)) with 1%R.
      assert (1 <= rnd32 (IZR (N - 1)))%R; [|rewrite Rabs_pos_eq; lra].
      apply rnd32_ge; [rewrite fexp32_FLT; apply (format_int 24 (-149) 1); lia|]. apply IZR_le. lia.
Qed.
Lemma dc_exact N : 1 <= N <= 2 ^ 31 -> rnd32 (IZR (N - 1)) = IZR (N - 1) -> dc_index N = N / 2.
Proof.
  intros HN E. rewrite dc_real by exact HN. rewrite E. apply Zceil_imp.
  assert (2 * (N / 2) = N \/ 2 * (N / 2) = N - 1) as [H|H] by lia.
  - apply (f_equal IZR) in H. rewrite mult_IZR in H. rewrite minus_IZR in *. split; rewrite ?minus_IZR; lra.
  - apply (f_equal IZR) in H. rewrite mult_IZR, minus_IZR in H. rewrite !minus_IZR. split; lra.
Qed.
Lemma dc_small N : 1 <= N <= 2 ^ 24 + 1 -> dc_index N = N / 2.
Proof.
  intros HN. apply dc_exact; [lia|]. unfold rnd32. apply round_generic; [apply valid_rnd_N|]. rewrite fexp32_FLT. apply format_int; lia.
Qed.
Lemma dc_pow2 k : 1 <= k <= 30 -> dc_index (2 ^ k) = 2 ^ (k - 1).
Proof.
  intros Hk. destruct (Z_le_dec k 24) as [H|H].
  - rewrite dc_small.
    + replace k with (Z.succ (k - 1)) at 1 by lia. rewrite Z.pow_succ_r by lia. rewrite Z.mul_comm. apply Z.div_mul. lia.
    + split; [pose proof (Z.pow_pos_nonneg 2 k); lia|]. pose proof (Z.pow_le_mono_r 2 k 24). lia.
  - assert (E : k = 25 \/ k = 26 \/ k = 27 \/ k = 28 \/ k = 29 \/ k = 30) by lia.
    destruct E as [E|[E|[E|[E|[E|E]]]]]; subst k; vm_compute; reflexivity.
Qed.

(** ** The CPU loop *)
Section Cpu.
  Context {F : Type} (add mul : F -> F -> F).
  Variables (dc : Z) (bins : list (F * F)).
  Notation put_bins := (put_bins add mul dc bins).
  Lemma put_bins_app is1 : forall is2 mo, put_bins mo (is1 ++ is2) = obind (put_bins mo is1) (fun m => put_bins m is2).
  Proof. induction is1 as [|i is1 IH]; intros is2 mo; cbn; [reflexivity|]. destruct (put_bin add mul dc bins mo i); cbn; auto. Qed.
  Definition bin_value (j : Z) : option F := option_map (mag2 add mul) (znth bins (Z.abs (j - dc))).
  Lemma put_bins_ok h : forall mo, h <= zlen bins -> (forall j, Z.abs (j - dc) < h -> 0 <= j < zlen mo) ->
    exists mo', put_bins mo (zrange h) = Ok mo' /\ zlen mo' = zlen mo /\
      forall j, znth mo' j = if Z.abs (j - dc) <? h then bin_value j else znth mo j.
  Proof.
    destruct (Z_le_dec h 0) as [H0|H0].
    { intros mo _ _. replace h with (Z.min h 0) by lia. exists mo. split; [|split; [reflexivity|]].
      - replace (zrange (Z.min h 0)) with (@nil Z) by (unfold zrange; now replace (Z.to_nat (Z.min h 0)) with O by lia). reflexivity.
      - intros j. replace (Z.abs (j - dc) <? Z.min h 0) with false by lia. reflexivity. }
    replace h with (Z.of_nat (Z.to_nat h)) by lia. induction (Z.to_nat h) as [|n IH]; intros mo Hb Hin.
    { exists mo. split; [reflexivity|]. split; [reflexivity|]. intros j. now replace (Z.abs (j - dc) <? Z.of_nat 0) with false by lia. }
    rewrite Nat2Z.inj_succ in *. unfold Z.succ in *. rewrite zrange_snoc by lia. rewrite put_bins_app.
    destruct (IH mo) as (m1 & E1 & L1 & V1); [lia|intros j Hj; apply Hin; lia|]. rewrite E1. cbn [obind put_bins].
    set (k := Z.of_nat n) in *. unfold put_bin, zget. destruct (znth_some bins k) as (c & Ec); [lia|]. rewrite Ec. cbn [obind].
    destruct (store_ok m1 (dc + k) (mag2 add mul c)) as (m2 & E2 & L2 & S2 & O2); [rewrite L1; apply Hin; lia|]. rewrite E2. cbn [obind].
    assert (Hv : forall j, Z.abs (j - dc) = k -> bin_value j = Some (mag2 add mul c)) by (intros j Hj; unfold bin_value; rewrite Hj, Ec; reflexivity).
    destruct (k =? 0) eqn:Ek.
    - cbn [obind]. exists m2. split; [reflexivity|]. split; [lia|]. intros j. destruct (Z.eq_dec j (dc + k)) as [->|Hne].
      + rewrite S2. replace (Z.abs (dc + k - dc) <? k + 1) with true by lia. rewrite Hv by lia. reflexivity.
      + rewrite O2 by lia. rewrite V1. destruct (Z.abs (j - dc) <? k) eqn:E3, (Z.abs (j - dc) <? k + 1) eqn:E4; try reflexivity; lia.
    - destruct (store_ok m2 (dc - k) (mag2 add mul c)) as (m3 & E3 & L3 & S3 & O3); [rewrite L2, L1; apply Hin; lia|]. rewrite E3. cbn [obind].
      exists m3. split; [reflexivity|]. split; [lia|]. intros j. destruct (Z.eq_dec j (dc - k)) as [->|Hne].
      + rewrite S3. replace (Z.abs (dc - k - dc) <? k + 1) with true by lia. rewrite Hv by lia. reflexivity.
      + rewrite O3 by lia. destruct (Z.eq_dec j (dc + k)) as [->|Hne2].
        * rewrite S2. replace (Z.abs (dc + k - dc) <? k + 1) with true by lia. rewrite Hv by lia. reflexivity.
        * rewrite O2 by lia. rewrite V1. destruct (Z.abs (j - dc) <? k) eqn:E4, (Z.abs (j - dc) <? k + 1) eqn:E5; try reflexivity; lia.
  Qed.
  (** Any index outside the buffer makes the loop undefined. *)
  Lemma put_bins_ub is : forall mo, (forall i, In i is -> 0 <= i < zlen bins) ->
    (exists i, In i is /\ ~ (0 <= dc + i < zlen mo /\ (i <> 0 -> 0 <= dc - i < zlen mo))) -> put_bins mo is = UB.
  Proof.
    induction is as [|i is IH]; intros mo Hb (x & Hx & Hbad); [destruct Hx|]. cbn [put_bins]. unfold put_bin, zget.
    destruct (znth_some bins i) as (c & Ec); [apply Hb; now left|]. rewrite Ec. cbn [obind]. unfold store at 1.
    destruct ((0 <=? dc + i) && (dc + i <? zlen mo)) eqn:E1; [|reflexivity]. cbn [obind].
    set (m1 := upd mo _ _). assert (L1 : zlen m1 = zlen mo) by (unfold m1, zlen; now rewrite upd_length).
    destruct (i =? 0) eqn:Ei.
    - cbn [obind]. destruct Hx as [->|Hx]; [exfalso; lia|]. apply IH; [intros; apply Hb; now right|]. exists x. rewrite L1. auto.
    - unfold store. destruct ((0 <=? dc - i) && (dc - i <? zlen m1)) eqn:E2; [|reflexivity]. cbn [obind].
      assert (L2 : zlen (upd m1 (Z.to_nat (dc - i)) (fun _ => mag2 add mul c)) = zlen mo) by (unfold zlen in *; rewrite upd_length; lia).
      destruct Hx as [->|Hx]; [exfalso; lia|]. apply IH; [intros; apply Hb; now right|]. exists x. rewrite L2. auto.
  Qed.
End Cpu.

(** ** Mirroring the half spectrum *)
Section Conj.
  Context {F : Type} (neg : F -> F) (half : Z).
  Definition conj (c : F * F) : F * F := (fst c, neg (snd c)).
  Lemma conj_loop_app js1 : forall js2 mo, conj_loop neg half mo (js1 ++ js2) = obind (conj_loop neg half mo js1) (fun m => conj_loop neg half m js2).
  Proof. induction js1 as [|j js1 IH]; intros js2 mo; cbn; [reflexivity|]. destruct (zget mo _); cbn; auto. destruct (store mo _ _); cbn; auto. Qed.
  Lemma conj_loop_ok n : forall mo, Z.of_nat n <= half - 2 -> half + Z.of_nat n <= zlen mo ->
    exists mo', conj_loop neg half mo (zrange (Z.of_nat n)) = Ok mo' /\ zlen mo' = zlen mo /\
      forall k, znth mo' k = if (half <=? k) && (k <? half + Z.of_nat n) then option_map conj (znth mo (2 * half - 2 - k)) else znth mo k.
  Proof.
    induction n as [|n IH]; intros mo H1 H2.
    { exists mo. split; [reflexivity|]. split; [reflexivity|]. intros k. now replace ((half <=? k) && (k <? half + Z.of_nat 0)) with false by lia. }
    rewrite Nat2Z.inj_succ in *. unfold Z.succ in *. rewrite zrange_snoc by lia. rewrite conj_loop_app.
    destruct (IH mo) as (m1 & E1 & L1 & V1); [lia|lia|]. rewrite E1. cbn [obind conj_loop]. set (j := Z.of_nat n) in *.
    unfold zget. destruct (znth_some m1 (half - 2 - j)) as (c & Ec); [lia|]. rewrite Ec. cbn [obind].
    destruct (store_ok m1 (half + j) (fst c, neg (snd c))) as (m2 & E2 & L2 & S2 & O2); [lia|]. rewrite E2. cbn [obind].
    exists m2. split; [reflexivity|]. split; [lia|]. intros k. destruct (Z.eq_dec k (half + j)) as [->|Hne].
    - rewrite S2. replace ((half <=? half + j) && (half + j <? half + (j + 1))) with true by lia.
      rewrite V1 in Ec. replace ((half <=? half - 2 - j) && (half - 2 - j <? half + j)) with false in Ec by lia.
      replace (2 * half - 2 - (half + j)) with (half - 2 - j) by lia. rewrite Ec. reflexivity.
    - rewrite O2 by lia. rewrite V1. destruct ((half <=? k) && (k <? half + j)) eqn:E3, ((half <=? k) && (k <? half + (j + 1))) eqn:E4; try reflexivity; lia.
  Qed.
End Conj.

(** ** The GPU kernel: all threads write the same values to the same cells *)
Lemma faddr_eqb_spec x y : faddr_eqb x y = true <-> x = y.
Proof. destruct x, y; cbn; rewrite ?Z.eqb_eq; split; congruence. Qed.

Section Gpu.
  Context {F : Type} (add mul : F -> F -> F).
  Variables (N : Z) (bins : list (F * F)) (mo : mem F) (addV : fvalue F -> fvalue F -> fvalue F).
  Let dc := dc_index N.
  Let H := Z.quot N 2.
  Notation gm := (gpumem (A := faddr) (V := fvalue F)).
  Notation prog := (fprog F).
  Let m0 : gm := fmem0 bins mo.
  Definition out_value (j : Z) : option (fvalue F) := option_map FV (bin_value add mul dc bins j).
  Hypotheses (HN : 0 <= N) (Hb : H <= zlen bins) (Hin : forall j, Z.abs (j - dc) < H -> 0 <= j < zlen mo).

  Definition written (m : gm) (n : Z) : Prop := forall j, Z.abs (j - dc) < n -> m (FOut j) = out_value j.
  Definition good_mem (m : gm) : Prop :=
    (forall i, m (FBin i) = m0 (FBin i)) /\
    forall j, m (FOut j) = m0 (FOut j) \/ (Z.abs (j - dc) < H /\ m (FOut j) = out_value j).
  Notation loop n := (shift_loop add mul dc (Z.to_nat (H - n)) n).
  Inductive at_work (m : gm) : prog -> Prop :=
  | aw_loop n : 0 <= n <= H -> written m n -> at_work m (loop n)
  | aw_first n c : 0 <= n < H -> znth bins n = Some c -> written m n ->
      at_work m (BWr (FOut (dc + n)) (FV (mag2 add mul c)) (if n =? 0 then loop (n + 1) else BWr (FOut (dc - n)) (FV (mag2 add mul c)) (loop (n + 1))))
  | aw_second n c : 0 < n < H -> znth bins n = Some c -> written m n -> m (FOut (dc + n)) = out_value (dc + n) ->
      at_work m (BWr (FOut (dc - n)) (FV (mag2 add mul c)) (loop (n + 1))).

  Lemma out_value_of j n c : Z.abs (j - dc) = n -> znth bins n = Some c -> out_value j = Some (FV (mag2 add mul c)).
  Proof. intros E Ec. unfold out_value, bin_value. rewrite E, Ec. reflexivity. Qed.
  Lemma shift_loop_unfold n : 0 <= n < H -> loop n = BRd (FBin n) (fun v => match v with
        | FC c => BWr (FOut (dc + n)) (FV (mag2 add mul c)) (if n =? 0 then loop (n + 1) else BWr (FOut (dc - n)) (FV (mag2 add mul c)) (loop (n + 1)))
        | FV _ => BRd (FOut (-1)) (fun _ => BRet) end).
  Proof.
    intros Hn. replace (Z.to_nat (H - n)) with (S (Z.to_nat (H - (n + 1)))) by lia. reflexivity.
  Qed.

  (** A write of the right value. *)
  Definition set_right (m m' : gm) : Prop := m' = m \/ exists j v, Z.abs (j - dc) < H /\ out_value j = Some v /\ m' = gset faddr_eqb m (FOut j) v.
  Lemma right_keeps m m' j : set_right m m' -> m (FOut j) = out_value j -> m' (FOut j) = out_value j.
  Proof.
    intros [->|(i & v & _ & Ev & ->)] E; [exact E|]. unfold gset. cbn. destruct (i =? j) eqn:Ei; [|exact E]. assert (i = j) by lia. subst. now rewrite Ev.
  Qed.
  Lemma right_written m m' n : set_right m m' -> written m n -> written m' n.
  Proof. intros Hr Hw j Hj. eapply right_keeps; eauto. Qed.
  Lemma right_work m m' p : set_right m m' -> at_work m p -> at_work m' p.
  Proof.
    intros Hr [n Hn Hw|n c Hn Ec Hw|n c Hn Ec Hw E]; [apply aw_loop|apply aw_first|apply aw_second]; auto; try (eapply right_written; eauto; fail).
    eapply right_keeps; eauto.
  Qed.
  Lemma right_good m m' : set_right m m' -> good_mem m -> good_mem m'.
  Proof.
    intros [->|(i & v & Hi & Ev & ->)] (G1 & G2); [split; auto|]. split; intros j; unfold gset; cbn; [apply G1|].
    destruct (i =? j) eqn:Ei; [|apply G2]. assert (i = j) by lia. subst. right. now rewrite Ev.
  Qed.
  Lemma good_some m j : good_mem m -> Z.abs (j - dc) < H -> m (FOut j) <> None.
  Proof.
    intros (_ & G) Hj. destruct (G j) as [->|(_ & ->)].
    - unfold m0. cbn. destruct (znth_some mo j (Hin j Hj)) as (x & ->). discriminate.
    - unfold out_value, bin_value. destruct (znth_some bins (Z.abs (j - dc))) as (x & ->); [lia|discriminate].
  Qed.

  (** One step of one thread. *)
  Lemma work_step m p o : good_mem m -> at_work m p -> bstep faddr_eqb addV (m, p) o ->
    exists m' p', o = Ok (m', p') /\ set_right m m' /\ at_work m' p'.
  Proof.
    intros G W S. destruct W as [n Hn Hw|n c Hn Ec Hw|n c Hn Ec Hw E].
    - destruct (Z.eq_dec n H) as [->|Hne].
      { replace (Z.to_nat (H - H)) with O in S by lia. cbn in S. inversion S. }
      rewrite shift_loop_unfold in S by lia.
      assert (Eb : exists c, znth bins n = Some c /\ m (FBin n) = Some (FC c)).
      { destruct (znth_some bins n) as (c & Ec); [lia|]. exists c. split; [exact Ec|]. rewrite (proj1 G). unfold m0. cbn. now rewrite Ec. }
      destruct Eb as (c & Ec & Em). inversion S; subst; [|congruence]. match goal with H1 : m (FBin n) = Some ?w |- _ => rewrite Em in H1; injection H1 as <- end.
      exists m. eexists. split; [reflexivity|]. split; [now left|]. apply aw_first; auto. lia.
    - assert (Ev : out_value (dc + n) = Some (FV (mag2 add mul c))) by (apply (out_value_of _ n); [lia|exact Ec]).
      inversion S as [| |? ? ? ? Hnn|? ? ? ? Hnn| |]; subst.
      + assert (R : set_right m (gset faddr_eqb m (FOut (dc + n)) (FV (mag2 add mul c)))) by (right; exists (dc + n), (FV (mag2 add mul c)); split; [lia|auto]).
        eexists _, _. split; [reflexivity|]. split; [exact R|].
        assert (E0 : gset faddr_eqb m (FOut (dc + n)) (FV (mag2 add mul c)) (FOut (dc + n)) = out_value (dc + n)) by (rewrite gset_same by exact faddr_eqb_spec; now rewrite Ev).
        destruct (n =? 0) eqn:En.
        * apply aw_loop; [lia|]. intros j Hj. assert (j = dc + n) by lia. subst j. exact E0.
        * apply aw_second; auto; [lia|]. eapply right_written; eauto.
      + exfalso. apply (good_some m (dc + n) G); [lia|exact Hnn].
    - assert (Ev : out_value (dc - n) = Some (FV (mag2 add mul c))) by (apply (out_value_of _ n); [lia|exact Ec]).
      inversion S as [| |? ? ? ? Hnn|? ? ? ? Hnn| |]; subst.
      + assert (R : set_right m (gset faddr_eqb m (FOut (dc - n)) (FV (mag2 add mul c)))) by (right; exists (dc - n), (FV (mag2 add mul c)); split; [lia|auto]).
        eexists _, _. split; [reflexivity|]. split; [exact R|]. apply aw_loop; [lia|]. intros j Hj.
        destruct (Z.eq_dec j (dc - n)) as [->|Hj1]; [rewrite gset_same by exact faddr_eqb_spec; now rewrite Ev|].
        destruct (Z.eq_dec j (dc + n)) as [->|Hj2]; [eapply right_keeps; eauto|]. eapply right_keeps; [exact R|]. apply Hw. lia.
      + exfalso. apply (good_some m (dc - n) G); [lia|exact Hnn].
  Qed.
  Lemma work_moves m p : good_mem m -> at_work m p -> p = BRet \/ exists o, bstep faddr_eqb addV (m, p) o.
  Proof.
    intros G W. destruct W as [n Hn Hw|n c Hn Ec Hw|n c Hn Ec Hw E].
    - destruct (Z.eq_dec n H) as [->|Hne]; [left; now replace (Z.to_nat (H - H)) with O by lia|]. right. rewrite shift_loop_unfold by lia.
      destruct (m (FBin n)) eqn:Em; eexists; [eapply bs_rd; eauto|eapply bs_rd_ub; eauto].
    - right. eexists. apply bs_wr. apply good_some; [exact G|lia].
    - right. eexists. apply bs_wr. apply good_some; [exact G|lia].
  Qed.

  Definition good_grid (c : grid (A := faddr) (V := fvalue F)) : Prop :=
    good_mem (fst c) /\ exists ps, snd c = [ps] /\ ps <> [] /\ Forall (at_work (fst c)) ps.
  Lemma no_barrier m qs : Forall (at_work m) (map BBar qs) -> qs = [].
  Proof.
    destruct qs as [|q qs]; [reflexivity|]. cbn. intros Hf. inversion Hf as [|? ? W _]; subst. exfalso. inversion W as [n Hn Hw Eq|? ? ? ? ? Eq|? ? ? ? ? ? Eq]; try discriminate Eq.
    destruct (Z.eq_dec n H) as [->|Hne]; [replace (Z.to_nat (H - H)) with O in Eq by lia; discriminate Eq|]. rewrite shift_loop_unfold in Eq by lia. discriminate Eq.
  Qed.
  Lemma good_step c o : good_grid c -> bgstep faddr_eqb addV c o -> exists c', o = Ok c' /\ good_grid c'.
  Proof.
    intros (G & ps & Eps & Hne & Hf) S. inversion S as [m B1 ps1 p ps2 B2 m' p' St|m B1 ps1 p ps2 B2 St|m B1 qs B2 Hq]; subst; cbn [fst snd] in *.
    - destruct B1; [|destruct B1; discriminate]. cbn in Eps. injection Eps as <- ->.
      apply Forall_app in Hf as (F1 & F2). inversion F2 as [|? ? Wp F3]; subst.
      destruct (work_step m p _ G Wp St) as (m2 & p2 & E & R & W2). injection E as <- <-. eexists. split; [reflexivity|]. split; [eapply right_good; eauto|].
      exists (ps1 ++ p' :: ps2). split; [reflexivity|]. split; [destruct ps1; discriminate|]. cbn [fst].
      apply Forall_app. split; [eapply Forall_impl; [|exact F1]; intros; eapply right_work; eauto|]. constructor; [exact W2|].
      eapply Forall_impl; [|exact F3]; intros; eapply right_work; eauto.
    - destruct B1; [|destruct B1; discriminate]. cbn in Eps. injection Eps as <- ->.
      apply Forall_app in Hf as (F1 & F2). inversion F2 as [|? ? Wp F3]; subst. destruct (work_step m p _ G Wp St) as (? & ? & E & _). discriminate.
    - destruct B1; [|destruct B1; discriminate]. cbn in Eps. injection Eps as <- ->. exfalso. apply Hq. eapply no_barrier; eauto.
  Qed.
  Lemma good_steps c o : bgsteps faddr_eqb addV c o -> good_grid c -> exists c', o = Ok c' /\ good_grid c'.
  Proof.
    induction 1 as [c|c c' o S1 S2 IH|c S1]; intros G; [eauto| |].
    - destruct (good_step c _ G S1) as (d & E & G'). injection E as <-. auto.
    - destruct (good_step c _ G S1) as (d & E & G'). discriminate.
  Qed.

  Lemma start_good : good_grid (m0, shift_gpu add mul N).
  Proof.
    split; [split; auto|]. eexists. split; [reflexivity|]. split.
    - intros E. apply (f_equal (@length _)) in E. rewrite map_length in E. discriminate.
    - apply Forall_map, Forall_forall. intros t _. unfold shift_thread. rewrite Z.mul_0_r, Z.mul_0_l. fold dc H. apply aw_loop; [unfold H; lia|]. intros j Hj. lia.
  Qed.

  Theorem shift_gpu_correct : gpu_final faddr_eqb addV m0 (shift_gpu add mul N) (fun k =>
    forall j, k (FOut j) = if Z.abs (j - dc) <? H then out_value j else option_map FV (znth mo j)).
  Proof.
    split; [apply grid_always_ends|]. intros o Ho. destruct (good_steps _ _ Ho start_good) as (c & -> & G & ps & Eps & Hne & Hf). exists c. split; [reflexivity|].
    split.
    - destruct c as (m, g). cbn [fst snd] in *. subst g.
      assert (D : Forall (fun p => p = BRet) ps \/ exists p, In p ps /\ p <> BRet).
      { clear. induction ps as [|p ps IH]; [left; constructor|]. destruct IH as [IH|(q & Hq & Hn)]; [|right; exists q; split; [now right|exact Hn]].
        destruct p; [left; now constructor|right; eexists; split; [now left|discriminate]..]. }
      destruct D as [D|(p & Hp & Hn)]; [left; constructor; auto|right].
      rewrite Forall_forall in Hf. destruct (work_moves m p G (Hf p Hp)) as [E|(o & S)]; [contradiction|].
      destruct (work_step m p o G (Hf p Hp) S) as (m' & p' & -> & _). apply in_split in Hp as (p1 & p2 & ->).
      eexists. apply (bg_ok faddr_eqb addV m [] p1 p p2 [] m' p' S).
    - intros D j. destruct c as (m, g). cbn [fst snd] in *. subst g. inversion D as [|? ? D1 _]; subst.
      destruct ps as [|p ps]; [congruence|]. inversion D1 as [|? ? -> _]; subst. inversion Hf as [|? ? W _]; subst.
      assert (Hall : written m H).
      { inversion W as [n Hn Hw Eq|? ? ? ? ? Eq|? ? ? ? ? ? Eq]; try discriminate Eq.
        destruct (Z.eq_dec n H) as [->|Hn2]; [exact Hw|]. rewrite shift_loop_unfold in Eq by lia. discriminate Eq. }
      destruct (Z.abs (j - dc) <? H) eqn:Ej; [apply Hall; lia|]. destruct (proj2 G j) as [E|(E & _)]; [exact E|lia].
  Qed.
End Gpu.
