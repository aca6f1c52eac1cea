(** GPU sums over the time axis, and the arrays computed from them. *)
From Verif Require Import PropGred GredReal GredExact GredKernels GaccRel GleakRel.
From Coq Require Import ZifyBool ZifyNat Lia Permutation Reals Lra.
From Flocq Require Import Core BinarySingleNaN.
From Verif Require Import DriftFloatProofs FsumFacts FsumProofs GaccProofs PropGacc GleakProofs PropGleak GkurtModel FlagProofs FlagProofs2 NdIndexFacts NdProofs RedProofs3 PropKurt.
Local Open Scope Z_scope.

(** ** Runs *)
Lemma finishes {A V} (eqA : A -> A -> bool) (addV : V -> V -> V) c : grid_ends eqA addV c -> (forall o, bgsteps eqA addV c o -> exists c', o = Ok c' /\ (grid_done c' \/ exists c2, bgstep eqA addV c' (Ok c2))) ->
  exists c', bgsteps eqA addV c (Ok c') /\ grid_done c'.
Proof.
  intros E. induction E as [c _ IH]. intros H. destruct (H (Ok c) (bgs_refl _ _ c)) as (c' & Ec & [D|(c2 & St)]).
  - injection Ec as <-. exists c. split; [constructor|exact D].
  - injection Ec as <-. destruct (IH c2 St) as (c3 & R & D).
    + intros o Ho. apply H. eapply bgs_step; eassumption.
    + exists c3. split; [eapply bgs_step; eassumption|exact D].
Qed.
Lemma times_enumerate T C c : 0 <= c < C -> enumerates [T; C] [0] [c] (map (fun t => [t; c]) (zrange T)).
Proof.
  intros Hc. split.
  - apply FinFun.Injective_map_NoDup; [intros a b E; now injection E|]. apply zrange_nodup.
  - intros idx. rewrite in_map_iff. split.
    + intros (t & <- & Ht). apply in_zrange in Ht. split; [apply in_range2i; lia|reflexivity].
    + intros (R & O). apply in_range2 in R as (t & c' & -> & Ht & Hc'). cbn in O. injection O as ->. exists t. split; [reflexivity|]. apply in_zrange. lia.
Qed.
Section Sum.
  Variables (T C : Z) (x : mem f32) (f : list Z -> f32) (M : R).
  Hypothesis HT : 1 <= T < 2 ^ 31.
  Hypothesis HC : 1 <= C.
  Hypothesis Hb : C < 2 ^ 31.
  Hypothesis Hx : zlen x = T * C.
  Hypothesis Hf : forall idx, in_range [T; C] idx -> elt x (dense [T; C]) idx = Some (f idx).
  Hypothesis M0 : (0 <= M)%R.
  Hypothesis MT : (IZR T * M <= bpow radix2 123)%R.
  Hypothesis HM : forall idx, in_range [T; C] idx -> is_finite (f idx) = true /\ (Rabs (B2R (f idx)) <= M)%R.
  Lemma sum_yields : gpu_yields (gk_sum PropGred.ops32) (dense [T; C]) (dense []) [0] x [] (fun out => forall c, 0 <= c < C -> exists v, out 0 [c] = Some v /\ sum_near T M (samples T f c) v).
  Proof.
    assert (Erf : red_factor (dense [T; C]) [0] = T) by (change (red_factor (dense [T; C]) [0]) with (T * 1); lia).
    eapply gpu_weaken; [|apply (C105_gpu_sum (dense [T; C]) (dense []) [0] x [] M)].
    - cbn beta. intros out Ho c Hc. rewrite Erf in Ho. apply (Ho [c] (map (fun t => [t; c]) (zrange T)) (samples T f c)).
      + apply in_range1. exists c. split; [reflexivity|exact Hc].
      + now apply times_enumerate.
      + unfold reads, samples. assert (forall t, In t (zrange T) -> elt x (dense [T; C]) [t; c] = Some (f [t; c])). { intros t Ht. apply in_zrange in Ht. apply Hf, in_range2i; lia. }
        induction (zrange T) as [|t l IH]; constructor; [apply H; now left|]. apply IH. intros t' Ht'. apply H. now right.
    - destruct (PropGred.dense_ok x [T; C] [0]) as (H & U); [repeat constructor; lia|vm_compute; discriminate|split; [repeat constructor; auto|repeat constructor; unfold zlen; cbn; lia]| | |].
      + change (zprod (out_shape [0] [T; C])) with (C * 1). lia.
      + rewrite Hx. change (Base.zprod [T; C]) with (T * (C * 1)). lia.
      + split; [exact H|]. split; [exact U|]. rewrite Erf. lia.
    - split; [exact M0|]. split; [rewrite Erf; exact MT|]. intros idx v R _ E. change (in_range [T; C] idx) in R. rewrite Hf in E by exact R. injection E as <-. now apply HM.
  Qed.
  Lemma cell1 c : cell (dense [C]) [c] = c. Proof. unfold cell, dense. cbn -[Z.mul Z.add]. lia. Qed.
  Lemma sum0_exists : exists r, gpu_sum0 (dense [T; C], x) r.
  Proof.
    destruct sum_yields as (gr & L & Y). specialize (Y (fun _ _ => f32_of_Z 0) (fun _ _ => f32_of_Z 0)). cbv zeta in Y. destruct Y as (E & Y).
    destruct (finishes _ _ _ E) as (c & R & D). { intros o Ho. destruct (Y o Ho) as (c' & -> & P & _). eauto. }
    destruct (Y _ R) as (c' & Ec & _ & P). injection Ec as <-. specialize (P D). cbn beta in P.
    set (val := fun i => match fst c (GOut 0 i) with Some (VY y) => y | _ => f32_of_Z 0 end). exists (dense [C], map val (zrange C)).
    assert (EC : zprod [C] = C) by (change (zprod [C]) with (C * 1); lia).
    eexists gr, _, _, c. split; [exact L|]. split; [exact R|]. split; [exact D|]. split; [reflexivity|]. change (out_shape [0] (l_shape (fst (dense [T; C], x)))) with [C]. rewrite EC. split.
    - unfold zlen. cbn [snd]. rewrite map_length. pose proof (zrange_length C) as K. unfold zlen in K. lia.
    - intros i Hi. exists (val i). split.
      + cbn [snd]. now rewrite znth_map_zrange by lia.
      + destruct (P i Hi) as (v & Ev & _). change (out_shape [0] (l_shape (dense [T; C]))) with [C] in Ev. rewrite cell1 in Ev. unfold val. destruct (fst c (GOut 0 i)) as [[| | |]|]; try discriminate. reflexivity.
  Qed.
  Lemma sum0_is r : gpu_sum0 (dense [T; C], x) r -> exists g, arr_is r [C] g /\ forall c, 0 <= c < C -> sum_near T M (samples T f c) (g [c]).
  Proof.
    intros (gr & jS & jY & c & L & R & D & Fr & Lr & V). cbv zeta in *. destruct sum_yields as (gr' & L' & Y). cbn [fst snd] in *. rewrite L in L'. injection L' as <-. specialize (Y jS jY). cbv zeta in Y. destruct Y as (_ & Y).
    destruct (Y _ R) as (c' & Ec & _ & P). injection Ec as <-. specialize (P D). cbn beta in P. change (out_shape [0] (l_shape (dense [T; C]))) with [C] in *.
    assert (EC : zprod [C] = C) by (change (zprod [C]) with (C * 1); lia). rewrite EC in *.
    exists (fun i => match znth (snd r) (nth 0 i 0) with Some v => v | None => f32_of_Z 0 end). split.
    - destruct r as [lr mr]. cbn [fst snd] in *. subst lr. apply arr_is_dense; [now rewrite EC|]. intros idx Hi. apply in_range1 in Hi as (i & -> & Hi). cbn [nth]. unfold elt. rewrite cell1. destruct (V i Hi) as (v & -> & _). reflexivity.
    - intros i Hi. cbn [nth]. destruct (V i Hi) as (v & -> & Ev). destruct (P i Hi) as (w & Ew & K). rewrite cell1, Ev in Ew. injection Ew as <-. exact K.
  Qed.
End Sum.

(** ** The estimate *)
From Verif Require Import KurtProofs GkurtReal.
Lemma tail_is junk C N M (d : f32) s s2 gs gs2 : 1 <= C -> C < 2 ^ 31 -> - 2 ^ 31 <= M * N < 2 ^ 31 -> arr_is s [C] gs -> arr_is s2 [C] gs2 ->
  exists r, (let! s1 := nd_square ops32 junk s in
   let! rr := expand_op (o_div ops32) junk (fst s2) (fst s1) (snd s2) (snd s1) in
   let! k := sk_factor ops32 N M d in
   let! a := array_scalar_op (o_mul ops32) junk (fst rr) (snd rr) (o_of ops32 M) in
   let! b := array_scalar_op (o_sub ops32) junk (fst a) (snd a) (o_of ops32 1) in
   array_scalar_op (o_mul ops32) junk (fst b) (snd b) k) = Ok r /\ arr_is r [C] (fun i => value32 N M d (gs i) (gs2 i)).
Proof.
  intros HC HC2 HMN H1 H4. assert (SmC : small [C]). { split; [repeat constructor; lia|]. change (zprod [C]) with (C * 1). lia. }
  destruct (square_is ops32 junk s [C] _ H1 SmC) as (s1 & E2 & _ & _ & H2). rewrite E2. cbn [obind].
  destruct (same_shape_is (o_div ops32) junk s2 s1 [C] _ _ H4 H2) as (r & E5 & _ & _ & H5);
    [repeat constructor; lia|discriminate|change (zprod [C]) with (C * 1); lia|]. rewrite E5. cbn [obind].
  unfold sk_factor. replace ((- 2 ^ 31 <=? M * N) && (M * N <? 2 ^ 31)) with true by lia. cbn [obind].
  destruct (scalar_is (o_mul ops32) junk r [C] _ (o_of ops32 M) H5 SmC) as (a & E6 & _ & _ & H6). rewrite E6. cbn [obind].
  destruct (scalar_is (o_sub ops32) junk a [C] _ (o_of ops32 1) H6 SmC) as (b & E7 & _ & _ & H7). rewrite E7. cbn [obind].
  destruct (scalar_is (o_mul ops32) junk b [C] _ (o_div ops32 (o_add ops32 (o_mul ops32 (o_of ops32 (M * N)) d) (o_of ops32 1)) (o_of ops32 (M - 1))) H7 SmC)
    as (z & E8 & _ & _ & H8). exists z. split; [exact E8|]. exact H8.
Qed.
Lemma flags_is jz T C (sk : arr f32) g mask m lower upper : 1 <= T -> 1 <= C -> T * C < 2 ^ 31 -> arr_is sk [C] g -> arr_is mask [T; C] m ->
  exists r, (let! lo := compare_scalar (fun x t => o_lt ops32 x t) jz sk lower in
   let! lo2 := scale_flags jz lo LOW_SK in
   let! hi := compare_scalar (fun x t => o_lt ops32 t x) jz sk upper in
   let! hi2 := scale_flags jz hi HIGH_SK in
   let! rfi := add_flags jz lo2 hi2 in
   let! l := unsqueeze (fst rfi) 0 in
   add_flags jz mask (l, snd rfi)) = Ok r /\ arr_is r [T; C] (fun i => (m i + sk_bits ops32 (g [nth 1 i 0]) lower upper) mod 256).
Proof.
  intros HT HC Hb H1 Am. assert (HC2 : C < 2 ^ 31) by nia.
  assert (SmC : small [C]). { split; [repeat constructor; lia|]. change (zprod [C]) with (C * 1). lia. }
  unfold compare_scalar, scale_flags, add_flags.
  destruct (scalar_is (fun x t => u8_of_bool (o_lt ops32 x t)) jz sk [C] _ lower H1 SmC) as (lo & E2 & _ & _ & H2). rewrite E2. cbn [obind].
  destruct (scalar_is u8_mul jz lo [C] _ LOW_SK H2 SmC) as (lo2 & E3 & _ & _ & H3). rewrite E3. cbn [obind].
  destruct (scalar_is (fun x t => u8_of_bool (o_lt ops32 t x)) jz sk [C] _ upper H1 SmC) as (hi & E4 & _ & _ & H4). rewrite E4. cbn [obind].
  destruct (scalar_is u8_mul jz hi [C] _ HIGH_SK H4 SmC) as (hi2 & E5 & _ & _ & H5). rewrite E5. cbn [obind].
  destruct (same_shape_is u8_add jz lo2 hi2 [C] _ _ H3 H5) as (rfi & E6 & D6 & L6 & H6);
    [repeat constructor; lia|discriminate|change (zprod [C]) with (C * 1); lia|]. rewrite E6. cbn [obind].
  destruct rfi as [lr mr]. cbn [fst snd] in *. subst lr.
  assert (U : exists l, unsqueeze (dense [C]) 0 = Ok l /\ arr_is (l, mr) [1; C] (fun i => sk_bits ops32 (g [nth 1 i 0]) lower upper)).
  { exists (Layout [1; C] [0; 1] [0; 0]). split; [reflexivity|]. destruct H6 as (W & S1 & I & E). cbn [fst snd] in *.
    assert (K2 : forall c, cell (Layout [1; C] [0; 1] [0; 0]) [0; c] = c) by (intros; unfold cell; cbn -[Z.mul Z.add]; lia).
    split; [split; reflexivity|]. split; [reflexivity|]. cbn [fst snd]. split.
    - intros idx R. change (in_range [1; C] idx) in R. apply in_range2 in R. destruct R as (t & c & -> & Ht & Hc).
      assert (t = 0) by lia. subst t. rewrite L6. change (zprod [C]) with (C * 1). rewrite K2. lia.
    - intros idx R. apply in_range2 in R. destruct R as (t & c & -> & Ht & Hc). assert (t = 0) by lia. subst t. cbn [nth].
      specialize (E [c] ltac:(apply in_range1; eauto)). unfold elt in E |- *. rewrite cell1 in E.
      rewrite K2, E. f_equal. unfold sk_bits, u8_add, u8_mul, u8_of_bool, to_uint8.
      destruct (o_lt ops32 _ lower), (o_lt ops32 upper _); reflexivity. }
  destruct U as (l & EU & HU). rewrite EU. cbn [obind].
  destruct (expand_is u8_add jz mask (l, mr) [T; C] [1; C] [T; C] m _ Am HU) as (r & E7 & _ & _ & H7).
  - repeat constructor; lia.
  - repeat constructor; lia.
  - unfold expand_shapes. change (Nat.max _ _) with 2%nat. change (pad1 (rev [T; C]) 2) with [C; T]. change (pad1 (rev [1; C]) 2) with [C; 1].
    cbn [expand_loop]. rewrite Z.eqb_refl. change (1 =? 1) with true. cbn [negb andb]. rewrite andb_false_r. cbn [obind rev app].
    rewrite Z.max_id, Z.max_l by lia. reflexivity.
  - discriminate.
  - change (zprod [T; C]) with (T * (C * 1)). lia.
  - now left.
  - now left.
  - exists r. split; [exact E7|]. eapply arr_is_ext; [|exact H7]. intros i R. cbn beta. pose proof R as R0. apply in_range2 in R. destruct R as (t & c & -> & Ht & Hc).
    rewrite bidx_same by exact R0. unfold u8_add, to_uint8. do 3 f_equal. unfold bidx. cbn -[Z.eqb]. destruct (Z.eqb_spec C 1); cbn [nth]; [do 3 f_equal; lia|reflexivity].
Qed.

(** ** Its error *)
Section Kurt.
  Variables (T C : Z) (x : mem f32) (f : list Z -> f32) (X : R) (N : Z) (d : f32) (junk : Z -> f32).
  Hypothesis HT : 2 <= T <= 2 ^ 16.
  Hypothesis HC : 1 <= C.
  Hypothesis Hb : T * C < 2 ^ 31.
  Hypothesis Hx : zlen x = T * C.
  Hypothesis Hf : forall idx, in_range [T; C] idx -> elt x (dense [T; C]) idx = Some (f idx).
  Hypothesis X0 : (0 <= X <= bpow radix2 40)%R.
  Hypothesis HX : forall idx, in_range [T; C] idx -> is_finite (f idx) = true /\ (0 <= B2R (f idx) <= X)%R.
  Hypothesis HN : 0 <= N.
  Hypothesis HMN : T * N < 2 ^ 31.
  Hypothesis Fd : is_finite d = true.
  Hypothesis Hd : (0 <= B2R d <= bpow radix2 20)%R.
  Let sq (i : list Z) : f32 := Bmult mode_NE (f i) (f i).
  Let M2 := (X * X * (1 + KurtProofs.u) + bpow radix2 (-150))%R.
  Let Td : (IZR T <= bpow radix2 16)%R. Proof. change (bpow radix2 16) with (IZR (2 ^ 16)). apply IZR_le. lia. Qed.
  Let Tp : (2 <= IZR T)%R. Proof. apply IZR_le. lia. Qed.
  Lemma fits1 : (IZR T * X <= bpow radix2 123)%R.
  Proof. apply Rle_trans with (bpow radix2 16 * bpow radix2 40)%R; [apply Rmult_le_compat; lra|]. rewrite <- bpow_plus. apply bpow_le. lia. Qed.
  Lemma M2_pos : (0 <= M2)%R.
  Proof. unfold M2. pose proof KurtProofs.u_pos. pose proof (bpow_ge_0 radix2 (-150)). nra. Qed.
  Lemma fits2 : (IZR T * M2 <= bpow radix2 123)%R.
  Proof.
    assert (M2 <= bpow radix2 82)%R. { unfold M2. rewrite KurtProofs.u_val. assert (X * X <= bpow radix2 80)%R by (change 80 with (40 + 40); rewrite bpow_plus; apply Rmult_le_compat; lra).
      assert (bpow radix2 (-150) <= bpow radix2 80)%R by (apply bpow_le; lia). pose proof (bpow_ge_0 radix2 80). change 82 with (2 + 80). rewrite bpow_plus. change (bpow radix2 2) with 4%R. set (b := bpow radix2 80) in *. clearbody b. lra. }
    pose proof M2_pos. apply Rle_trans with (bpow radix2 16 * bpow radix2 82)%R; [apply Rmult_le_compat; lra|]. rewrite <- bpow_plus. apply bpow_le. lia.
  Qed.
  Lemma squares_held idx : in_range [T; C] idx -> is_finite (sq idx) = true /\ (Rabs (B2R (sq idx)) <= M2)%R.
  Proof.
    intros R. destruct (HX idx R) as (F & A & B). destruct (KurtProofs.square_parts (f idx) F) as (Fq & a & (A0 & Q0 & _ & Qa) & Ea); [rewrite Rabs_pos_eq; lra|].
    split; [exact Fq|]. unfold sq. rewrite Rabs_pos_eq by exact Q0. clear Fq. destruct (KurtProofs.mult_ok (f idx) (f idx) F F) as (_ & V).
    { rewrite Rabs_mult, Rabs_pos_eq by exact A. apply Rle_trans with (bpow radix2 40 * bpow radix2 40)%R; [apply Rmult_le_compat; lra|]. rewrite <- bpow_plus. apply bpow_le. lia. }
    rewrite V. destruct (KurtProofs.rnd_parts (B2R (f idx) * B2R (f idx))) as (e & h & He & Hh & _ & ->). apply Rabs_le_inv in Hh. unfold M2. pose proof KurtProofs.u_pos as U.
    assert (He' : (e <= KurtProofs.u)%R). { apply Rabs_le_inv in He. eapply Rle_trans; [apply He|]. apply Rmult_le_reg_r with (1 + KurtProofs.u)%R; [lra|]. unfold Rdiv. rewrite Rmult_assoc, Rinv_l by lra. nra. }
    apply Rplus_le_compat; [|lra]. set (y := B2R (f idx)) in *. clearbody y. assert (0 <= y * y)%R by nra. assert (y * y <= X * X)%R by (apply Rmult_le_compat; lra). apply Rle_trans with (y * y * (1 + KurtProofs.u))%R; [apply Rmult_le_compat_l; lra|apply Rmult_le_compat_r; lra].
  Qed.
  Lemma plain_held idx : in_range [T; C] idx -> is_finite (f idx) = true /\ (Rabs (B2R (f idx)) <= X)%R.
  Proof. intros R. destruct (HX idx R) as (F & A & B). split; [exact F|]. now rewrite Rabs_pos_eq. Qed.
  Let data : arr f32 := (dense [T; C], x).
  Lemma data_is : arr_is data [T; C] f.
  Proof. apply arr_is_dense; [|exact Hf]. rewrite Hx. change (zprod [T; C]) with (T * (C * 1)). lia. Qed.
  Lemma squares_arr : exists mq, nd_square ops32 junk data = Ok (dense [T; C], mq) /\ zlen mq = T * C /\ forall idx, in_range [T; C] idx -> elt mq (dense [T; C]) idx = Some (sq idx).
  Proof.
    assert (SmTC : small [T; C]). { split; [repeat constructor; lia|]. change (zprod [T; C]) with (T * (C * 1)). lia. }
    destruct (square_is ops32 junk data [T; C] _ data_is SmTC) as ([lq mq] & E & Dq & Lq & (_ & _ & _ & V)). cbn [fst snd] in *. subst lq. exists mq. split; [exact E|]. split; [rewrite Lq; change (zprod [T; C]) with (T * (C * 1)); lia|exact V].
  Qed.
  Let C31 : C < 2 ^ 31. Proof. clear - HT HC Hb. nia. Qed.
  Lemma gpu_kurtosis_ends : exists r, gpu_kurtosis junk data N T d r.
  Proof.
    destruct (sum0_exists T C x f X ltac:(lia) HC C31 Hx Hf (proj1 X0) fits1 plain_held) as (s & Es). destruct squares_arr as (mq & Eq & Lq & Vq).
    destruct (sum0_exists T C mq sq M2 ltac:(lia) HC C31 Lq Vq M2_pos fits2 squares_held) as (s2 & Es2).
    destruct (sum0_is T C x f X ltac:(lia) HC C31 Hx Hf (proj1 X0) fits1 plain_held s Es) as (g & Hg & _). destruct (sum0_is T C mq sq M2 ltac:(lia) HC C31 Lq Vq M2_pos fits2 squares_held s2 Es2) as (g2 & Hg2 & _).
    destruct (tail_is junk C N T d s s2 g g2 HC C31 ltac:(lia) Hg Hg2) as (r & Er & _). exists r, s, (dense [T; C], mq), s2. auto.
  Qed.
  Lemma gpu_kurtosis_is r : gpu_kurtosis junk data N T d r -> exists g, arr_is r [C] g /\ forall c kk, 0 <= c < C -> let xs := samples T f c in
    1 <= kk <= 64 -> (IZR T * X <= IZR kk * FlagReal.rsum (map B2R xs))%R -> (bpow radix2 (-40) <= FlagReal.rsum (map B2R xs))%R ->
    is_finite (g [c]) = true /\ (Rabs (B2R (g [c]) - kurtosis N (B2R d) (map B2R xs)) <= (IZR (kk * kk) + 2) * bpow radix2 (-18) * (kurtosis N (B2R d) (map B2R xs) + scale N T (B2R d)))%R.
  Proof.
    intros (s & q & s2 & Es & Eq & Es2 & Er). destruct squares_arr as (mq & Eq' & Lq & Vq). rewrite Eq in Eq'. injection Eq' as ->.
    destruct (sum0_is T C x f X ltac:(lia) HC C31 Hx Hf (proj1 X0) fits1 plain_held s Es) as (g & Hg & Sg). destruct (sum0_is T C mq sq M2 ltac:(lia) HC C31 Lq Vq M2_pos fits2 squares_held s2 Es2) as (g2 & Hg2 & Sg2).
    destruct (tail_is junk C N T d s s2 g g2 HC C31 ltac:(lia) Hg Hg2) as (r' & Er' & Hr). rewrite Er in Er'. injection Er' as <-. eexists. split; [exact Hr|]. intros c kk Hc xs Hkk Hk Hl. cbv beta.
    assert (L : zlen xs = T) by (apply samples_len; lia).
    assert (P : Forall (fun y => is_finite y = true /\ (0 <= B2R y <= X)%R) xs). { apply Forall_forall. intros y Hy. unfold xs, samples in Hy. apply in_map_iff in Hy as (t & <- & Ht). apply in_zrange in Ht. apply HX, in_range2i; lia. }
    assert (MS : measurable xs). { split; [|split; [|exact Hl]]; (eapply Forall_impl; [|exact P]); cbn beta; intros y (F & A & B); [auto|lra]. }
    assert (RS : forall l, Forall (fun y : R => (0 <= y)%R) l -> FsumFacts.rsum l = FlagReal.rsum l /\ FsumFacts.rsum (map Rabs l) = FlagReal.rsum l).
    { clear. induction 1 as [|y l Hy _ (I1 & I2)]; [split; reflexivity|]. cbn [map]. rewrite !FsumFacts.rsum_cons, I1, I2, Rabs_pos_eq by exact Hy. split; reflexivity. }
    destruct (Sg c Hc) as (F1 & E1). destruct (Sg2 c Hc) as (F2 & E2).
    assert (N1 : Forall (fun y : R => (0 <= y)%R) (map B2R xs)) by (apply powers_nonneg, MS). destruct (RS _ N1) as (R1 & R2). fold xs in E1. rewrite R1, R2 in E1.
    assert (Eq2 : @samples f32 T sq c = map (fun y : f32 => Bmult mode_NE y y) xs) by (unfold xs, samples; rewrite map_map; reflexivity). rewrite Eq2 in E2.
    destruct (squares_parts xs (proj1 MS) (proj1 (proj2 MS))) as (Pq & _). destruct (RS _ (powers_nonneg _ Pq)) as (R3 & R4). set (qs := map (fun y : f32 => Bmult mode_NE y y) xs) in *. assert (R3' : FsumFacts.rsum (map (@B2R 24 128) qs) = FlagReal.rsum (map (@B2R 24 128) qs)) by exact R3. assert (R4' : FsumFacts.rsum (map Rabs (map (@B2R 24 128) qs)) = FlagReal.rsum (map (@B2R 24 128) qs)) by exact R4. rewrite R3', R4' in E2. rewrite <- L in E1, E2, Hk.
    destruct (gpu_value_ok N d xs X kk (g [c]) (g2 [c]) ltac:(lia) MS (proj1 X0) Hkk Hk E1 E2 HN ltac:(lia) Fd Hd F1 F2) as (Fv & Ev). rewrite L in Fv, Ev. split; [exact Fv|].
    rewrite kurtosis_is. assert (L2 : zlen (map B2R xs) = T) by (unfold zlen in *; now rewrite map_length). rewrite L2. unfold factor in Ev. unfold scale. rewrite <- (mult_IZR T N). exact Ev.
  Qed.
End Kurt.
