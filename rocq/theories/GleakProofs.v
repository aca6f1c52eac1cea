(** GPU reductions to any number of outputs: how far compensations carried over move sums and means. *)
From Verif Require Import PropGred GredKernels GaccRel GleakRel KurtProofs DriftFloatProofs.
From Coq Require Import ZifyBool ZifyNat Lia Permutation Reals Lra Psatz.
From Flocq Require Import Core BinarySingleNaN Plus_error Relative.
From Verif Require Import FsumFacts FsumProofs GaccProofs.
Local Open Scope R_scope.

Section Leak.
  (** [M]: the largest magnitude; [n]: the most elements a thread takes. *)
  Variables (M : R) (n : Z).
  Hypothesis (M0 : 0 <= M) (N1 : (1 <= n <= 2 ^ 22)%Z) (MN : IZR n * M <= bpow radix2 123).
  Definition held (x : f32) : Prop := is_finite x = true /\ Rabs (B2R x) <= M.
  (** The largest compensation a thread can carry over. *)
  Definition carried : R := 5 * / 16777216 * (IZR n * M).
  Definition comp_ok (c : f32) : Prop := is_finite c = true /\ Rabs (B2R c) <= carried.
  Lemma NM0 : 0 <= IZR n * M. Proof. apply Rmult_le_pos; [apply IZR_le; lia|exact M0]. Qed.
  Lemma carried_pos : 0 <= carried. Proof. unfold carried. pose proof NM0. lra. Qed.
  (** As if other numbers had been added, which differ from the elements by what was carried over. *)
  Definition lstate (s c : f32) (l : list f32) : Prop := Forall held l /\ exists vs, zlen vs = zlen l /\
    Rabs (rsum vs - rsum (vals l)) <= carried /\ rabs vs <= rabs (vals l) + carried /\
    (l = [] -> s = f32_of_Z 0 /\ comp_ok c) /\ (l <> [] -> kst s c vs).
  Lemma lstate_zero c : comp_ok c -> lstate (f32_of_Z 0) c [].
  Proof.
    intros Hc. split; [constructor|]. exists []. pose proof carried_pos. change (vals []) with (@nil R). rewrite rsum_nil, rabs_nil, Rminus_0_r, Rabs_R0. repeat split; try lra; try easy; apply Hc.
  Qed.
  Lemma lstate_upd s c x l : held x -> lstate s c l -> lstate (fst (kahan ops32 s c x)) (snd (kahan ops32 s c x)) (l ++ [x]).
  Proof.
    intros Hx (Hl & vs & Ln & H1 & H2 & H3 & H4). split; [apply Forall_app; split; [exact Hl|apply Forall_cons; [exact Hx|apply Forall_nil]]|]. destruct Hx as (Fx & Bx).
    cbn [kahan fst snd o_sub o_add ops32]. destruct l as [|a l].
    - destruct (H3 eq_refl) as (-> & Fc & Bc). exists ([] ++ [B2R x - B2R c]). cbn [app]. change (vals [x]) with [B2R x]. rewrite !rsum_cons, !rabs_cons, rsum_nil, rabs_nil, !Rplus_0_r.
      split; [reflexivity|]. split; [replace (B2R x - B2R c - B2R x) with (- B2R c) by ring; now rewrite Rabs_Ropp|]. split; [pose proof (Rabs_triang (B2R x) (- B2R c)) as Q; rewrite Rabs_Ropp in Q; unfold Rminus; lra|].
      split; [discriminate|]. intros _. change [B2R x - B2R c] with (@nil R ++ [B2R x - B2R c]). apply (kst_step (f32_of_Z 0) (f32_of_Z 0)); [exact kst_zero|].
      destruct (f32_of_Z_ok 0 ltac:(lia)) as (V & _). rewrite V, Rminus_0_r. intros _ B. apply sub_rel; auto. eapply Rle_trans; [exact B|apply bpow_le; lia].
    - exists (vs ++ [B2R x]). rewrite vals_app. change (vals [x]) with [B2R x]. rewrite !rsum_app, !rabs_app, !zlen_app'. split; [rewrite Ln; reflexivity|].
      split; [replace (rsum vs + rsum [B2R x] - (rsum (vals (a :: l)) + rsum [B2R x])) with (rsum vs - rsum (vals (a :: l))) by ring; exact H1|]. split; [lra|]. split; [discriminate|].
      intros _. apply (kst_step s c); [apply H4; discriminate|]. intros Fc B. apply sub_rel; auto. eapply Rle_trans; [exact B|apply bpow_le; lia].
  Qed.
  Lemma held_abs l : Forall held l -> rabs (vals l) <= IZR (zlen l) * M.
  Proof.
    induction 1 as [|x l (_ & Hx) _ IH]; [change (vals []) with (@nil R); rewrite rabs_nil; change (zlen []) with 0%Z; lra|]. change (vals (x :: l)) with (B2R x :: vals l). rewrite rabs_cons.
    change (x :: l) with ([x] ++ l). rewrite zlen_app'. change (zlen [x]) with 1%Z. rewrite plus_IZR. lra.
  Qed.
  Lemma held_le l : Forall held l -> (zlen l <= n)%Z -> rabs (vals l) <= IZR n * M.
  Proof. intros H L. eapply Rle_trans; [now apply held_abs|]. apply Rmult_le_compat_r; [exact M0|now apply IZR_le]. Qed.
  Lemma in_range124 r : r <= IZR n * M + carried -> r <= bpow radix2 124.
  Proof. intros H. change 124%Z with (1 + 123)%Z. rewrite bpow_plus. change (bpow radix2 1) with 2. unfold carried in H. pose proof NM0. lra. Qed.
  Lemma lstate_end s c l : lstate s c l -> (zlen l <= n)%Z -> comp_ok c.
  Proof.
    intros (Hl & vs & Ln & H1 & H2 & H3 & H4) L. destruct l as [|a l]; [apply H3; reflexivity|]. pose proof (held_le _ Hl L) as A.
    destruct (H4 ltac:(discriminate) ltac:(apply in_range124; lra) ltac:(lia)) as (_ & Fc & Bc & _). split; [exact Fc|]. eapply Rle_trans; [exact Bc|]. unfold carried in *. pose proof NM0. lra.
  Qed.
  (** The exact sum of the numbers added, and of their magnitudes. *)
  Definition virtual (d : nat) (l : list f32) (V A : R) : Prop := Rabs V <= A /\ Rabs (V - rsum (vals l)) <= 2 ^ d * carried /\ A <= rabs (vals l) + 2 ^ d * carried.
  Lemma virtual_app d l l' V A V' A' : virtual d l V A -> virtual d l' V' A' -> virtual (S d) (l ++ l') (V + V') (A + A').
  Proof.
    intros (H1 & H2 & H3) (H1' & H2' & H3'). unfold virtual. rewrite vals_app, rsum_app, rabs_app. cbn [pow]. pose proof (Rabs_triang V V'). split; [lra|]. split; [|lra].
    replace (V + V' - (rsum (vals l) + rsum (vals l'))) with ((V - rsum (vals l)) + (V' - rsum (vals l'))) by ring. pose proof (Rabs_triang (V - rsum (vals l)) (V' - rsum (vals l'))). lra.
  Qed.
  Lemma virtual_perm d l l' V A : Permutation l l' -> virtual d l V A -> virtual d l' V A.
  Proof. intros P. destruct (vals_perm l l' P) as (E1 & E2 & _). unfold virtual. now rewrite E1, E2. Qed.
  Lemma lstate_sum s c l : lstate s c l -> (zlen l <= n)%Z -> exists V A, virtual 0 l V A /\ A <= bpow radix2 124 /\ is_finite s = true /\ Rabs (B2R s - V) <= 17 * / 16777216 * A.
  Proof.
    intros (Hl & vs & Ln & H1 & H2 & H3 & H4) L. pose proof (held_le _ Hl L) as A. exists (rsum vs), (rabs vs). assert (A4 : rabs vs <= bpow radix2 124) by (apply in_range124; lra).
    split; [split; [apply rsum_abs|]; cbn [pow]; rewrite Rmult_1_l; auto|]. split; [exact A4|]. destruct l as [|a l].
    - destruct (H3 eq_refl) as (-> & _). destruct vs; [|exfalso; unfold zlen in Ln; cbn [length] in Ln; lia]. destruct (f32_of_Z_ok 0 ltac:(lia)) as (V & F). rewrite V, rsum_nil, rabs_nil, Rminus_0_r, Rabs_R0. split; [exact F|lra].
    - apply (kst_sum s c); [apply H4; discriminate|exact A4|lia].
  Qed.
  Definition lsum (d : nat) (s : f32) (l : list f32) : Prop := exists V A, virtual d l V A /\
    (A <= bpow radix2 124 -> is_finite s = true /\ Rabs (B2R s - V) <= (17 + 9 / 8 * INR d) * / 16777216 * A).
  Lemma lsum_comb d s s' l l' : (d < 9)%nat -> lsum d s l -> lsum d s' l' -> lsum (S d) (Bplus mode_NE s s') (l ++ l').
  Proof.
    intros Hd (V & A & HV & H) (V' & A' & HV' & H'). exists (V + V'), (A + A'). split; [now apply virtual_app|]. intros B. destruct HV as (VA & _). destruct HV' as (VA' & _). pose proof (Rabs_pos V). pose proof (Rabs_pos V').
    destruct (H ltac:(lra)) as (Fs & Es). destruct (H' ltac:(lra)) as (Fs' & Es'). destruct (level_range d ltac:(lia)) as (D0 & D9). rewrite S_INR.
    destruct (tree_step s s' V V' A A' (17 + 9 / 8 * INR d) 0 0 Fs Fs' VA VA' B) as (F & E); try lra. split; [exact F|]. eapply Rle_trans; [exact E|]. right. field.
  Qed.
  Lemma lsum_perm d s l l' : Permutation l l' -> lsum d s l -> lsum d s l'.
  Proof. intros P (V & A & HV & H). exists V, A. split; [now apply (virtual_perm d l)|exact H]. Qed.
  Lemma sum_leak : leak_rel (gk_sum ops32) held n comp_ok lstate lsum.
  Proof.
    assert (Z0 : comp_ok (f32_of_Z 0)). { destruct (f32_of_Z_ok 0 ltac:(lia)) as (V & F). split; [exact F|]. rewrite V, Rabs_R0. apply carried_pos. }
    split; cbn [gk_sum k_zero k_comp k_upd k_norm k_comb].
    - exact Z0.
    - exact lstate_zero.
    - intros s c x l Hx _. now apply lstate_upd.
    - exact lstate_end.
    - intros s c l H Hn. destruct (lstate_sum s c l H Hn) as (V & A & HV & _ & F & E). exists V, A. split; [exact HV|]. intros _. split; [exact F|]. cbn [INR]. rewrite Rmult_0_r, Rplus_0_r. exact E.
    - exact lsum_comb.
    - exact lsum_perm.
  Qed.
  (** Means: divided before the tree. *)
  Definition lmean (q : Z) (d : nat) (s : f32) (l : list f32) : Prop := exists V A, virtual d l V A /\
    (A <= bpow radix2 124 -> is_finite s = true /\ Rabs (B2R s - V / IZR q) <= (20 + 9 / 8 * INR d) * / 16777216 * (A / IZR q) + small d).
  Lemma mean_leak q : (1 <= q < 2 ^ 31)%Z -> leak_rel (gk_mean ops32 q) held n comp_ok lstate (lmean q).
  Proof.
    intros Hq. assert (Q1 : 1 <= IZR q) by (apply IZR_le; lia). assert (NI : 0 < / IZR q) by (apply Rinv_0_lt_compat; lra). assert (NI1 : / IZR q <= 1) by (rewrite <- Rinv_1; apply Rinv_le_contravar; lra).
    destruct sum_leak as [L1 L2 L3 L4 _ _ _]. cbn [gk_sum k_zero k_comp k_upd k_norm k_comb] in *. split; cbn [gk_mean k_zero k_comp k_upd k_norm k_comb]; auto.
    - intros s c l H Hn. destruct (lstate_sum s c l H Hn) as (V & A & HV & A4 & F & E). exists V, A. split; [exact HV|]. intros _.
      destruct (div_close s V A 17 q F Hq (proj1 HV) A4 ltac:(lra) E) as (F' & E'). split; [exact F'|]. cbn [o_div o_of ops32]. eapply Rle_trans; [exact E'|]. unfold small. cbn [pow INR].
      assert (0 <= A) by (pose proof (Rabs_pos V); destruct HV; lra). pose proof (Rmult_le_pos A (/ IZR q) ltac:(lra) ltac:(lra)) as A0. fold (A / IZR q) in A0. lra.
    - intros d s s' l l' Hd (V & A & HV & H) (V' & A' & HV' & H'). exists (V + V'), (A + A'). split; [now apply virtual_app|]. intros B. destruct HV as (VA & _). destruct HV' as (VA' & _). pose proof (Rabs_pos V). pose proof (Rabs_pos V').
      destruct (H ltac:(lra)) as (Fs & Es). destruct (H' ltac:(lra)) as (Fs' & Es'). cbn [o_add ops32]. destruct (level_range d ltac:(lia)) as (D0 & D9). rewrite S_INR.
      pose proof (small_pos d) as S0. pose proof (small_le d ltac:(lia)) as S1. assert (S2 : bpow radix2 (-140) <= 1) by (change 1 with (bpow radix2 0); apply bpow_le; lia).
      assert (G : forall v a, Rabs v <= a -> Rabs (v / IZR q) <= a / IZR q). { intros v a Hv. unfold Rdiv. rewrite Rabs_mult, (Rabs_pos_eq (/ IZR q)) by lra. apply Rmult_le_compat_r; lra. }
      assert (GA : forall a, 0 <= a -> a / IZR q <= a) by (intros a Ha; unfold Rdiv; nra). pose proof (GA A ltac:(lra)). pose proof (GA A' ltac:(lra)).
      destruct (tree_step s s' _ _ _ _ (20 + 9 / 8 * INR d) (small d) (small d) Fs Fs' (G V A VA) (G V' A' VA')) as (F & E); try lra. split; [exact F|].
      rewrite small_S. replace ((V + V') / IZR q) with (V / IZR q + V' / IZR q) by (unfold Rdiv; ring). eapply Rle_trans; [exact E|]. right. unfold Rdiv. field. lra.
    - intros d s l l' P (V & A & HV & H). exists V, A. split; [now apply (virtual_perm d l)|exact H].
  Qed.
  (** Masked: the count beside the sum. *)
  Definition mlstate (s : f32 * Z) (c : f32) (l : list f32) : Prop := lstate (fst s) c l /\ snd s = cnt (zlen l).
  Definition mlsum (d : nat) (s : f32 * Z) (l : list f32) : Prop := lsum d (fst s) l /\ snd s = cnt (zlen l).
  Lemma masked_leak outs : leak_rel (Kernel true (f32_of_Z 0, 0%Z) (f32_of_Z 0) (mkahan ops32) (fun s => s) (madd ops32) outs false : kernel f32 (f32 * Z) f32 f32) held n comp_ok mlstate mlsum.
  Proof.
    destruct sum_leak as [L1 L2 L3 L4 L5 L6 L7]. cbn [gk_sum k_zero k_comp k_upd k_norm k_comb] in *. split; cbn [k_zero k_comp k_upd k_norm k_comb]; auto.
    - intros c Hc. split; [now apply L2|reflexivity].
    - intros s c x l Hx Hn (H & E). split; cbn [mkahan fst snd]; [now apply L3|]. rewrite E, zlen_app'. change (zlen [x]) with 1%Z. change (cnt (cnt (zlen l) + cnt 1) = cnt (zlen l + 1)%Z). apply cnt_add.
    - intros s c l (H & _). now apply (L4 (fst s) c l).
    - intros s c l (H & E) Hl. split; [now apply (L5 (fst s) c)|exact E].
    - intros d s s' l l' Hd (H & E) (H' & E'). split; cbn [madd fst snd]; [now apply L6|]. rewrite E, E', zlen_app'. apply cnt_add.
    - intros d s l l' P (H & E). split; [now apply (L7 d (fst s) l l')|]. rewrite E. unfold zlen. now rewrite (Permutation_length P).
  Qed.
  (** ** At the end of the tree *)
  Variables (rf : Z) (p : nat).
  Hypothesis (Hp : (p <= 9)%nat) (Bn : (2 ^ Z.of_nat p * n <= 2 * rf)%Z) (R1 : (1 <= rf)%Z) (RM : IZR rf * M <= bpow radix2 123).
  Lemma carried_all : 0 <= 2 ^ p * carried <= 10 * / 16777216 * (IZR rf * M).
  Proof.
    assert (E : (2 ^ p) = IZR (2 ^ Z.of_nat p)) by (rewrite pow_IZR; reflexivity). rewrite E. assert (P0 : 0 <= IZR (2 ^ Z.of_nat p)) by (apply IZR_le; lia).
    split; [apply Rmult_le_pos; [exact P0|apply carried_pos]|]. unfold carried. apply IZR_le in Bn. rewrite !mult_IZR in Bn. set (b := IZR (2 ^ Z.of_nat p)) in *. clearbody b. nra.
  Qed.
  Lemma virtual_fits l V A : Forall held l -> (zlen l <= rf)%Z -> virtual p l V A -> 0 <= A <= bpow radix2 124.
  Proof.
    intros Hl L (H1 & H2 & H3). pose proof carried_all as C. pose proof (Rabs_pos V). split; [lra|]. pose proof (held_abs l Hl) as Ha. assert (IZR (zlen l) * M <= IZR rf * M) by (apply Rmult_le_compat_r; [exact M0|now apply IZR_le]).
    change 124%Z with (1 + 123)%Z. rewrite bpow_plus. change (bpow radix2 1) with 2. lra.
  Qed.
  Lemma lsum_end s l : Forall held l -> (zlen l <= rf)%Z -> lsum p s l -> is_finite s = true /\ Rabs (B2R s - rsum (vals l)) <= / 524288 * rabs (vals l) + / 1048576 * (IZR rf * M).
  Proof.
    intros Hl L (V & A & HV & H). pose proof (virtual_fits l V A Hl L HV) as (A0 & A4). destruct (H A4) as (F & E). split; [exact F|]. pose proof carried_all as C. destruct HV as (H1 & H2 & H3). destruct (level_range p Hp) as (La & Lb).
    assert (E' : (17 + 9 / 8 * INR p) * / 16777216 * A <= 28 * / 16777216 * A) by (apply Rmult_le_compat_r; lra). pose proof (rabs_nonneg (vals l)).
    replace (B2R s - rsum (vals l)) with ((B2R s - V) + (V - rsum (vals l))) by ring. pose proof (Rabs_triang (B2R s - V) (V - rsum (vals l))). lra.
  Qed.
  Lemma lmean_end s l : zlen l = rf -> (rf < 2 ^ 31)%Z -> Forall held l -> lmean rf p s l ->
    is_finite s = true /\ Rabs (B2R s - rsum (vals l) / IZR rf) <= / 524288 * (rabs (vals l) / IZR rf) + / 1048576 * M + bpow radix2 (-140).
  Proof.
    intros L Hr Hl (V & A & HV & H). pose proof (virtual_fits l V A Hl ltac:(lia) HV) as (A0 & A4). destruct (H A4) as (F & E). split; [exact F|]. pose proof carried_all as C. destruct HV as (H1 & H2 & H3). destruct (level_range p Hp) as (La & Lb).
    set (q := IZR rf) in *. assert (Q1 : 1 <= q) by (apply IZR_le; lia). assert (NI : 0 < / q) by (apply Rinv_0_lt_compat; lra).
    set (k := 2 ^ p * carried) in *. set (S := rsum (vals l)) in *. set (B := rabs (vals l)) in *. assert (B0 : 0 <= B) by apply rabs_nonneg.
    assert (KQ : k / q <= 10 * / 16777216 * M). { apply Rmult_le_reg_r with q; [lra|]. unfold Rdiv. rewrite Rmult_assoc, Rinv_l, Rmult_1_r by lra. lra. }
    assert (K0 : 0 <= k / q) by (apply Rmult_le_pos; lra). assert (BQ : 0 <= B / q) by (apply Rmult_le_pos; lra).
    assert (AQ : 0 <= A / q <= B / q + k / q). { split; [apply Rmult_le_pos; lra|]. unfold Rdiv. rewrite <- Rmult_plus_distr_r. apply Rmult_le_compat_r; lra. }
    assert (VQ : Rabs (V / q - S / q) <= k / q). { unfold Rdiv. rewrite <- Rmult_minus_distr_r, Rabs_mult, (Rabs_pos_eq (/ q)) by lra. apply Rmult_le_compat_r; lra. }
    assert (E' : (20 + 9 / 8 * INR p) * / 16777216 * (A / q) <= 31 * / 16777216 * (A / q)) by (apply Rmult_le_compat_r; lra). pose proof (small_le p Hp) as Sm.
    replace (B2R s - S / q) with ((B2R s - V / q) + (V / q - S / q)) by ring. pose proof (Rabs_triang (B2R s - V / q) (V / q - S / q)). lra.
  Qed.
  Lemma lmmean_end s l : (1 <= zlen l <= rf)%Z -> (rf < 2 ^ 31)%Z -> Forall held l -> mlsum p s l -> let v := Bdiv mode_NE (fst s) (f32_of_Z (snd s)) in
    is_finite v = true /\ Rabs (B2R v - rsum (vals l) / IZR (zlen l)) <= / 524288 * (rabs (vals l) / IZR (zlen l)) + / 1048576 * (IZR rf * M / IZR (zlen l)) + bpow radix2 (-140).
  Proof.
    intros L Hr Hl ((V & A & HV & H) & Ec) v. pose proof (virtual_fits l V A Hl ltac:(lia) HV) as (A0 & A4). destruct (H A4) as (F & E). pose proof carried_all as C. destruct (level_range p Hp) as (La & Lb).
    unfold v. rewrite Ec. unfold cnt. rewrite Z.mod_small by lia.
    destruct (div_close (fst s) V A (17 + 9 / 8 * INR p) (zlen l) F ltac:(lia) (proj1 HV) A4 ltac:(lra) E) as (F' & E'). split; [exact F'|]. clear v. set (v := B2R (Bdiv mode_NE (fst s) (f32_of_Z (zlen l)))) in *. clearbody v.
    destruct HV as (H1 & H2 & H3). set (q := IZR (zlen l)) in *. assert (Q1 : 1 <= q) by (apply IZR_le; lia). assert (NI : 0 < / q) by (apply Rinv_0_lt_compat; lra).
    set (k := 2 ^ p * carried) in *. set (S := rsum (vals l)) in *. set (B := rabs (vals l)) in *. assert (B0 : 0 <= B) by apply rabs_nonneg. set (W := IZR rf * M) in *.
    assert (KQ : k / q <= 10 * / 16777216 * (W / q)). { unfold Rdiv. rewrite <- Rmult_assoc. apply Rmult_le_compat_r; lra. }
    assert (K0 : 0 <= k / q) by (apply Rmult_le_pos; lra). assert (BQ : 0 <= B / q) by (apply Rmult_le_pos; lra).
    assert (AQ : 0 <= A / q <= B / q + k / q). { split; [apply Rmult_le_pos; lra|]. unfold Rdiv. rewrite <- Rmult_plus_distr_r. apply Rmult_le_compat_r; lra. }
    assert (VQ : Rabs (V / q - S / q) <= k / q). { unfold Rdiv. rewrite <- Rmult_minus_distr_r, Rabs_mult, (Rabs_pos_eq (/ q)) by lra. apply Rmult_le_compat_r; lra. }
    assert (E2 : (17 + 9 / 8 * INR p + 17 / 8) * / 16777216 * (A / q) <= 31 * / 16777216 * (A / q)) by (apply Rmult_le_compat_r; lra).
    assert (Sm : bpow radix2 (-150) <= bpow radix2 (-140)) by (apply bpow_le; lia).
    replace (v - S / q) with ((v - V / q) + (V / q - S / q)) by ring. pose proof (Rabs_triang (v - V / q) (V / q - S / q)). lra.
  Qed.
End Leak.
