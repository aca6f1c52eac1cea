(** Counting on the GPU. *)
From Verif Require Export CountModel GelProofs GredProofs.
From Coq Require Import ZifyBool ZifyNat Lia Permutation.
Local Open Scope Z_scope.

Lemma caddr_eqb_spec x y : caddr_eqb x y = true <-> x = y.
Proof.
  destruct x, y; cbn; rewrite ?andb_true_iff, ?Z.eqb_eq; split; intros H; try discriminate; try congruence; try (inversion H; auto; fail).
  destruct H; congruence.
Qed.

Lemma u32_add_l a b : to_uint32 (to_uint32 a + b) = to_uint32 (a + b).
Proof. unfold to_uint32. apply Zplus_mod_idemp_l. Qed.
Lemma u32_add_r a b : to_uint32 (a + to_uint32 b) = to_uint32 (a + b).
Proof. unfold to_uint32. apply Zplus_mod_idemp_r. Qed.
Lemma u32_idem a : to_uint32 (to_uint32 a) = to_uint32 a.
Proof. unfold to_uint32. apply Zmod_mod. Qed.

Section C.
  Context {A : Type}.
  Variables (truth : A -> bool) (m : mem A) (l : layout) (junk : Z -> Z -> Z).
  Notation val := (cvalue A).
  Notation prog := (cprog A).
  Let sh := l_shape l.
  Let st := l_strides l.
  Let N := zprod sh.
  Let G := count_blocks N.
  Notation gm := (gpumem (A := caddr) (V := val)).
  Let m0 : gm := cmem0 m G junk.
  (** The kernel's cell of an element: without the offsets. *)
  Definition base (idx : list Z) : Z := cell l idx - zsum (l_offsets l).

  Definition hit (n : Z) : bool := match znth m (base (oix sh n)) with Some x => truth x | None => false end.
  Definition hits (ns : list Z) : Z := zlen (filter hit ns).
  Lemma hits_nil : hits [] = 0. Proof. reflexivity. Qed.
  Lemma hits_cons n ns : hits (n :: ns) = (if hit n then 1 else 0) + hits ns.
  Proof. unfold hits. cbn. destruct (hit n); unfold zlen; cbn [length]; lia. Qed.
  Lemma hits_app a b : hits (a ++ b) = hits a + hits b.
  Proof. unfold hits. rewrite filter_app. unfold zlen. rewrite app_length. lia. Qed.
  Lemma hits_perm a b : Permutation a b -> hits a = hits b.
  Proof. induction 1; rewrite ?hits_cons in *; lia. Qed.
  Lemma hits_nonneg a : 0 <= hits a. Proof. unfold hits, zlen. lia. Qed.

  (** ** The block's cells *)
  Variable b : Z.
  Definition cD (a : caddr) : Prop := match a with CData _ => True | CSh b' _ => b' = b | _ => False end.
  Definition cO (a : caddr) : Prop := match a with CSh b' _ => b' = b | _ => False end.
  Definition cAc (a : caddr) : Prop := a = CCount.
  Definition csh (f : Z -> Z) : gm := fun a =>
    match a with CSh b' t => if (b' =? b) && (0 <=? t) && (t <? 256) then Some (CN (f t)) else m0 a | _ => m0 a end.
  Definition cW (w : Z -> bool) (t : Z) (a : caddr) : Prop := w t = true /\ a = CSh b t.
  Definition cR (rd : Z -> Z) (t : Z) (a : caddr) : Prop := match a with CData _ => True | CSh b' u => b' = b /\ (u = t \/ u = rd t) | _ => False end.
  Definition cinfo (w : Z -> bool) rd (lg : Z -> list (caddr * val)) (e : Z -> prog) (t : Z) : tinfo (A := caddr) (V := val) :=
    Tinfo (cR rd t) (cW w t) (lg t) (e t).

  Lemma csh_in f t : 0 <= t < 256 -> csh f (CSh b t) = Some (CN (f t)).
  Proof. intros H. cbn. rewrite Z.eqb_refl. replace (0 <=? t) with true by lia. replace (t <? 256) with true by lia. reflexivity. Qed.

  Lemma cphase w rd lg (ps es : Z -> prog) (M M1 : gm) :
    (forall t, 0 <= t < 256 -> 0 <= rd t < 256 /\ (rd t <> t -> w (rd t) = false)) ->
    (forall t, 0 <= t < 256 -> within (V := val) caddr_eqb cAc (cR rd t) (cW w t) (ps t) M /\
       exists mt, exec (V := val) caddr_eqb (ps t) M = Some (mt, lg t, es t) /\ (w t = true -> mt (CSh b t) = M1 (CSh b t))) ->
    (forall a, cD a -> M a = M1 a \/ exists t, 0 <= t < 256 /\ cW w t a) ->
    phase caddr_eqb cAc cD cO M M1 (map ps (zrange 256)) (map (cinfo w rd lg es) (zrange 256)).
  Proof.
    intros Hrd Hr Hf. split; [|split; [|split]].
    - apply Forall2_map_same. intros t Ht. apply in_zrange in Ht. destruct (Hr t Ht) as (H1 & mt & H2 & H3). split; [exact H1|].
      exists mt. split; [exact H2|]. intros c (Hc & ->). auto.
    - intros i j u v Hi Hj Hne a Ha Hb'. rewrite nth_error_map in Hi, Hj.
      destruct (nth_error (zrange 256) i) as [t1|] eqn:E1; [|discriminate]. destruct (nth_error (zrange 256) j) as [t2|] eqn:E2; [|discriminate].
      cbn in Hi, Hj. injection Hi as <-. injection Hj as <-. cbn in Ha, Hb'.
      assert (t1 <> t2). { intros ->. apply Hne. eapply NoDup_nth_error; [apply (zrange_nodup 256)|apply nth_error_Some; congruence|congruence]. }
      pose proof (nth_error_In _ _ E1) as I1. pose proof (nth_error_In _ _ E2) as I2. apply in_zrange in I1, I2.
      destruct Ha as (Hw1 & ->). destruct Hb' as [Hb'|(_ & Hb')].
      + cbn in Hb'. destruct Hb' as (_ & [E|E]); [lia|]. destruct (Hrd t2 I2) as (_ & Hx). rewrite <- E in Hx. specialize (Hx ltac:(lia)). congruence.
      + injection Hb' as E. lia.
    - apply Forall_map, Forall_forall. intros t Ht. split; cbn.
      + intros [] Ha; cbn in *; tauto.
      + intros a (_ & ->). cbn. auto.
    - intros a Ha. destruct (Hf a Ha) as [E|(t & Ht & Hw1)]; [auto|right]. apply Exists_exists. exists (cinfo w rd lg es t).
      split; [|exact Hw1]. apply in_map, in_zrange. exact Ht.
  Qed.

  Notation brun := (blockrun (V := val) caddr_eqb cAc cD cO).
  Lemma nolog w rd es ts : flat_map (@tlog caddr val) (map (cinfo w rd (fun _ => []) es) ts) = [].
  Proof. induction ts; cbn; auto. Qed.
  Lemma cnext w rd ps qs (M M1 M2 : gm) lg :
    (forall t, 0 <= t < 256 -> 0 <= rd t < 256 /\ (rd t <> t -> w (rd t) = false)) ->
    (forall t, 0 <= t < 256 -> within (V := val) caddr_eqb cAc (cR rd t) (cW w t) (ps t) M /\
       exists mt, exec (V := val) caddr_eqb (ps t) M = Some (mt, [], BBar (qs t)) /\ (w t = true -> mt (CSh b t) = M1 (CSh b t))) ->
    (forall a, cD a -> M a = M1 a \/ exists t, 0 <= t < 256 /\ cW w t a) ->
    brun M1 (map qs (zrange 256)) M2 lg -> brun M (map ps (zrange 256)) M2 lg.
  Proof.
    intros H1 H2 H3 H4. pose proof (cphase w rd (fun _ => []) ps (fun t => BBar (qs t)) M M1 H1 H2 H3) as Hp.
    pose proof (br_next (V := val) caddr_eqb cAc cD cO M M1 M2 _ _ (map qs (zrange 256)) lg Hp) as Q.
    rewrite nolog in Q. apply Q; [|rewrite !map_map; reflexivity|exact H4].
    intros E. apply (f_equal (@length _)) in E. rewrite map_length in E. discriminate.
  Qed.

  (** ** The tree *)
  Fixpoint ctree (fuel : nat) (s : Z) (f : Z -> Z) : Z -> Z :=
    match fuel with
    | O => f
    | S k => if 0 <? s then ctree k (Z.quot s 2) (fun t => if t <? s then to_uint32 (f t + f (t + s)) else f t) else f
    end.
  Lemma ctree_run fuel : forall s f (kk : Z -> prog) M2 lg, 0 <= s -> 2 * s <= 256 ->
    brun (csh (ctree fuel s f)) (map kk (zrange 256)) M2 lg ->
    brun (csh f) (map (fun t => count_tree b t fuel s (kk t)) (zrange 256)) M2 lg.
  Proof.
    induction fuel as [|fuel IH]; intros s f kk M2 lg Hs HsB Hr; cbn [count_tree ctree] in *; [exact Hr|].
    destruct (0 <? s) eqn:E0; [|exact Hr].
    set (f' := fun t => if t <? s then to_uint32 (f t + f (t + s)) else f t) in *.
    apply (cnext (fun t => t <? s) (fun t => if t <? s then t + s else t) _ (fun t => count_tree b t fuel (Z.quot s 2) (kk t)) (csh f) (csh f')).
    - intros t Ht. destruct (t <? s) eqn:Et; [|split; [lia|intros; lia]]. split; [lia|]. intros _. lia.
    - intros t Ht. destruct (t <? s) eqn:Et; [|split; [exact I|]; exists (csh f); split; [reflexivity|discriminate]].
      split.
      + cbn [within]. rewrite csh_in by lia. split; [left; cbn; auto|]. split; [left; cbn; rewrite Et; auto|]. rewrite csh_in by lia. cbn [within].
        split; [split; auto|]. split; [|exact I]. rewrite csh_in by lia. discriminate.
      + exists (gset caddr_eqb (csh f) (CSh b t) (CN (to_uint32 (f t + f (t + s))))). cbn [exec]. rewrite !csh_in by lia. cbn [exec].
        rewrite ?csh_in by lia. split; [reflexivity|]. intros _.
        rewrite gset_same by exact caddr_eqb_spec. unfold f'. now rewrite Et.
    - intros a Ha. destruct a as [|b' t| |]; try (left; reflexivity). cbn in Ha. subst b'.
      destruct ((0 <=? t) && (t <? 256)) eqn:Et; [|left; cbn; rewrite Z.eqb_refl; cbn; now rewrite Et].
      destruct (t <? s) eqn:Es.
      + right. exists t. split; [lia|]. split; auto.
      + left. rewrite !csh_in by lia. unfold f'. now rewrite Es.
    - apply IH; [lia|lia|exact Hr].
  Qed.
  (** Up to 2^32 the tree adds. *)
  Lemma ctree_sum p : forall fuel f, (p < fuel)%nat ->
    to_uint32 (ctree fuel (2 ^ Z.of_nat p / 2) f 0) = to_uint32 (zsum (map f (zrange (2 ^ Z.of_nat p)))).
  Proof.
    induction p as [|p IH]; intros fuel f Hp.
    - destruct fuel; [lia|]. cbn [ctree]. change (2 ^ Z.of_nat 0 / 2) with 0. change (0 <? 0) with false. cbv iota.
      change (zrange (2 ^ Z.of_nat 0)) with [0]. cbn [map]. rewrite zsum_cons. change (zsum []) with 0. f_equal. lia.
    - destruct fuel as [|fuel]; [lia|]. cbn [ctree]. replace (2 ^ Z.of_nat (S p) / 2) with (2 ^ Z.of_nat p)
        by (rewrite Nat2Z.inj_succ, Z.pow_succ_r, Z.mul_comm, Z.div_mul; lia).
      pose proof (Z.pow_pos_nonneg 2 (Z.of_nat p) ltac:(lia) ltac:(lia)) as HP. set (P := 2 ^ Z.of_nat p) in *.
      replace (0 <? P) with true by lia. rewrite Z.quot_div_nonneg by lia. unfold P. rewrite IH by lia. fold P.
      rewrite Nat2Z.inj_succ, Z.pow_succ_r by lia. fold P. replace (2 * P) with (P + P) by lia. rewrite zrange_app by lia.
      rewrite map_app, zsum_app, map_map.
      assert (G0 : forall ts, (forall t, In t ts -> 0 <= t < P) -> 
        to_uint32 (zsum (map (fun t => if t <? P then to_uint32 (f t + f (t + P)) else f t) ts)) =
        to_uint32 (zsum (map f ts) + zsum (map (fun x => f (P + x)) ts))).
      { induction ts as [|t ts IHt]; intros Ht; [reflexivity|]. cbn [map]. rewrite !zsum_cons.
        replace (t <? P) with true by (specialize (Ht t (or_introl eq_refl)); lia). rewrite u32_add_l.
        rewrite <- u32_add_r, IHt by (intros; apply Ht; now right). rewrite u32_add_r. f_equal. rewrite (Z.add_comm P t). lia. }
      apply G0. intros t Ht. now apply in_zrange in Ht.
  Qed.

  Definition part (t : Z) : Z := to_uint32 (hits (taken N (G * 256) (b * 256 + t))).
  Definition btotal : Z := ctree 9 128 part 0.
  Lemma btotal_sum : to_uint32 btotal = to_uint32 (hits (flat_map (fun t => taken N (G * 256) (b * 256 + t)) (zrange 256))).
  Proof.
    unfold btotal. pose proof (ctree_sum 8 9 part ltac:(lia)) as H. change (2 ^ Z.of_nat 8 / 2) with 128 in H. change (2 ^ Z.of_nat 8) with 256 in H.
    rewrite H. clear. induction (zrange 256) as [|t ts IH]; [reflexivity|]. cbn [map flat_map]. rewrite zsum_cons, hits_app.
    unfold part at 1. rewrite u32_add_l, <- u32_add_r, IH, u32_add_r. reflexivity.
  Qed.

  Lemma G_range : posl sh -> 1 <= G <= 256.
  Proof.
    intros Hpos. pose proof (zprod_posl _ Hpos) as H. fold N in H. unfold G, count_blocks. rewrite Z.quot_div_nonneg by lia.
    assert (1 <= (N + 255) / 256) by (apply Z.div_le_lower_bound; lia). lia.
  Qed.

  (** ** The loop over the elements *)
  Hypotheses (Hw : wf l) (Hpos : posl sh) (Hsmall : N < 2 ^ 31) (Hin : forall idx, in_range sh idx -> 0 <= base idx < zlen m).
  Hypothesis Hb : 0 <= b < G.
  Lemma data_read n : m0 (CData (lin (oix sh n) st)) = option_map CA (znth m (base (oix sh n))).
  Proof.
    unfold m0. cbn. unfold base. rewrite cell_lin by (auto; apply in_range_length, oix_range; auto).
    fold st. now replace (zsum (l_offsets l) + lin (oix sh n) st - zsum (l_offsets l)) with (lin (oix sh n) st) by lia.
  Qed.
  Lemma count_loop_exec (R W : caddr -> Prop) (M : gm) grid k : (forall i, M (CData i) = m0 (CData i)) -> (forall i, R (CData i)) -> 0 < grid ->
    forall n w c, 0 <= w -> 0 <= c < 2 ^ 32 -> 
    let c' := to_uint32 (c + hits (steps_from n w grid)) in
    exec (V := val) caddr_eqb (count_loop truth sh st n w grid c k) M = exec (V := val) caddr_eqb (k c') M /\
    (within (V := val) caddr_eqb cAc R W (k c') M -> within (V := val) caddr_eqb cAc R W (count_loop truth sh st n w grid c k) M).
  Proof.
    intros HM HR Hg. induction n as [|n IH]; intros w c Hw0 Hc; cbn [count_loop steps_from].
    - rewrite hits_nil, Z.add_0_r, to_uint32_small by lia. auto.
    - rewrite unflat_oix by auto. cbn [exec within]. rewrite HM, data_read.
      destruct (znth_some m (base (oix sh w))) as (x & Ex); [apply Hin, oix_range; auto|]. rewrite Ex. cbn [option_map].
      assert (Hc' : 0 <= (if truth x then to_uint32 (c + 1) else c) < 2 ^ 32)
        by (destruct (truth x); [unfold to_uint32; apply Z.mod_pos_bound; lia|lia]).
      destruct (IH (w + grid) _ ltac:(lia) Hc') as (I1 & I2).
      assert (E : to_uint32 ((if truth x then to_uint32 (c + 1) else c) + hits (steps_from n (w + grid) grid)) =
                  to_uint32 (c + hits (w :: steps_from n (w + grid) grid))).
      { rewrite hits_cons. unfold hit. rewrite Ex. destruct (truth x); [rewrite u32_add_l; f_equal; lia|f_equal; lia]. }
      rewrite E in I1, I2. split; [exact I1|]. intros H. split; [left; apply HR|auto].
  Qed.

  Lemma count_last F : brun (csh F) (map (count_end b) (zrange 256)) (csh F) [(CCount, CN (F 0))].
  Proof.
    set (lg := fun t => if t =? 0 then [(CCount, CN (A := A) (F 0))] else []).
    replace [(CCount, CN (F 0))] with (flat_map (@tlog caddr val) (map (cinfo (fun _ => false) (fun t => t) lg (fun _ => BRet)) (zrange 256))).
    2:{ replace 256 with (1 + 255) by lia. rewrite zrange_app by lia. rewrite map_app, flat_map_app. change (zrange 1) with [0].
                  assert (Q : forall ts, (forall t, In t ts -> 0 <= t) -> flat_map (@tlog caddr val) (map (cinfo (fun _ => false) (fun t => t) lg (fun _ => BRet)) (map (fun i => 1 + i) ts)) = []).
        { induction ts as [|t ts IH]; intros Hts; cbn; [reflexivity|]. pose proof (Hts t (or_introl eq_refl)). unfold lg at 1. replace (1 + t =? 0) with false by lia.
          apply IH. intros; apply Hts; now right. }
        rewrite Q by (intros t Ht; apply in_zrange in Ht; lia). reflexivity. }
    apply br_last; [|apply Forall_map, Forall_forall; reflexivity].
    apply cphase.
    + intros t Ht. split; [lia|congruence].
    + intros t Ht. unfold count_end, lg. destruct (t =? 0) eqn:E.
      * assert (t = 0) by lia. subst t. cbn [within exec]. rewrite csh_in by lia. cbn. split; [split; [left; cbn; auto|split; [reflexivity|exact I]]|].
        eexists. split; [reflexivity|discriminate].
      * split; [exact I|]. eexists. split; [reflexivity|discriminate].
    + auto.
  Qed.

  Lemma count_block : brun m0 (map (count_thread truth sh st N b) (zrange 256)) (csh (ctree 9 128 part)) [(CCount, CN btotal)].
  Proof.
    pose proof (G_range Hpos) as HG.
    apply (cnext (fun _ => true) (fun t => t) _ (fun t => count_tree b t 9 128 (count_end b t)) m0 (csh part)).
    - intros t Ht. split; [lia|congruence].
    - intros t Ht. unfold count_thread. fold G.
      destruct (count_loop_exec (cR (fun t => t) t) (cW (fun _ => true) t) m0 (G * 256)
        (fun c => BWr (CSh b t) (CN c) (BBar (count_tree b t 9 128 (count_end b t)))) (fun _ => eq_refl) (fun _ => I) ltac:(lia)
        (iterations (b * 256 + t) N (G * 256)) (b * 256 + t) 0 ltac:(lia) ltac:(lia)) as (I1 & I2).
      rewrite Z.add_0_l in I1, I2. change (to_uint32 (hits (steps_from (iterations (b * 256 + t) N (G * 256)) (b * 256 + t) (G * 256)))) with (part t) in I1, I2.
      assert (HS : m0 (CSh b t) <> None).
      { unfold m0. cbn. replace ((0 <=? b) && (b <? G) && (0 <=? t) && (t <? 256)) with true by lia. discriminate. }
      split.
      + apply I2. cbn. split; [split; auto|]. auto.
      + exists (gset caddr_eqb m0 (CSh b t) (CN (part t))). rewrite I1. cbn [exec]. destruct (m0 (CSh b t)); [|congruence].
        split; [reflexivity|]. intros _. rewrite gset_same by exact caddr_eqb_spec. rewrite csh_in by lia. reflexivity.
    - intros a Ha. destruct a as [|b' t| |]; try (left; reflexivity). cbn in Ha. subst b'.
      destruct ((0 <=? t) && (t <? 256)) eqn:Et; [|left; cbn [csh]; rewrite Z.eqb_refl; cbn [andb]; now rewrite Et].
      right. exists t. split; [lia|]. split; auto.
    - apply ctree_run; [lia|lia|]. apply (count_last (ctree 9 128 part)).
  Qed.
End C.

Lemma zlen_all_indices dims : Forall (fun d => 0 <= d) dims -> zlen (all_indices dims) = zprod dims.
Proof.
  intros H. pose proof (f_equal (fun q => zlen q) (dense_cells dims H)) as E. cbn beta in E. rewrite zrange_length in E.
  unfold zlen in *. rewrite map_length in E. pose proof (zprod_nonneg dims H). lia.
Qed.

Section Grid.
  Context {A : Type}.
  Variables (truth : A -> bool) (m : mem A) (l : layout) (junk : Z -> Z -> Z).
  Hypotheses (Hw : wf l) (Hsmall : small (l_shape l)) (Hin : forall idx, in_range (l_shape l) idx -> 0 <= base l idx < zlen m).
  Let sh := l_shape l.

  (** The elements the kernel looks at. *)
  Definition seen : list A := flat_map (fun idx => match znth m (base l idx) with Some x => [x] | None => [] end) (all_indices sh).
  Definition truths : Z := zlen (filter truth seen).

  Lemma added_count xs : forall n, added caddr_eqb (@cadd A) (map (fun x => (CCount, CN x)) xs) CCount (CN n) =
    CN (fold_left (fun a x => to_uint32 (a + x)) xs n).
  Proof. induction xs as [|x xs IH]; intros n; cbn; [reflexivity|]. apply IH. Qed.
  Lemma fold_u32 xs : forall n, 0 <= n < 2 ^ 32 -> fold_left (fun a x => to_uint32 (a + x)) xs n = to_uint32 (n + zsum xs).
  Proof.
    induction xs as [|x xs IH]; intros n Hn; cbn [fold_left]; [rewrite Z.add_0_r, to_uint32_small; auto|].
    rewrite IH by (unfold to_uint32; apply Z.mod_pos_bound; lia). rewrite zsum_cons, u32_add_l. f_equal. lia.
  Qed.
  Lemma zsum_perm xs ys : Permutation xs ys -> zsum xs = zsum ys.
  Proof. induction 1; rewrite ?zsum_cons; try lia. Qed.

  Theorem count_gpu_correct :
    gpu_final caddr_eqb (@cadd A) (cmem0 m (count_blocks (zprod sh)) junk) (count_gpu truth l) (fun k => k CCount = Some (CN truths)).
  Proof.
    destruct Hsmall as (Hs1 & Hs2). unfold count_gpu, numel. rewrite small_numel by exact Hsmall. fold sh.
    destruct (all_pos_or_empty sh Hs1) as [HP|H0].
    2:{ rewrite H0. change (count_blocks 0) with 0. cbn [zrange map]. change (zrange 0) with (@nil Z). cbn [map]. split; [apply grid_always_ends|].
        intros o Ho. rewrite (no_blocks _ _ _ _ Ho). eexists. split; [reflexivity|]. split; [left; constructor|]. intros _. cbn.
        assert (E : all_indices sh = []).
        { destruct (all_indices sh) as [|i is] eqn:E; [reflexivity|]. exfalso. apply (empty_range sh i H0). apply in_all_indices. rewrite E. now left. }
        unfold truths, seen. rewrite E. reflexivity. }
    pose proof (G_range l HP) as HG. fold sh in HG. set (G := count_blocks (zprod sh)) in *.
    set (bi := fun b => Binfo (cD b) (cO b) (csh m l junk b (ctree 9 128 (part truth m l b))) [(CCount, CN (A := A) (btotal truth m l b))]).
    destruct (grid_correct caddr_eqb caddr_eqb_spec (@cadd A) cAc (cmem0 m G junk)
      (map (fun b => map (count_thread truth (l_shape l) (l_strides l) (zprod sh) b) (zrange 256)) (zrange G)) (map bi (zrange G))) as (H1 & H2).
    - apply Forall2_map_same. intros b Hb. apply in_zrange in Hb. apply count_block; auto.
    - intros i j x y Hi Hj Hne a Ha Hc. rewrite nth_error_map in Hi, Hj.
      destruct (nth_error (zrange G) i) as [t1|] eqn:E1; [|discriminate]. destruct (nth_error (zrange G) j) as [t2|] eqn:E2; [|discriminate].
      cbn in Hi, Hj. injection Hi as <-. injection Hj as <-. cbn in Ha, Hc.
      assert (t1 <> t2). { intros ->. apply Hne. eapply NoDup_nth_error; [apply (zrange_nodup G)|apply nth_error_Some; congruence|congruence]. }
      destruct a; cbn in Ha, Hc; try contradiction. congruence.
    - apply Forall_map, Forall_forall. intros b _ a -> Hd. exact Hd.
    - intros a ->. discriminate.
    - split; [exact H1|]. intros o Ho. destruct (H2 o Ho) as (c & -> & Hc1 & Hc2). exists c. split; [reflexivity|]. split; [exact Hc1|].
      intros Hd. destruct (Hc2 Hd) as (_ & K & _). destruct (K CCount eq_refl) as (lg & Hlg & ->). cbn [cmem0 option_map].
      assert (Elog : flat_map bLog (map bi (zrange G)) = map (fun x => (CCount, CN x)) (map (btotal truth m l) (zrange G))).
      { rewrite flat_map_map, map_map. unfold bi. cbn [bLog]. generalize (btotal truth m l). clear. intros f.
        induction (zrange G) as [|x xs IH]; [reflexivity|]. cbn [flat_map map app]. now rewrite IH. }
      rewrite Elog in Hlg. apply Permutation_map_inv in Hlg as (xs & -> & Hxs). rewrite added_count, fold_u32 by lia. f_equal. f_equal. rewrite Z.add_0_l.
      rewrite <- (zsum_perm _ _ Hxs).
      assert (ES : forall bs, to_uint32 (zsum (map (btotal truth m l) bs)) =
        to_uint32 (hits truth m l (flat_map (fun b => flat_map (fun t => taken (zprod sh) (G * 256) (b * 256 + t)) (zrange 256)) bs))).
      { induction bs as [|b bs IH]; [reflexivity|]. cbn [map flat_map]. rewrite zsum_cons, hits_app.
        rewrite <- u32_add_l, (btotal_sum truth m l b), u32_add_l, <- u32_add_r, IH, u32_add_r. reflexivity. }
      rewrite ES. clear ES.
      assert (EH : hits truth m l (flat_map (fun b => flat_map (fun t => taken (zprod sh) (G * 256) (b * 256 + t)) (zrange 256)) (zrange G)) = truths).
      { transitivity (hits truth m l (zrange (zprod sh))).
        - apply hits_perm. rewrite <- (taken_once (zprod sh) (G * 256)) by (pose proof (zprod_posl sh HP); lia).
          rewrite <- (workers_range G 256) by lia. rewrite flat_map_flat. erewrite perm_flat_ext; [reflexivity|]. intros b _. cbn. now rewrite flat_map_map.
        - unfold truths, seen. rewrite all_indices_digits by exact HP. rewrite flat_map_map. unfold hits, hit. fold sh.
          change (fun n => rev (digits (rev sh) n)) with (oix sh). induction (zrange (zprod sh)) as [|n ns IH]; [reflexivity|]. cbn [filter flat_map].
          change (rev (digits (rev sh) n)) with (oix sh n). destruct (znth m (base l (oix sh n))) as [x|]; cbn [app filter]; [|exact IH].
          destruct (truth x); cbn [filter]; unfold zlen in *; cbn [length]; lia. }
      rewrite EH. apply to_uint32_small. rewrite <- EH. split; [apply hits_nonneg|].
      unfold truths in EH. assert (zlen (filter truth seen) <= zlen (all_indices sh)).
      { unfold seen. clear. induction (all_indices sh) as [|i is IH]; [reflexivity|]. cbn [flat_map]. rewrite filter_app. unfold zlen in *. rewrite app_length.
        destruct (znth m (base l i)) as [x|]; cbn; [destruct (truth x); cbn; lia|lia]. }
      rewrite EH. pose proof (zlen_all_indices sh Hs1). change (zprod sh < 2 ^ 31) in Hs2. lia.
  Qed.
End Grid.
