(** Cells no execution writes, and the deviations the combined GPU kernel misses. *)
From Verif Require Export GredExact.
From Coq Require Import ZifyBool ZifyNat.
Ltac Zify.zify_post_hook ::= Z.div_mod_to_equations.
Local Open Scope Z_scope.

Section Never.
  Context {A V : Type} (eqA : A -> A -> bool) (eqA_spec : forall x y, eqA x y = true <-> x = y) (addV : V -> V -> V) (a : A).
  Inductive nowr : bprog A V -> Prop :=
  | nw_ret : nowr BRet
  | nw_rd b k : (forall v, nowr (k v)) -> nowr (BRd b k)
  | nw_wr b v p : b <> a -> nowr p -> nowr (BWr b v p)
  | nw_add b v p : b <> a -> nowr p -> nowr (BAdd b v p)
  | nw_bar p : nowr p -> nowr (BBar p).
  Lemma nowr_step m p m' p' : bstep eqA addV (m, p) (Ok (m', p')) -> nowr p -> nowr p' /\ m' a = m a.
  Proof.
    assert (G : forall b v, b <> a -> gset eqA m b v a = m a).
    { intros b v Hb. unfold gset. destruct (eqA b a) eqn:E; [|reflexivity]. apply eqA_spec in E. contradiction. }
    intros H HN. inversion H; subst; inversion HN; subst; auto.
  Qed.
  Lemma nowr_gstep m B m' B' : bgstep eqA addV (m, B) (Ok (m', B')) -> Forall (Forall nowr) B -> Forall (Forall nowr) B' /\ m' a = m a.
  Proof.
    intros H HF. inversion H; subst.
    - apply Forall_app in HF as (F1 & F2). inversion F2 as [|? ? F3 F4]; subst. apply Forall_app in F3 as (F5 & F6). inversion F6 as [|? ? F7 F8]; subst.
      destruct (nowr_step _ _ _ _ H1 F7) as (N & E). split; [|exact E]. apply Forall_app. split; [exact F1|]. constructor; [|exact F4]. apply Forall_app. auto.
    - apply Forall_app in HF as (F1 & F2). inversion F2 as [|? ? F3 F4]; subst. split; [|reflexivity]. apply Forall_app. split; [exact F1|]. constructor; [|exact F4].
      rewrite Forall_map in F3. eapply Forall_impl; [|exact F3]. cbn. intros q Hq. now inversion Hq.
  Qed.
  Lemma nowr_steps c o : bgsteps eqA addV c o -> Forall (Forall nowr) (snd c) -> forall c', o = Ok c' -> fst c' a = fst c a.
  Proof.
    induction 1 as [c|c c1 o H HS IH|c H]; intros HF c' E; [injection E as <-; reflexivity| |discriminate].
    destruct c as [m B], c1 as [m1 B1]. destruct (nowr_gstep _ _ _ _ H HF) as (F' & E'). rewrite (IH F' c' E). exact E'.
  Qed.
End Never.

(** What is left of an increment. *)
Lemma bump_left sh ra : forall inc idx, Forall (inr (zlen idx)) ra -> NoDup ra -> posl (map (getz sh) ra) -> (forall d, In d ra -> 0 <= getz idx d < getz sh d) -> 0 <= inc ->
  0 <= snd (bump sh ra inc idx) <= inc.
Proof.
  induction ra as [|d ra IH]; intros inc idx HI HN HP HR Hi; cbn [bump]; [cbn; lia|].
  inversion HI; inversion HN; subst. cbn [map] in HP. inversion HP; subst.
  destruct (getz idx d + inc <? getz sh d) eqn:E; [cbn; lia|].
  pose proof (HR d (or_introl eq_refl)) as Hd.
  assert (Hq : 0 <= Z.quot (getz idx d + inc) (getz sh d) <= inc).
  { rewrite Z.quot_div_nonneg by lia. split; [apply Z.div_pos; lia|]. apply Z.lt_succ_r. apply Z.div_lt_upper_bound; nia. }
  specialize (IH (Z.quot (getz idx d + inc) (getz sh d)) (setz idx d (Z.rem (getz idx d + inc) (getz sh d)))).
  destruct IH as (I1 & I2); auto; try lia.
  - unfold zlen. rewrite setz_length. exact H2.
  - intros e He. rewrite getz_other; [apply HR; now right| | |intros ->; contradiction].
    + unfold inr in *. lia.
    + rewrite Forall_forall in H2. specialize (H2 e He). unfold inr in H2. lia.
Qed.
Lemma bump_left_carry sh d ra inc idx : Forall (inr (zlen idx)) (d :: ra) -> NoDup (d :: ra) -> posl (map (getz sh) (d :: ra)) -> (forall e, In e (d :: ra) -> 0 <= getz idx e < getz sh e) ->
  2 <= inc -> 2 <= getz sh d -> getz sh d <= getz idx d + inc -> snd (bump sh (d :: ra) inc idx) < inc.
Proof.
  intros HI HN HP HR Hi Hq Hc. cbn [bump]. replace (getz idx d + inc <? getz sh d) with false by lia.
  inversion HI; inversion HN; subst. cbn [map] in HP. inversion HP; subst. pose proof (HR d (or_introl eq_refl)) as Hd.
  assert (HQ : 0 <= Z.quot (getz idx d + inc) (getz sh d) < inc).
  { rewrite Z.quot_div_nonneg by lia. split; [apply Z.div_pos; lia|]. apply Z.div_lt_upper_bound; nia. }
  pose proof (bump_left sh ra (Z.quot (getz idx d + inc) (getz sh d)) (setz idx d (Z.rem (getz idx d + inc) (getz sh d)))) as B.
  destruct B as (B1 & B2); auto; try lia.
  - unfold zlen. rewrite setz_length. exact H2.
  - intros e He. rewrite getz_other; [apply HR; now right| | |intros ->; contradiction].
    + unfold inr in *. lia.
    + rewrite Forall_forall in H2. specialize (H2 e He). unfold inr in H2. lia.
Qed.

Section Loop.
  Context {X S C Y : Type} (K : kernel X S C Y).
  Variables (osh ost ash ast mst axes : list Z) (rf B G : Z) (a : gaddr).
  Hypothesis Ha : exists k i, a = GOut k i.
  Notation nowr := (nowr (A := gaddr) (V := gval X S Y) a).
  Lemma nowr_stuck : nowr stuck. Proof. constructor. intros v. constructor. Qed.
  Lemma nowr_acc b t n : forall idx c k, (forall c', nowr (k c')) -> nowr (acc_loop K ash ast mst axes B b t n idx c k).
  Proof.
    destruct Ha as (k0 & i0 & Ea). induction n as [|n IH]; intros idx c k Hk; cbn [acc_loop]; [apply Hk|].
    destruct (k_masked K).
    - constructor. intros [?|m|?|?]; try apply nowr_stuck. destruct (m =? 0); [|now apply IH].
      constructor. intros [?|?|?|?]; try apply nowr_stuck. constructor. intros [?|?|?|?]; try apply nowr_stuck. constructor; [congruence|now apply IH].
    - constructor. intros [?|?|?|?]; try apply nowr_stuck. constructor. intros [?|?|?|?]; try apply nowr_stuck. constructor; [congruence|now apply IH].
  Qed.
  Lemma nowr_tree b t fuel : forall s k, nowr k -> nowr (tree_loop K b t fuel s k).
  Proof.
    destruct Ha as (k0 & i0 & Ea). induction fuel as [|fuel IH]; intros s k Hk; cbn [tree_loop]; [exact Hk|].
    destruct (0 <? s); [|exact Hk]. destruct (t <? s).
    - constructor. intros u. constructor. intros v. destruct u, v; try apply nowr_stuck. constructor; [congruence|]. constructor. now apply IH.
    - constructor. now apply IH.
  Qed.
  Lemma nowr_out b t n oidx iidx c :
    (forall s p, nowr p -> nowr (store_outs ost 0 (k_outs K) oidx s p)) ->
    (forall iidx' c', nowr (out_loop K osh ost ash ast mst axes rf B G b t n (next_outs K osh G oidx) iidx' c')) ->
    nowr (out_loop K osh ost ash ast mst axes rf B G b t (Datatypes.S n) oidx iidx c).
  Proof.
    intros Hs Hn. cbn [out_loop]. constructor; [destruct Ha as (k0 & i0 & Ea); congruence|].
    apply nowr_acc. intros c'. constructor. intros [?|?|s|?]; try apply nowr_stuck. constructor; [destruct Ha as (k0 & i0 & Ea); congruence|]. constructor.
    apply nowr_tree. unfold write_out. destruct (t =? 0); [|apply Hn]. constructor. intros [?|?|s'|?]; try apply nowr_stuck. apply Hs. apply Hn.
  Qed.
End Loop.

Section Missed.
  Context {X S C Y : Type} (K : kernel X S C Y) (f g : S -> Y).
  Hypothesis (HO : k_outs K = [f; g]) (Hc : k_chained K = true).
  Variables (rest : list Z) (q : Z) (ash ast mst axes : list Z) (rf B : Z).
  Notation osh := (rest ++ [q]).
  Notation numel := (zprod osh).
  Hypothesis (HP : posl osh) (Hq : 2 <= q) (Hr : 2 <= zprod rest) (Hn : 1024 < numel).
  Notation ost := (l_strides (dense osh)).
  Notation lastc := (GOut 1 (numel - 1)).

  Lemma numel_rows : numel = zprod rest * q.
  Proof. rewrite zprod_app, zprod_cons. change (zprod []) with 1. lia. Qed.
  Lemma axes_rev : rev (zrange (zlen osh)) = zlen rest :: rev (zrange (zlen rest)).
  Proof.
    unfold zlen at 1. rewrite app_length. cbn [length]. replace (Z.of_nat (length rest + 1)) with (zlen rest + 1) by (unfold zlen; lia).
    rewrite zrange_snoc by (unfold zlen; lia). now rewrite rev_app_distr.
  Qed.
  Lemma getz_q : getz osh (zlen rest) = q.
  Proof. unfold getz, zlen. rewrite Nat2Z.id, app_nth2, Nat.sub_diag by lia. reflexivity. Qed.
  Lemma oix_last i : getz (oix osh i) (zlen rest) = i mod q.
  Proof.
    unfold oix. rewrite rev_app_distr. cbn [rev app digits]. unfold getz, zlen.
    rewrite app_nth2; rewrite ?rev_length, ?digits_length, ?rev_length, Nat2Z.id; [|lia]. now rewrite Nat.sub_diag.
  Qed.
  Lemma left_facts i : let r := snd (bump osh (rev (zrange (zlen osh))) 1024 (oix osh i)) in
    0 <= r <= 1024 /\ (q <= i mod q + 1024 -> r < 1024) /\ (i mod q + 1024 < q -> r = 1024).
  Proof.
    assert (HI : Forall (inr (zlen (oix osh i))) (rev (zrange (zlen osh)))).
    { replace (zlen (oix osh i)) with (zlen osh); [apply axes_all_inr|]. pose proof (in_range_length _ _ (oix_range osh i HP)) as L. unfold zlen. lia. }
    assert (HN : NoDup (rev (zrange (zlen osh)))) by apply NoDup_rev, zrange_nodup.
    assert (HPa : posl (map (getz osh) (rev (zrange (zlen osh))))) by (rewrite map_rev, map_getz_all; now apply posl_rev).
    assert (HR : forall d, In d (rev (zrange (zlen osh))) -> 0 <= getz (oix osh i) d < getz osh d).
    { intros d Hd. apply in_rev, in_zrange in Hd. pose proof (oix_range osh i HP) as R. rewrite <- (map_getz_all osh) in R at 1.
      assert (L : zlen (oix osh i) = zlen osh) by (pose proof (in_range_length _ _ (oix_range osh i HP)) as L; unfold zlen; lia).
      rewrite <- (map_getz_all (oix osh i)), L in R. apply (proj1 (in_range_map osh (oix osh i) _) R). now apply in_zrange. }
    intros r. split; [apply bump_left; auto; lia|]. unfold r. rewrite axes_rev in *. split; intros Hx.
    - apply bump_left_carry; auto; rewrite ?getz_q, ?oix_last; lia.
    - cbn [bump]. rewrite getz_q, oix_last. replace (i mod q + 1024 <? q) with true by lia. reflexivity.
  Qed.
  Lemma oix_succ i inc : 0 <= i -> 0 <= inc -> fst (bump osh (rev (zrange (zlen osh))) inc (oix osh i)) = oix osh (i + inc).
  Proof. intros. now apply bump_oix. Qed.

  Lemma missed_loop b t n : forall i s iidx c, 0 <= s <= i -> (s < i \/ s = i /\ (i < q \/ i < 1024)) ->
    (forall k, 0 <= k < Z.of_nat n -> i + 1024 * k < numel) ->
    nowr lastc (out_loop K osh ost ash ast mst axes rf B 1024 b t n [oix osh i; oix osh s] iidx c).
  Proof.
    induction n as [|n IH]; intros i s iidx c Hs Hl Hk; [constructor|].
    pose proof (Hk 0 ltac:(lia)) as H0. pose proof numel_rows as NR.
    apply nowr_out; [eauto| |].
    - intros st p Hp. rewrite HO. cbn [store_outs]. constructor; [discriminate|]. constructor; [|exact Hp].
      rewrite oix_cell by (auto; lia). intros E. injection E as E. nia.
    - intros iidx' c'. destruct n as [|n]; [constructor|]. pose proof (Hk 1 ltac:(lia)) as H1.
      cbn [next_outs]. rewrite Hc. rewrite !oix_succ; try lia; [|apply left_facts].
      destruct (left_facts i) as (L1 & L2 & L3). set (r := snd (bump osh (rev (zrange (zlen osh))) 1024 (oix osh i))) in *.
      apply IH; [lia| |intros k Hk'; specialize (Hk (k + 1)); lia].
      destruct Hl as [Hl|(-> & Hl)]; [left; lia|].
      destruct (Z.lt_ge_cases (i mod q + 1024) q) as [Hx|Hx]; [|left; specialize (L2 ltac:(lia)); lia].
      right. rewrite (L3 Hx). split; [reflexivity|]. left. rewrite Z.mod_small in Hx by lia. exact Hx.
  Qed.
  Lemma missed_blocks : Forall (Forall (nowr lastc)) (blocks K osh ost ash ast mst axes rf B 1024).
  Proof.
    unfold blocks. apply Forall_map, Forall_forall. intros b Hb. apply in_zrange in Hb. apply Forall_map, Forall_forall. intros t _.
    unfold thread. rewrite HO. cbn [map]. unfold onumel. rewrite unflat_oix by (auto; lia). apply missed_loop; [lia|right; lia|].
    intros k Hk. apply iterations_spec; lia.
  Qed.
End Missed.
