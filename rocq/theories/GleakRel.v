(** GPU reductions to any number of outputs: relations that follow what a thread's compensation carries from one output to the next. *)
From Verif Require Import GredGrid.
From Verif Require Import PropGred GredReal GredExact GaccRel.
From Coq Require Import ZifyBool ZifyNat Lia Permutation.
Local Open Scope Z_scope.

Section Leak.
  Context {X S C Y : Type} (K : kernel X S C Y).
  (** [ok]: the elements used; [n]: the most a thread takes; [I]: what a compensation may be between outputs; [RC], [T] as in GaccRel. *)
  Variables (ok : X -> Prop) (n : Z) (I : C -> Prop) (RC : S -> C -> list X -> Prop) (T : nat -> S -> list X -> Prop).
  Record leak_rel : Prop := LR {
    lr_comp : I (k_comp K);
    lr_zero : forall c, I c -> RC (k_zero K) c [];
    lr_upd : forall s c x l, ok x -> zlen l < n -> RC s c l -> RC (fst (k_upd K s c x)) (snd (k_upd K s c x)) (l ++ [x]);
    lr_end : forall s c l, RC s c l -> zlen l <= n -> I c;
    lr_norm : forall s c l, RC s c l -> zlen l <= n -> T 0 (k_norm K s) l;
    lr_comb : forall d s s' l l', (d < 9)%nat -> T d s l -> T d s' l' -> T (Datatypes.S d) (k_comb K s s') (l ++ l');
    lr_perm : forall d s l l', Permutation l l' -> T d s l -> T d s l' }.
  Hypothesis HK : leak_rel.
  Variables (rf B : Z) (xv : Z -> Z -> X) (mv : Z -> Z -> Z).
  Hypothesis Hok : forall i j, 0 <= j < rf -> use K mv i j = true -> ok (xv i j).
  Notation vals := (vals K xv mv).
  Lemma accs_leak m i : forall j s c l, (forall k, In k (steps_from m j B) -> 0 <= k < rf) -> zlen l + Z.of_nat m <= n -> RC s c l ->
    RC (fst (accs K B xv mv m i j (s, c))) (snd (accs K B xv mv m i j (s, c))) (l ++ vals i (steps_from m j B)) /\ zlen (l ++ vals i (steps_from m j B)) <= n.
  Proof.
    induction m as [|m IH]; intros j s c l Hj Hl Hs; cbn [accs steps_from]; [unfold GredExact.vals; cbn; rewrite app_nil_r; split; [auto|lia]|].
    assert (Hj' : forall k, In k (steps_from m (j + B) B) -> 0 <= k < rf) by (intros k Hk; apply Hj; cbn [steps_from]; now right).
    assert (Ev : vals i (j :: steps_from m (j + B) B) = if k_masked K && negb (mv i j =? 0) then vals i (steps_from m (j + B) B) else xv i j :: vals i (steps_from m (j + B) B)).
    { unfold GredExact.vals. cbn [filter]. unfold use at 1. now destruct (k_masked K && negb (mv i j =? 0)). }
    rewrite Ev. destruct (k_masked K && negb (mv i j =? 0)) eqn:E.
    - apply IH; auto. lia.
    - pose proof (lr_upd HK s c (xv i j) l (Hok i j (Hj j ltac:(cbn [steps_from]; now left)) ltac:(unfold use; now rewrite E)) ltac:(lia) Hs) as H1. cbn [map fst snd].
      destruct (k_upd K s c (xv i j)) as [s1 c1]. cbn in H1. specialize (IH (j + B) s1 c1 (l ++ [xv i j]) Hj' ltac:(unfold zlen in *; rewrite app_length; cbn [length]; lia) H1).
      rewrite <- app_assoc in IH. exact IH.
  Qed.
  Lemma tree_leak p : forall fuel d f (ls : Z -> list X), (p <= fuel)%nat -> (d + p <= 9)%nat -> (forall t, 0 <= t < 2 ^ Z.of_nat p -> T d (f t) (ls t)) ->
    T (d + p) (treeF K fuel (Z.quot (2 ^ Z.of_nat p) 2) f 0) (flat_map ls (zrange (2 ^ Z.of_nat p))).
  Proof.
    induction p as [|p IH]; intros fuel d f ls Hf H9 Hl.
    - change (Z.quot (2 ^ Z.of_nat 0) 2) with 0. change (zrange (2 ^ Z.of_nat 0)) with [0]. cbn [flat_map]. rewrite app_nil_r, Nat.add_0_r.
      destruct fuel; cbn [treeF]; apply Hl; cbn; lia.
    - destruct fuel as [|fuel]; [lia|]. rewrite Nat2Z.inj_succ, Z.pow_succ_r by lia.
      set (P := 2 ^ Z.of_nat p) in *. assert (0 < P) by (apply Z.pow_pos_nonneg; lia).
      rewrite (Z.mul_comm 2 P), Z.quot_mul by lia. cbn [treeF]. replace (0 <? P) with true by lia.
      rewrite Z.mul_comm.
      apply (lr_perm HK) with (flat_map (fun t => ls t ++ ls (t + P)) (zrange P)).
      + replace (2 * P) with (P + P) by lia. rewrite zrange_app by lia. rewrite flat_map_app.
        assert (G : forall l, Permutation (flat_map (fun t => ls t ++ ls (t + P)) l) (flat_map ls l ++ flat_map ls (map (fun t => P + t) l))).
        { induction l as [|t l IHl]; [constructor|]. cbn [flat_map map]. rewrite IHl. rewrite <- !app_assoc. apply Permutation_app_head.
          rewrite (Z.add_comm t P). rewrite !app_assoc. apply Permutation_app_tail. apply Permutation_app_comm. }
        apply G.
      + rewrite Nat.add_succ_r. change (Datatypes.S (d + p)) with (Datatypes.S d + p)%nat. apply IH; [lia|lia|]. intros t Ht. cbn beta. replace (t <? P) with true by lia.
        apply (lr_comb HK); [lia| |]; apply Hl; rewrite Nat2Z.inj_succ, Z.pow_succ_r by lia; fold P; lia.
  Qed.
  Lemma taken_range t k : 0 < B -> 0 <= t -> In k (taken rf B t) -> 0 <= k < rf.
  Proof.
    intros HB Ht Hk. unfold taken in Hk. assert (G : forall m j, In k (steps_from m j B) -> exists q, 0 <= q < Z.of_nat m /\ k = j + B * q).
    { induction m as [|m IH]; intros j H; [destruct H|]. destruct H as [H|H]; [exists 0; lia|]. destruct (IH _ H) as (q & Hq & ->). exists (q + 1). lia. }
    destruct (G _ _ Hk) as (q & Hq & ->). pose proof (proj1 (iterations_spec t rf B q HB ltac:(lia)) ltac:(lia)). nia.
  Qed.
  Lemma result_leak p G i : (p <= 9)%nat -> B = 2 ^ Z.of_nat p -> 0 < G -> 0 <= i -> 0 <= rf -> (forall t, 0 <= t -> Z.of_nat (iterations t rf B) <= n) ->
    T p (result K rf B G xv mv i) (vals i (zrange rf)).
  Proof.
    intros Hp EB HG Hi Hr Hit. assert (HB : 0 < B) by (rewrite EB; apply Z.pow_pos_nonneg; lia).
    assert (Hpart : forall i t c, 0 <= t -> I c -> RC (fst (part K rf B xv mv i t c)) (snd (part K rf B xv mv i t c)) (vals i (taken rf B t)) /\ zlen (vals i (taken rf B t)) <= n).
    { intros i' t c Ht Hc. specialize (Hit t Ht). apply (accs_leak (iterations t rf B) i' t (k_zero K) c []); [intros k Hk; now apply (taken_range t)|unfold zlen; cbn [length]; lia|now apply (lr_zero HK)]. }
    assert (HI : forall q i c, (forall t, 0 <= t -> I (c t)) -> forall t, 0 <= t -> I (comps K rf B G xv mv i q c t)).
    { induction q as [|q IH]; intros i' c Hc; [exact Hc|]. rewrite comps_S. apply IH. intros t Ht. unfold carry. destruct (Hpart i' t (c t) Ht (Hc t Ht)) as (H1 & H2). exact (lr_end HK _ _ _ H1 H2). }
    unfold result. set (c := comps K rf B G xv mv (i mod G) (Z.to_nat (i / G)) (fun _ => k_comp K)). assert (Hc : forall t, 0 <= t -> I (c t)) by (apply HI; intros; apply (lr_comp HK)).
    apply (lr_perm HK) with (flat_map (fun t => vals i (taken rf B t)) (zrange B)).
    - unfold GredExact.vals.
      assert (E : forall l, flat_map (fun t => map (xv i) (filter (use K mv i) (taken rf B t))) l = map (xv i) (filter (use K mv i) (flat_map (taken rf B) l))).
      { induction l as [|t l IHl]; [reflexivity|]. cbn [flat_map]. now rewrite filter_app, map_app, IHl. }
      rewrite E. apply Permutation_map, perm_filter, taken_once; auto.
    - unfold total. pose proof (tree_leak p (Z.to_nat B) 0 (fun t => k_norm K (fst (part K rf B xv mv i t (c t)))) (fun t => vals i (taken rf B t))) as G'.
      rewrite <- EB in G'. apply G'; [|exact Hp|].
      + assert (Z.of_nat p < B) by (rewrite EB; apply Z.pow_gt_lin_r; lia). lia.
      + intros t Ht. destruct (Hpart i t (c t) ltac:(lia) (Hc t ltac:(lia))) as (H1 & H2). exact (lr_norm HK _ _ _ H1 H2).
  Qed.
End Leak.

(** A thread's share: with the elements it may be short of, no more than twice all elements over the block. *)
Definition share (rf : Z) : Z := Z.of_nat (iterations 0 rf (block_size rf)).
Lemma share_most rf t : 0 < block_size rf -> 0 <= t -> Z.of_nat (iterations t rf (block_size rf)) <= share rf.
Proof.
  intros HB Ht. unfold share. set (n0 := iterations 0 rf (block_size rf)). destruct (Z_lt_le_dec (Z.of_nat n0) (Z.of_nat (iterations t rf (block_size rf)))) as [L|L]; [|exact L]. exfalso.
  apply (iterations_spec t rf (block_size rf) (Z.of_nat n0) HB ltac:(lia)) in L.
  assert (H0 : Z.of_nat n0 < Z.of_nat (iterations 0 rf (block_size rf))) by (apply (iterations_spec 0 rf (block_size rf) (Z.of_nat n0) HB ltac:(lia)); lia). fold n0 in H0. lia.
Qed.
Lemma share_total rf : 1 <= rf -> 1 <= block_size rf <= rf /\ 1 <= share rf /\ block_size rf * share rf <= 2 * rf.
Proof.
  intros Hr. assert (HB : 1 <= block_size rf <= rf).
  { destruct (Z.lt_ge_cases rf 512) as [H|H]; [|unfold block_size; replace (rf <? 512) with false by lia; lia].
    assert (G : forallb (fun n => (1 <=? block_size n) && (block_size n <=? n)) (map (fun i => i + 1) (zrange 511)) = true) by (vm_compute; reflexivity). rewrite forallb_forall in G. specialize (G rf).
    assert ((1 <=? block_size rf) && (block_size rf <=? rf) = true); [|lia]. apply G, in_map_iff. exists (rf - 1). rewrite in_zrange. lia. }
  split; [exact HB|]. assert (S1 : 1 <= share rf). { unfold share. assert (0 < Z.of_nat (iterations 0 rf (block_size rf))) by (apply (iterations_spec 0 rf (block_size rf) 0); lia). lia. }
  split; [exact S1|]. assert (L : 0 + block_size rf * (share rf - 1) < rf) by (apply (iterations_spec 0 rf (block_size rf) (share rf - 1)); unfold share in *; lia). nia.
Qed.

(** ** At the launch *)
Section Launch.
  Context {X S C Y : Type} (K : kernel X S C Y).
  Variables (ok : X -> Prop) (n : Z) (I : C -> Prop) (RC : S -> C -> list X -> Prop) (T : nat -> S -> list X -> Prop).
  Lemma leak_value l lm axes x mask (f : list X -> nat -> Y -> Prop) :
    leak_rel K ok n I RC T -> gpu_ok x l axes -> unsliced l -> (k_masked K = true -> mask_ok l lm mask) -> k_chained K = false ->
    share (red_factor l axes) <= n ->
    (forall idx v, in_range (l_shape l) idx -> elt x l idx = Some v -> (k_masked K = true -> elt mask lm idx = Some 0) -> ok v) ->
    (forall oi es xs k g s p, in_range (out_shape axes (l_shape l)) oi -> enumerates (l_shape l) axes oi es -> reads x l (usable K lm mask es) xs ->
       nth_error (k_outs K) k = Some g -> (p <= 9)%nat -> block_size (red_factor l axes) = 2 ^ Z.of_nat p -> T p s xs -> f xs k (g s)) ->
    gpu_yields K l lm axes x mask (fun out => forall oi es xs k, in_range (out_shape axes (l_shape l)) oi -> (k < length (k_outs K))%nat ->
      enumerates (l_shape l) axes oi es -> reads x l (usable K lm mask es) xs -> exists v, out (Z.of_nat k) oi = Some v /\ f xs k v).
  Proof.
    intros HK Hok Hu Hm Hch Hsh Hel Hf. destruct (gpu_inhabited x l axes Hok) as (d & _). destruct Hok as (Hr & HP & Hn). pose proof (unsliced_eq l Hu) as El.
    assert (Hr' : red_hyps x (unshift l) axes) by now rewrite El.
    assert (Hm' : k_masked K = true -> wf lm /\ l_shape lm = l_shape l /\ inside (unshift lm) (zlen mask)).
    { intros Hk. destruct (Hm Hk) as (W & E & U & Hi). rewrite (unsliced_eq _ U). auto. }
    destruct (gpu_reduce K l lm axes x mask (proj1 Hr) Hr' HP Hn Hm' ltac:(intros Q; rewrite Hch in Q; discriminate) d) as (Hy & _).
    destruct Hy as (grid & Eg & Hy). exists grid. split; [exact Eg|]. intros jS jY. destruct (Hy jS jY) as (G1 & G2). split; [exact G1|].
    intros o Ho. destruct (G2 o Ho) as (c & E & G3 & G4). exists c. split; [exact E|]. split; [exact G3|]. intros Hd oi es xs k Hoi Hk He Hx.
    destruct (nth_error (k_outs K) k) as [g|] eqn:Eg'; [|apply nth_error_None in Eg'; lia].
    eexists. split; [apply (G4 Hd oi k g Hoi Eg')|]. clear G1 G2 G3 G4 Hy Hd Ho E o c Eg grid jS jY.
    destruct Hr as (W & _ & Hg & Hs & Hin). pose proof (out_shape_posl (l_shape l) axes HP) as HO.
    unfold gpu_val. rewrite El. set (sh := l_shape l) in *. set (osh := out_shape axes sh) in *. set (ax := all_if_nil (ndim l) axes) in *. set (rf := zprod (map (getz sh) ax)).
    assert (Ga : good_axes (ndim l) ax) by now apply good_all_if_nil.
    assert (Erf : rf = zprod (rdims sh ax)) by (apply zprod_perm, Permutation_map, Permutation_sym, red_perm; exact Ga).
    assert (Hrf1 : 1 <= rf). { rewrite Erf. apply zprod_posl. apply posl_sub; [exact HP|apply red_inr]. }
    assert (Erf2 : red_factor l axes = rf) by (unfold red_factor, rf, ax, all_if_nil; destruct axes; reflexivity). rewrite Erf2 in Hsh, Hf.
    destruct (oix_of osh oi HO Hoi) as (Hi & Eoi). set (i := cell (dense osh) oi) in *.
    set (xv := fun i j => match znth x (cell l (pos sh ax i j)) with Some v => v | None => d end).
    set (mv := fun i j => match znth mask (cell (unshift lm) (pos sh ax i j)) with Some v => v | None => 0 end).
    destruct (block_size_depth rf Hrf1) as (p & Hp9 & EB).
    apply (Hf oi es xs k g _ p Hoi He Hx Eg' Hp9 EB).
    assert (Hpx : forall i j, 0 <= cell l (pos sh ax i j) < zlen x) by (intros i' j; apply Hin, pos_range; exact HP).
    assert (Exv : forall i j, znth x (cell l (pos sh ax i j)) = Some (xv i j)).
    { intros i' j. unfold xv. destruct (znth_some x _ (Hpx i' j)) as (v & ->). reflexivity. }
    assert (Emv : k_masked K = true -> forall i j, znth mask (cell (unshift lm) (pos sh ax i j)) = Some (mv i j)).
    { intros Hk' i' j. destruct (Hm' Hk') as (Wm & Em & Im). unfold mv. destruct (znth_some mask (cell (unshift lm) (pos sh ax i' j))) as (v & ->); [|reflexivity]. apply Im. cbn. rewrite Em. now apply pos_range. }
    assert (HB : 0 < block_size rf) by (rewrite EB; apply Z.pow_pos_nonneg; lia).
    assert (Hoks : forall i j, 0 <= j < rf -> use K mv i j = true -> ok (xv i j)).
    { intros i' j Hj Hus. apply (Hel (pos sh ax i' j)); [now apply pos_range|exact (Exv i' j)|]. intros Hk'. unfold use in Hus. rewrite Hk' in Hus. cbn [andb] in Hus. rewrite negb_involutive in Hus.
      destruct (Hm Hk') as (_ & _ & Um & _). specialize (Emv Hk' i' j). rewrite (unsliced_eq _ Um) in Emv. unfold elt. rewrite Emv. f_equal. lia. }
    pose proof (result_leak K ok n I RC T HK rf (block_size rf) xv mv Hoks p (num_blocks (zprod osh)) i Hp9 EB ltac:(unfold num_blocks; lia) ltac:(lia) ltac:(lia)
      (fun t Ht => Z.le_trans _ _ _ (share_most rf t HB Ht) Hsh)) as RR.
    eapply (lr_perm _ _ _ _ _ _ HK); [|exact RR].
    pose proof (pos_enum sh axes i HP Hg Hi) as PE. fold osh in PE. rewrite Eoi in PE. change (zlen sh) with (ndim l) in PE. fold ax in PE. rewrite <- Erf in PE.
    assert (Perm : Permutation (usable K lm mask (map (pos sh ax i) (zrange rf))) (usable K lm mask es)).
    { assert (P0 : Permutation (map (pos sh ax i) (zrange rf)) es) by (eapply enumerates_perm; eauto).
      unfold usable. destruct (k_masked K); [now apply perm_filter|exact P0]. }
    eapply reads_perm; [exact Perm| |exact Hx].
    unfold vals.
    assert (RD : forall js, reads x l (map (pos sh ax i) js) (map (xv i) js)).
    { intros js. unfold reads. induction js as [|j js IH]; [constructor|]. constructor; [apply Exv|exact IH]. }
    unfold usable. destruct (k_masked K) eqn:Ek.
    - rewrite filter_map. replace (filter (fun j => sel_at mask (cell (unshift lm) (pos sh ax i j))) (zrange rf)) with (filter (use K mv i) (zrange rf)); [apply RD|].
      apply List.filter_ext. intros j. unfold use, sel_at. rewrite Ek, (Emv eq_refl). cbn. now rewrite negb_involutive.
    - replace (filter (use K mv i) (zrange rf)) with (zrange rf); [apply RD|].
      symmetry. assert (G : forall js, filter (use K mv i) js = js); [|apply G]. induction js as [|j js IH]; [reflexivity|]. cbn [filter]. unfold use at 1. rewrite Ek. cbn [andb negb]. now rewrite IH.
  Qed.
End Launch.
