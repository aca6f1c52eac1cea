(** GPU reductions to at most 1024 outputs, through relations that follow the compensation of each thread and the depth of the tree. *)
From Verif Require Import PropGred GredReal GredExact.
From Coq Require Import ZifyBool ZifyNat Lia Permutation.
Local Open Scope Z_scope.

Section Joint.
  Context {X S C Y : Type} (K : kernel X S C Y).
  (** [RC]: accumulator and compensation of a thread; [T]: accumulators in the tree after so many levels. *)
  Variables (RC : S -> C -> list X -> Prop) (T : nat -> S -> list X -> Prop).
  Record joint_rel : Prop := JR {
    jr_zero : RC (k_zero K) (k_comp K) [];
    jr_upd : forall s c x l, RC s c l -> RC (fst (k_upd K s c x)) (snd (k_upd K s c x)) (l ++ [x]);
    jr_norm : forall s c l, RC s c l -> zlen l <= 2 ^ 22 -> T 0 (k_norm K s) l;
    jr_comb : forall d s s' l l', T d s l -> T d s' l' -> T (Datatypes.S d) (k_comb K s s') (l ++ l');
    jr_perm : forall d s l l', Permutation l l' -> T d s l -> T d s l' }.
  Hypothesis HK : joint_rel.
  Variables (rf B : Z) (xv : Z -> Z -> X) (mv : Z -> Z -> Z).
  Notation vals := (vals K xv mv).
  Lemma accs_joint n i : forall j s c l, RC s c l ->
    RC (fst (accs K B xv mv n i j (s, c))) (snd (accs K B xv mv n i j (s, c))) (l ++ vals i (steps_from n j B)).
  Proof.
    induction n as [|n IH]; intros j s c l Hs; cbn [accs steps_from]; [unfold GredExact.vals; cbn; rewrite app_nil_r; auto|].
    unfold GredExact.vals. cbn [filter]. unfold use at 1. destruct (k_masked K && negb (mv i j =? 0)) eqn:E; cbn [negb].
    - apply IH; auto.
    - pose proof (jr_upd HK s c (xv i j) l Hs) as H1. cbn [map fst snd].
      destruct (k_upd K s c (xv i j)) as [s1 c1]. cbn in H1. specialize (IH (j + B) s1 c1 (l ++ [xv i j]) H1).
      rewrite <- app_assoc in IH. exact IH.
  Qed.
  Lemma tree_joint p : forall fuel d f (ls : Z -> list X), (p <= fuel)%nat -> (forall t, 0 <= t < 2 ^ Z.of_nat p -> T d (f t) (ls t)) ->
    T (d + p) (treeF K fuel (Z.quot (2 ^ Z.of_nat p) 2) f 0) (flat_map ls (zrange (2 ^ Z.of_nat p))).
  Proof.
    induction p as [|p IH]; intros fuel d f ls Hf Hl.
    - change (Z.quot (2 ^ Z.of_nat 0) 2) with 0. change (zrange (2 ^ Z.of_nat 0)) with [0]. cbn [flat_map]. rewrite app_nil_r, Nat.add_0_r.
      destruct fuel; cbn [treeF]; apply Hl; cbn; lia.
    - destruct fuel as [|fuel]; [lia|]. rewrite Nat2Z.inj_succ, Z.pow_succ_r by lia.
      set (P := 2 ^ Z.of_nat p) in *. assert (0 < P) by (apply Z.pow_pos_nonneg; lia).
      rewrite (Z.mul_comm 2 P), Z.quot_mul by lia. cbn [treeF]. replace (0 <? P) with true by lia.
      rewrite Z.mul_comm.
      apply (jr_perm HK) with (flat_map (fun t => ls t ++ ls (t + P)) (zrange P)).
      + replace (2 * P) with (P + P) by lia. rewrite zrange_app by lia. rewrite flat_map_app.
        assert (G : forall l, Permutation (flat_map (fun t => ls t ++ ls (t + P)) l) (flat_map ls l ++ flat_map ls (map (fun t => P + t) l))).
        { induction l as [|t l IHl]; [constructor|]. cbn [flat_map map]. rewrite IHl. rewrite <- !app_assoc. apply Permutation_app_head.
          rewrite (Z.add_comm t P). rewrite !app_assoc. apply Permutation_app_tail. apply Permutation_app_comm. }
        apply G.
      + rewrite Nat.add_succ_r. change (Datatypes.S (d + p)) with (Datatypes.S d + p)%nat. apply IH; [lia|]. intros t Ht. cbn beta. replace (t <? P) with true by lia.
        apply (jr_comb HK); apply Hl; rewrite Nat2Z.inj_succ, Z.pow_succ_r by lia; fold P; lia.
  Qed.
  Lemma steps_length n B' : forall j, zlen (steps_from n j B') = Z.of_nat n.
  Proof. induction n as [|n IH]; intros j; [reflexivity|]. cbn [steps_from]. unfold zlen in *. cbn [length]. specialize (IH (j + B')). lia. Qed.
  Lemma result_joint p G i : (p <= 9)%nat -> B = 2 ^ Z.of_nat p -> 0 <= i < G -> 0 <= rf -> (forall t, 0 <= t -> Z.of_nat (iterations t rf B) <= 2 ^ 22) ->
    T p (result K rf B G xv mv i) (vals i (zrange rf)).
  Proof.
    intros Hp EB Hi Hr Hit. assert (HB : 0 < B) by (rewrite EB; apply Z.pow_pos_nonneg; lia). unfold result. rewrite Z.div_small by lia. change (Z.to_nat 0) with 0%nat.
    change (comps K rf B G xv mv (i mod G) 0 (fun _ => k_comp K)) with (fun _ : Z => k_comp K).
    apply (jr_perm HK) with (flat_map (fun t => vals i (taken rf B t)) (zrange B)).
    - unfold GredExact.vals.
      assert (E : forall l, flat_map (fun t => map (xv i) (filter (use K mv i) (taken rf B t))) l = map (xv i) (filter (use K mv i) (flat_map (taken rf B) l))).
      { induction l as [|t l IHl]; [reflexivity|]. cbn [flat_map]. now rewrite filter_app, map_app, IHl. }
      rewrite E. apply Permutation_map, perm_filter, taken_once; auto.
    - unfold total. pose proof (tree_joint p (Z.to_nat B) 0 (fun t => k_norm K (fst (part K rf B xv mv i t (k_comp K)))) (fun t => vals i (taken rf B t))) as G'.
      rewrite <- EB in G'. apply G'.
      + assert (Z.of_nat p < B) by (rewrite EB; apply Z.pow_gt_lin_r; lia). lia.
      + intros t Ht. pose proof (accs_joint (iterations t rf B) i t (k_zero K) (k_comp K) [] (jr_zero HK)) as H1. eapply (jr_norm HK); [exact H1|].
        cbn [app]. unfold GredExact.vals, zlen, taken. rewrite map_length. assert (FL : forall (q : Z -> bool) l, (length (filter q l) <= length l)%nat) by (clear; intros q l; induction l as [|a l IH]; cbn; [lia|destruct (q a); cbn; lia]).
        specialize (FL (use K mv i) (steps_from (iterations t rf B) t B)). pose proof (steps_length (iterations t rf B) B t) as L. unfold zlen in L. specialize (Hit t ltac:(lia)). lia.
  Qed.
End Joint.

Lemma few_iterations rf t : 1 <= rf < 2 ^ 31 -> 0 <= t -> Z.of_nat (iterations t rf (block_size rf)) <= 2 ^ 22.
Proof.
  intros Hr Ht. destruct (block_size_pow rf ltac:(lia)) as (p & Hp & EB). assert (HB : 1 <= block_size rf) by (rewrite EB; pose proof (Z.pow_pos_nonneg 2 p); lia).
  destruct (Z.lt_ge_cases rf 512) as [H|H].
  - destruct (Z_lt_le_dec (2 ^ 22) (Z.of_nat (iterations t rf (block_size rf)))) as [L|L]; [|exact L]. assert (L' : 1024 < Z.of_nat (iterations t rf (block_size rf))) by (change (2 ^ 22) with 4194304 in L; clear - L; lia). assert (HB' : 0 < block_size rf) by (clear - HB; lia). pose proof (proj1 (iterations_spec t rf (block_size rf) 1024 HB' ltac:(discriminate)) L') as Q. clear - Q HB Ht H. nia.
  - assert (E : block_size rf = 512) by (unfold block_size; replace (rf <? 512) with false by lia; reflexivity). rewrite E in *.
    destruct (Z_lt_le_dec (2 ^ 22) (Z.of_nat (iterations t rf 512))) as [L|L]; [|exact L]. pose proof (proj1 (iterations_spec t rf 512 (2 ^ 22) ltac:(lia) ltac:(lia)) L). lia.
Qed.
Lemma block_size_depth n : 1 <= n -> exists p, (p <= 9)%nat /\ block_size n = 2 ^ Z.of_nat p.
Proof.
  intros Hn. destruct (block_size_pow n Hn) as (p & Hp & E). exists (Z.to_nat p). rewrite Z2Nat.id by lia. split; [|exact E].
  assert (L : block_size n <= 512). { clear E p Hp. destruct (Z.lt_ge_cases n 512) as [H|H]; [|unfold block_size; replace (n <? 512) with false by lia; lia].
    assert (G : forallb (fun n => block_size n <=? 512) (map (fun i => i + 1) (zrange 511)) = true) by (vm_compute; reflexivity). rewrite forallb_forall in G. specialize (G n).
    assert (block_size n <=? 512 = true); [|lia]. apply G, in_map_iff. exists (n - 1). rewrite in_zrange. lia. }
  rewrite E in L. change 512 with (2 ^ 9) in L. apply Z.pow_le_mono_r_iff in L; lia.
Qed.

(** ** At the launch *)
Section Launch.
  Context {X S C Y : Type} (K : kernel X S C Y).
  Variables (RC : S -> C -> list X -> Prop) (T : nat -> S -> list X -> Prop).
  Lemma joint_value l lm axes x mask (f : list X -> nat -> Y -> Prop) :
    joint_rel K RC T -> gpu_ok x l axes -> unsliced l -> (k_masked K = true -> mask_ok l lm mask) ->
    zprod (out_shape axes (l_shape l)) <= 1024 -> red_factor l axes < 2 ^ 31 ->
    (forall oi es xs k g s p, in_range (out_shape axes (l_shape l)) oi -> enumerates (l_shape l) axes oi es -> reads x l (usable K lm mask es) xs ->
       nth_error (k_outs K) k = Some g -> (p <= 9)%nat -> T p s xs -> f xs k (g s)) ->
    gpu_yields K l lm axes x mask (fun out => forall oi es xs k, in_range (out_shape axes (l_shape l)) oi -> (k < length (k_outs K))%nat ->
      enumerates (l_shape l) axes oi es -> reads x l (usable K lm mask es) xs -> exists v, out (Z.of_nat k) oi = Some v /\ f xs k v).
  Proof.
    intros HK Hok Hu Hm H1024 Hrf Hf. destruct (gpu_inhabited x l axes Hok) as (d & _). destruct Hok as (Hr & HP & Hn). pose proof (unsliced_eq l Hu) as El.
    assert (Hr' : red_hyps x (unshift l) axes) by now rewrite El.
    assert (Hm' : k_masked K = true -> wf lm /\ l_shape lm = l_shape l /\ inside (unshift lm) (zlen mask)).
    { intros Hk. destruct (Hm Hk) as (W & E & U & Hi). rewrite (unsliced_eq _ U). auto. }
    destruct (gpu_reduce K l lm axes x mask (proj1 Hr) Hr' HP Hn Hm' (fun _ => or_intror H1024) d) as (Hy & _).
    destruct Hy as (grid & Eg & Hy). exists grid. split; [exact Eg|]. intros jS jY. destruct (Hy jS jY) as (G1 & G2). split; [exact G1|].
    intros o Ho. destruct (G2 o Ho) as (c & E & G3 & G4). exists c. split; [exact E|]. split; [exact G3|]. intros Hd oi es xs k Hoi Hk He Hx.
    destruct (nth_error (k_outs K) k) as [g|] eqn:Eg'; [|apply nth_error_None in Eg'; lia].
    eexists. split; [apply (G4 Hd oi k g Hoi Eg')|]. clear G1 G2 G3 G4 Hy Hd Ho E o c Eg grid jS jY.
    destruct Hr as (W & _ & Hg & Hs & Hin). pose proof (out_shape_posl (l_shape l) axes HP) as HO.
    unfold gpu_val. rewrite El. set (sh := l_shape l) in *. set (osh := out_shape axes sh) in *. set (ax := all_if_nil (ndim l) axes) in *. set (rf := zprod (map (getz sh) ax)).
    assert (Ga : good_axes (ndim l) ax) by now apply good_all_if_nil.
    assert (Erf : rf = zprod (rdims sh ax)) by (apply zprod_perm, Permutation_map, Permutation_sym, red_perm; exact Ga).
    assert (Hrf1 : 1 <= rf). { rewrite Erf. apply zprod_posl. apply posl_sub; [exact HP|apply red_inr]. }
    assert (Hrf2 : rf < 2 ^ 31). { replace rf with (red_factor l axes); [exact Hrf|]. unfold red_factor, rf, ax, all_if_nil. destruct axes; reflexivity. }
    destruct (oix_of osh oi HO Hoi) as (Hi & Eoi). set (i := cell (dense osh) oi) in *.
    set (xv := fun i j => match znth x (cell l (pos sh ax i j)) with Some v => v | None => d end).
    set (mv := fun i j => match znth mask (cell (unshift lm) (pos sh ax i j)) with Some v => v | None => 0 end).
    destruct (block_size_depth rf Hrf1) as (p & Hp9 & EB).
    apply (Hf oi es xs k g _ p Hoi He Hx Eg' Hp9).
    assert (Eb : num_blocks (zprod osh) = zprod osh) by (unfold num_blocks; lia). rewrite Eb.
    pose proof (result_joint K RC T HK rf (block_size rf) xv mv p (zprod osh) i Hp9 EB Hi ltac:(lia) (fun t Ht => few_iterations rf t (conj Hrf1 Hrf2) Ht)) as RR.
    eapply (jr_perm _ _ _ HK); [|exact RR].
    assert (Hpx : forall i j, 0 <= cell l (pos sh ax i j) < zlen x) by (intros i' j; apply Hin, pos_range; exact HP).
    assert (Exv : forall i j, znth x (cell l (pos sh ax i j)) = Some (xv i j)).
    { intros i' j. unfold xv. destruct (znth_some x _ (Hpx i' j)) as (v & ->). reflexivity. }
    assert (Emv : k_masked K = true -> forall i j, znth mask (cell (unshift lm) (pos sh ax i j)) = Some (mv i j)).
    { intros Hk' i' j. destruct (Hm' Hk') as (Wm & Em & Im). unfold mv. destruct (znth_some mask (cell (unshift lm) (pos sh ax i' j))) as (v & ->); [|reflexivity]. apply Im. cbn. rewrite Em. now apply pos_range. }
    pose proof (pos_enum sh axes i HP Hg Hi) as PE. fold osh in PE. rewrite Eoi in PE. change (zlen sh) with (ndim l) in PE. fold ax in PE. rewrite <- Erf in PE.
    assert (Perm : Permutation (usable K lm mask (map (pos sh ax i) (zrange rf))) (usable K lm mask es)).
    { assert (P0 : Permutation (map (pos sh ax i) (zrange rf)) es) by (eapply enumerates_perm; eauto).
      unfold usable. destruct (k_masked K); [now apply perm_filter|exact P0]. }
    eapply reads_perm; [exact Perm| |exact Hx].
    unfold vals.
    assert (RD : forall js, reads x l (map (pos sh ax i) js) (map (xv i) js)).
    { intros js. unfold reads. induction js as [|j js IH]; [constructor|]. constructor; [apply Exv|exact IH]. }
    unfold usable. destruct (k_masked K) eqn:Ek.
    - rewrite filter_map. replace (filter (fun j => sel_at mask (cell (unshift lm) (pos sh ax i j))) (zrange rf)) with (filter (use K mv i) (zrange rf)); [apply RD|].
      apply filter_ext. intros j. unfold use, sel_at. rewrite Ek, (Emv eq_refl). cbn. now rewrite negb_involutive.
    - replace (filter (use K mv i) (zrange rf)) with (zrange rf); [apply RD|].
      symmetry. assert (G : forall js, filter (use K mv i) js = js); [|apply G]. induction js as [|j js IH]; [reflexivity|]. cbn [filter]. unfold use at 1. rewrite Ek. cbn [andb negb]. now rewrite IH.
  Qed.
End Launch.
