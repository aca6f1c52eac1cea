(** Masked reductions, median, creators, device strings, deferred arrays. *)
From Verif Require Export RedProofs2.
From Coq Require Import ZifyBool ZifyNat Sorting.Sorted QArith.
Ltac Zify.zify_post_hook ::= Z.div_mod_to_equations.
Local Open Scope Z_scope.

(** ** Masked reductions *)
Definition sel_at (mask : mem Z) (c : Z) : bool := match znth mask c with Some b => b =? 0 | None => false end.

Lemma ofold_masked {A D} (add : D -> A -> D) mask (m : mem A) l es xs s n :
  (forall idx, In idx es -> 0 <= cell l idx < zlen mask) ->
  reads m l (filter (fun idx => sel_at mask (cell l idx)) es) xs ->
  ofold (masked_step add mask m) (s, n) (map (cell l) es) = Ok (fold_left add xs s, n + zlen xs).
Proof.
  revert xs s n; induction es as [|e es IH]; intros xs s n Hm Hx.
  - inversion Hx; subst. cbn. do 2 f_equal. unfold zlen. cbn. lia.
  - destruct (znth_some mask (cell l e)) as [b Hb]; [apply Hm; left; auto|].
    cbn [map ofold filter] in *.
    assert (Es : sel_at mask (cell l e) = (b =? 0)) by (unfold sel_at; rewrite Hb; reflexivity).
    rewrite Es in Hx. destruct (b =? 0) eqn:Eb.
    + inversion Hx as [|? x ? xs' Hv Hx']; subst. unfold elt in Hv.
      assert (E : masked_step add mask m (s, n) (cell l e) = Ok (add s x, n + 1)).
      { unfold masked_step. rewrite (load_some _ _ _ Hb). cbn [obind]. rewrite Eb, (load_some _ _ _ Hv). reflexivity. }
      rewrite E. cbn [obind]. rewrite (IH xs') by (auto; intros; apply Hm; right; auto). do 2 f_equal. unfold zlen. cbn [length]. lia.
    + assert (E : masked_step add mask m (s, n) (cell l e) = Ok (s, n)).
      { unfold masked_step. rewrite (load_some _ _ _ Hb). cbn [obind]. rewrite Eb. reflexivity. }
      rewrite E. cbn [obind]. rewrite (IH xs) by (auto; intros; apply Hm; right; auto). reflexivity.
Qed.

Lemma omapM_throws {A B} (f : A -> outcome B) e l : (forall x, In x l -> (exists y, f x = Ok y) \/ f x = Throw e) ->
  (exists x, In x l /\ f x = Throw e) -> omapM f l = Throw e.
Proof.
  induction l as [|x l IH]; intros H (y & Hy & E); [destruct Hy|]. cbn.
  destruct (H x (or_introl eq_refl)) as [[v Hv]|Hv]; rewrite Hv; cbn; [|reflexivity].
  destruct Hy as [->|Hy]; [congruence|]. rewrite IH; [reflexivity|intros; apply H; right; auto|eauto].
Qed.

Lemma same_shape_checks la lb : l_shape la = l_shape lb ->
  (ndim la =? ndim lb) = true /\ forallb (fun p => fst p =? snd p) (combine (l_shape la) (l_shape lb)) = true.
Proof.
  intros E. split; [unfold ndim; rewrite E; apply Z.eqb_refl|]. rewrite E. clear E.
  induction (l_shape lb) as [|d s IH]; cbn; auto. rewrite Z.eqb_refl. exact IH.
Qed.

Lemma shape_checks_fail la lb : l_shape la <> l_shape lb ->
  (ndim la =? ndim lb) = false \/ forallb (fun p => fst p =? snd p) (combine (l_shape la) (l_shape lb)) = false.
Proof.
  unfold ndim, zlen. intros H. destruct (Z.of_nat (length (l_shape la)) =? Z.of_nat (length (l_shape lb))) eqn:E; [right|auto].
  apply Z.eqb_eq in E. assert (HL : length (l_shape la) = length (l_shape lb)) by lia. clear E. revert H HL.
  generalize (l_shape la) (l_shape lb). induction l as [|x l IH]; intros [|y l0] H HL; cbn in *; try discriminate; [congruence|].
  destruct (x =? y) eqn:E; [|reflexivity]. apply Z.eqb_eq in E. subst. cbn. apply IH; [congruence|lia].
Qed.

Lemma fibre_range sh axes o idx : good_axes (zlen sh) axes -> in_range (out_shape axes sh) o -> In idx (fibre sh axes o) -> in_range sh idx.
Proof. intros Hg Ho Hi. destruct (fibre_enumerates _ _ _ Hg Ho) as [_ H]. apply H in Hi. tauto. Qed.

(** What the code computes: the mask is looked up at the data's cell. *)
Theorem masked_exact {A D V} (zero : D) (add : D -> A -> D) (fin : D -> Z -> V) junk l (m : mem A) lm mask axes :
  red_hyps m l axes -> l_shape l = l_shape lm -> inside l (zlen mask) ->
  (forall o, in_range (out_shape axes (l_shape l)) o ->
     exists idx, in_range (l_shape l) idx /\ out_index axes idx = o /\ sel_at mask (cell l idx) = true) ->
  exists vs, nd_masked zero add fin junk l m lm mask axes = Ok (dense (out_shape axes (l_shape l)), vs) /\
    zlen vs = zprod (out_shape axes (l_shape l)) /\
    forall o, in_range (out_shape axes (l_shape l)) o -> exists es xs,
      enumerates (l_shape l) axes o es /\
      reads m l (filter (fun idx => sel_at mask (cell l idx)) es) xs /\ xs <> [] /\
      elt vs (dense (out_shape axes (l_shape l))) o = Some (fin (fold_left add xs zero) (zlen xs)).
Proof.
  intros (Hw & Hn & Hg & Hs & Hi) Hsh Him Hex. unfold nd_masked.
  destruct (same_shape_checks l lm Hsh) as [E1 E2]. rewrite E1, E2. cbn [negb].
  rewrite reduce_fibres by auto. set (osh := out_shape axes (l_shape l)) in *.
  assert (HE : forall o, in_range osh o -> exists xs, reads m l (filter (fun idx => sel_at mask (cell l idx)) (fibre (l_shape l) axes o)) xs /\ xs <> []).
  { intros o Ho. destruct (reads_exists m l (filter (fun idx => sel_at mask (cell l idx)) (fibre (l_shape l) axes o))) as [xs Hx]; [|exact Hi|].
    - intros idx Hx. apply filter_In in Hx. eapply fibre_range; [exact Hg|exact Ho|apply Hx].
    - exists xs. split; [exact Hx|]. destruct (Hex o Ho) as (idx & H1 & H2 & H3).
      assert (Hin : In idx (filter (fun idx => sel_at mask (cell l idx)) (fibre (l_shape l) axes o))).
      { apply filter_In. split; [|exact H3]. apply (fibre_enumerates _ _ _ Hg Ho). auto. }
      intros ->. inversion Hx as [E|]. rewrite <- E in Hin. destruct Hin. }
  assert (HO : forall o xs, in_range osh o -> reads m l (filter (fun idx => sel_at mask (cell l idx)) (fibre (l_shape l) axes o)) xs -> xs <> [] ->
     (let! s := ofold (masked_step add mask m) (zero, 0) (map (cell l) (fibre (l_shape l) axes o)) in masked_fin fin s)
     = Ok (fin (fold_left add xs zero) (zlen xs))).
  { intros o xs Ho Hx Hne. rewrite (ofold_masked add mask m l _ xs) by (auto; intros idx Hin; apply Him; eapply fibre_range; eauto).
    cbn. unfold masked_fin. cbn. rewrite Z.add_0_l. replace (zlen xs =? 0) with false; [reflexivity|].
    symmetry. apply Z.eqb_neq. destruct xs; [congruence|unfold zlen; cbn; lia]. }
  destruct (omapM_exists (fun o => let! s0 := Ok (zero, 0) in let! s := ofold (masked_step add mask m) s0 (map (cell l) (fibre (l_shape l) axes o)) in masked_fin fin s)
     (all_indices osh)) as (vs & E & F).
  { intros o Ho. apply in_all_indices in Ho. destruct (HE o Ho) as (xs & Hx & Hne). cbn. rewrite (HO o xs Ho Hx Hne). eauto. }
  exists vs. rewrite E. cbn [obind]. split; [reflexivity|].
  destruct (dense_elt_nth osh vs _ (out_shape_nonneg _ _ Hn) F) as [HL HV]. split; [exact HL|].
  intros o Ho. destruct (HE o Ho) as (xs & Hx & Hne). exists (fibre (l_shape l) axes o), xs.
  split; [apply fibre_enumerates; auto|]. split; [exact Hx|]. split; [exact Hne|].
  destruct (HV o Ho) as (v & Ev & Pv). cbn [obind] in Pv. rewrite (HO o xs Ho Hx Hne) in Pv. congruence.
Qed.

Theorem masked_throws {A D V} (zero : D) (add : D -> A -> D) (fin : D -> Z -> V) junk l (m : mem A) lm mask axes :
  red_hyps m l axes -> l_shape l = l_shape lm -> inside l (zlen mask) ->
  (exists o, in_range (out_shape axes (l_shape l)) o /\
     forall idx, in_range (l_shape l) idx -> out_index axes idx = o -> sel_at mask (cell l idx) = false) ->
  nd_masked zero add fin junk l m lm mask axes = Throw RuntimeError.
Proof.
  intros (Hw & Hn & Hg & Hs & Hi) Hsh Him (o & Ho & Hnone). unfold nd_masked.
  destruct (same_shape_checks l lm Hsh) as [E1 E2]. rewrite E1, E2. cbn [negb].
  rewrite reduce_fibres by auto. set (osh := out_shape axes (l_shape l)) in *.
  assert (HO : forall o xs, in_range osh o -> reads m l (filter (fun idx => sel_at mask (cell l idx)) (fibre (l_shape l) axes o)) xs ->
     (let! s := ofold (masked_step add mask m) (zero, 0) (map (cell l) (fibre (l_shape l) axes o)) in masked_fin fin s)
     = if zlen xs =? 0 then Throw RuntimeError else Ok (fin (fold_left add xs zero) (zlen xs))).
  { intros o' xs Ho' Hx. rewrite (ofold_masked add mask m l _ xs) by (auto; intros idx Hin; apply Him; eapply fibre_range; eauto). cbn [obind]. unfold masked_fin. cbn [fst snd]. rewrite Z.add_0_l. reflexivity. }
  rewrite (omapM_throws _ RuntimeError); [reflexivity| |].
  - intros o' Ho'. apply in_all_indices in Ho'. cbn [obind].
    destruct (reads_exists m l (filter (fun idx => sel_at mask (cell l idx)) (fibre (l_shape l) axes o'))) as [xs Hx]; [|exact Hi|].
    + intros idx Hx. apply filter_In in Hx. eapply fibre_range; [exact Hg|exact Ho'|apply Hx].
    + rewrite (HO o' xs Ho' Hx). destruct (zlen xs =? 0); eauto.
  - exists o. split; [apply in_all_indices; exact Ho|]. cbn [obind]. rewrite (HO o [] Ho); [reflexivity|].
    replace (filter _ _) with (@nil (list Z)); [constructor|]. symmetry.
    destruct (fibre_enumerates _ _ _ Hg Ho) as [_ HF].
    assert (G : forall es, (forall idx, In idx es -> sel_at mask (cell l idx) = false) -> filter (fun idx => sel_at mask (cell l idx)) es = []).
    { induction es as [|e es IH]; intros H; cbn; auto. rewrite H by (left; auto). apply IH. intros; apply H; right; auto. }
    apply G. intros idx Hx. apply HF in Hx. apply Hnone; tauto.
Qed.

(** The result depends only on the selected data elements. *)
Theorem masked_depends {A D V} (zero : D) (add : D -> A -> D) (fin : D -> Z -> V) junk l (m m' : mem A) lm mask axes :
  red_hyps m l axes -> red_hyps m' l axes ->
  (forall idx, in_range (l_shape l) idx -> sel_at mask (cell l idx) = true -> elt m l idx = elt m' l idx) ->
  nd_masked zero add fin junk l m lm mask axes = nd_masked zero add fin junk l m' lm mask axes.
Proof.
  intros (Hw & Hn & Hg & Hs & Hi) (_ & _ & _ & _ & Hi') H. unfold nd_masked.
  destruct (negb _); [reflexivity|]. destruct (negb _); [reflexivity|].
  rewrite !reduce_fibres by auto. f_equal. apply omapM_ext_in. intros o Ho. apply in_all_indices in Ho. cbn [obind]. f_equal.
  assert (G : forall es s, (forall idx, In idx es -> in_range (l_shape l) idx) ->
    ofold (masked_step add mask m) s (map (cell l) es) = ofold (masked_step add mask m') s (map (cell l) es)).
  { induction es as [|e es IH]; intros s He; [reflexivity|]. cbn.
    assert (Es : masked_step add mask m s (cell l e) = masked_step add mask m' s (cell l e)).
    { unfold masked_step, load, zget. specialize (H e (He e (or_introl eq_refl))). unfold sel_at in H.
      destruct (znth mask (cell l e)) as [b|]; [|reflexivity]. cbn. destruct (b =? 0); [|reflexivity].
      specialize (H eq_refl). unfold elt in H. rewrite H. reflexivity. }
    rewrite Es. destruct (masked_step add mask m' s (cell l e)); cbn; auto. apply IH. intros; apply He; right; auto. }
  apply G. intros idx Hx. eapply fibre_range; eauto.
Qed.

Theorem masked_shape_mismatch {A D V} (zero : D) (add : D -> A -> D) (fin : D -> Z -> V) junk l (m : mem A) lm mask axes :
  l_shape l <> l_shape lm -> nd_masked zero add fin junk l m lm mask axes = Throw RuntimeError.
Proof.
  intros H. unfold nd_masked. destruct (shape_checks_fail l lm H) as [E|E]; rewrite E; cbn; [reflexivity|].
  destruct (ndim l =? ndim lm); reflexivity.
Qed.

(** ** median *)
Section Median.
Context {A : Type} (lt : A -> A -> bool).
Definition le (a b : A) : Prop := lt b a = false.
Hypothesis lt_irr : forall a, lt a a = false.
Hypothesis le_trans : forall a b c, le a b -> le b c -> le a c.
Hypothesis le_antisym : forall a b, le a b -> le b a -> a = b.

Lemma perm_filter_length (P : A -> bool) l l' : Permutation l l' -> length (filter P l) = length (filter P l').
Proof. induction 1; cbn; auto; repeat destruct (P _); cbn; auto; congruence. Qed.

Lemma filter_all (P : A -> bool) l : Forall (fun y => P y = true) l -> filter P l = l.
Proof. induction 1; cbn; auto. rewrite H. congruence. Qed.
Lemma filter_none (P : A -> bool) l : Forall (fun y => P y = false) l -> filter P l = [].
Proof. induction 1; cbn; auto. rewrite H. auto. Qed.
Lemma filter_le (P : A -> bool) l : (length (filter P l) <= length l)%nat.
Proof. induction l; cbn; auto. destruct (P a); cbn; lia. Qed.

Lemma nth_element_not_less l1 l2 n l1' l2' x y pre1 post1 pre2 post2 :
  Permutation l1 l2 -> Permutation l1 l1' -> Permutation l2 l2' ->
  l1' = pre1 ++ x :: post1 -> length pre1 = n -> Forall (fun z => lt x z = false) pre1 ->
  l2' = pre2 ++ y :: post2 -> length pre2 = n -> Forall (fun z => lt z y = false) post2 ->
  lt x y = false.
Proof.
  intros HP H1 H2 -> Hn Hpre -> Hn2 Hpost.
  destruct (lt x y) eqn:E; [exfalso|reflexivity].
  assert (C : length (filter (fun z => lt z y) (pre1 ++ x :: post1)) = length (filter (fun z => lt z y) (pre2 ++ y :: post2))).
  { apply perm_filter_length. rewrite <- H1, <- H2. exact HP. }
  rewrite !filter_app, !app_length in C. cbn in C. rewrite E, lt_irr in C. cbn in C.
  rewrite (filter_none _ post2 Hpost) in C. cbn in C.
  rewrite filter_all in C.
  - pose proof (filter_le (fun z => lt z y) pre2). lia.
  - rewrite Forall_forall in *. intros z Hz. specialize (Hpre z Hz).
    destruct (lt z y) eqn:Ez; [reflexivity|exfalso].
    (* y <= z and z <= x hence y <= x, against x < y *)
    assert (le y x) by (apply le_trans with z; [exact Ez|exact Hpre]). unfold le in H. congruence.
Qed.

Lemma nth_element_unique l1 l2 n l1' l2' : Permutation l1 l2 ->
  nth_element_post lt l1 n l1' -> nth_element_post lt l2 n l2' -> nth_error l1' n = nth_error l2' n.
Proof.
  intros HP (P1 & pre1 & x & post1 & E1 & L1 & A1 & B1) (P2 & pre2 & y & post2 & E2 & L2 & A2 & B2).
  assert (x = y).
  { apply le_antisym; unfold le.
    - eapply (nth_element_not_less l2 l1 n l2' l1' y x); eauto. symmetry. exact HP.
    - eapply (nth_element_not_less l1 l2 n l1' l2' x y); eauto. }
  subst x. rewrite E1, E2. rewrite !nth_error_app2 by lia.
  replace (n - length pre1)%nat with O by lia. replace (n - length pre2)%nat with O by lia. reflexivity.
Qed.

Lemma sorted_post s n : StronglySorted le s -> (n < length s)%nat -> nth_element_post lt s n s.
Proof.
  intros HS Hn. split; [apply Permutation_refl|].
  destruct (nth_error s n) as [x|] eqn:E; [|apply nth_error_None in E; lia].
  apply nth_error_split in E. destruct E as (pre & post & -> & HL). exists pre, x, post.
  split; [reflexivity|]. split; [exact HL|]. clear -HS le_trans.
  induction pre as [|p pre IH]; cbn in HS; inversion HS as [|? ? HS' HF]; subst.
  - split; [constructor|]. exact HF.
  - destruct (IH HS') as [I1 I2]. split; [|exact I2]. constructor; [|exact I1].
    rewrite Forall_forall in HF. apply HF. apply in_or_app. right. left. reflexivity.
Qed.

Theorem median_sorted half_sum l r s : median_run lt half_sum l r -> l <> [] -> Permutation l s -> StronglySorted le s ->
  exists hi, nth_error s (length s / 2) = Some hi /\
  (Nat.odd (length s) = true -> r = Ok hi) /\
  (Nat.odd (length s) = false -> exists lo, nth_error s (length s / 2 - 1) = Some lo /\ r = Ok (half_sum hi lo)).
Proof.
  intros HR Hne HP HS. destruct HR as [->|l1 l2 _ H1 H2]; [congruence|].
  pose proof (Permutation_length HP) as HL.
  assert (Hpos : (0 < length s)%nat) by (destruct s; [apply Permutation_length in HP; destruct l; [congruence|discriminate]|cbn; lia]).
  assert (Hlt : (length s / 2 < length s)%nat) by (apply Nat.div_lt; lia).
  assert (HPl1 : Permutation l l1) by apply H1.
  pose proof (Permutation_length HPl1) as HL1.
  rewrite HL in H1, H2.
  pose proof (nth_element_unique l s _ l1 s HP H1 (sorted_post s _ HS Hlt)) as E1.
  destruct (nth_error s (length s / 2)) as [hi|] eqn:Ehi; [|apply nth_error_None in Ehi; lia].
  exists hi. split; [reflexivity|]. unfold median_value. rewrite <- HL1, HL, E1.
  unfold Nat.odd. destruct (Nat.even (length s)) eqn:Ee; cbn [negb]; (split; [intros; try discriminate|intros; try discriminate]).
  - assert (Hlt2 : (length s / 2 - 1 < length s)%nat) by lia.
    pose proof (nth_element_unique l1 s _ l2 s (Permutation_trans (Permutation_sym HPl1) HP) H2 (sorted_post s _ HS Hlt2)) as E2.
    rewrite E2. destruct (nth_error s (length s / 2 - 1)) as [lo|] eqn:Elo; [|apply nth_error_None in Elo; lia].
    exists lo. auto.
  - reflexivity.
Qed.

Theorem median_order_independent half_sum l l' r r' : median_run lt half_sum l r -> median_run lt half_sum l' r' -> Permutation l l' -> r = r'.
Proof.
  intros H H' HP. pose proof (Permutation_length HP) as HL.
  destruct H as [->|l1 l2 Hne A1 A2]; destruct H' as [->|l1' l2' Hne' B1 B2]; auto.
  - apply Permutation_nil in HP. congruence.
  - apply Permutation_sym, Permutation_nil in HP. congruence.
  - rewrite <- HL in B1, B2.
    pose proof (nth_element_unique _ _ _ _ _ HP A1 B1) as E1.
    destruct A1 as [PA A1]. destruct B1 as [PB B1].
    unfold median_value. rewrite <- (Permutation_length PA), <- (Permutation_length PB), <- HL, E1.
    destruct (nth_error l1' (length l / 2)); [|reflexivity].
    destruct (Nat.even (length l)); [|reflexivity].
    rewrite (nth_element_unique l1 l1' _ l2 l2' (Permutation_trans (Permutation_sym PA) (Permutation_trans HP PB)) A2 B2). reflexivity.
Qed.
End Median.

(** ** arange, linspace *)
Lemma znth_map_zrange {A} (f : Z -> A) n i : 0 <= i < n -> znth (map f (zrange n)) i = Some (f i).
Proof.
  intros H. unfold znth. replace (i <? 0) with false by lia. rewrite nth_error_map, nth_error_zrange by exact H. reflexivity.
Qed.

Theorem arange_progression start stop step : 0 < step -> start <= stop ->
  exists vs, arange start stop step = Ok vs /\ zlen vs = (stop - start) / step /\
    (forall i, 0 <= i < zlen vs -> znth vs i = Some (start + step * i)) /\
    (forall v, In v vs -> start <= v < stop).
Proof.
  intros Hs Hle. unfold arange. replace (step =? 0) with false by lia.
  rewrite Z.quot_div_nonneg by lia. pose proof (Z.div_pos (stop - start) step ltac:(lia) Hs) as Hq.
  replace ((stop - start) / step <? 0) with false by lia.
  eexists. split; [reflexivity|].
  assert (HL : zlen (map (fun ii => start + step * ii) (zrange ((stop - start) / step))) = (stop - start) / step).
  { pose proof (zrange_length ((stop - start) / step)). unfold zlen in *. rewrite map_length. lia. }
  split; [exact HL|]. rewrite HL. split; [intros i Hi; exact (znth_map_zrange (fun ii => start + step * ii) _ i Hi)|].
  intros v Hv. apply in_map_iff in Hv. destruct Hv as (i & <- & Hi). apply in_zrange in Hi.
  pose proof (Z.mul_div_le (stop - start) step Hs). nia.
Qed.

Theorem arange_complete start stop step : 0 < step -> start <= stop ->
  ((forall i, 0 <= i -> start + step * i < stop -> exists vs, arange start stop step = Ok vs /\ In (start + step * i) vs)
   <-> (stop - start) mod step = 0).
Proof.
  intros Hs Hle. unfold arange. replace (step =? 0) with false by lia.
  rewrite Z.quot_div_nonneg by lia. pose proof (Z.div_pos (stop - start) step ltac:(lia) Hs) as Hq.
  replace ((stop - start) / step <? 0) with false by lia.
  pose proof (Z.div_mod (stop - start) step ltac:(lia)) as Hd. pose proof (Z.mod_pos_bound (stop - start) step Hs) as Hb.
  set (q := (stop - start) / step) in *. set (r := (stop - start) mod step) in *. clearbody q r. split.
  - intros H. destruct (Z.eq_dec r 0) as [Hr|Hr]; [exact Hr|exfalso].
    destruct (H q Hq ltac:(lia)) as (vs & E & Hin). apply Ok_inj in E. subst vs.
    apply in_map_iff in Hin. destruct Hin as (i & E & Hi). apply in_zrange in Hi. nia.
  - intros Hr i Hi Hlt. eexists. split; [reflexivity|]. apply in_map_iff. exists i. split; [reflexivity|]. apply in_zrange. nia.
Qed.

Theorem linspace_int32_ascending start stop n : 0 < n -> - 2 ^ 31 <= start -> start <= stop -> stop < 2 ^ 31 ->
  exists vs, linspace_int32 start stop n = Ok vs /\ zlen vs = n /\
    forall i, 0 <= i < n -> znth vs i = Some (start + (stop - start) / n * i).
Proof.
  intros Hn H1 H2 H3. unfold linspace_int32. replace (n =? 0) with false by lia.
  eexists. split; [reflexivity|]. split.
  - pose proof (zrange_length n). unfold zlen in *. rewrite map_length. lia.
  - intros i Hi. rewrite znth_map_zrange by exact Hi. f_equal.
    rewrite (Z.mod_small (stop - start)) by lia.
    pose proof (Z.mul_div_le (stop - start) n Hn). pose proof (Z.div_pos (stop - start) n ltac:(lia) Hn).
    set (q := (stop - start) / n) in *. clearbody q.
    assert (0 <= q * i <= stop - start) by nia.
    unfold to_int32. rewrite Zplus_mod_idemp_l.
    assert (E : forall x, (x mod 2 ^ 64 + 2 ^ 31) mod 2 ^ 32 = (x + 2 ^ 31) mod 2 ^ 32).
    { intros x. change (2 ^ 64) with (2 ^ 32 * 2 ^ 32). rewrite Z.rem_mul_r by lia.
      replace (x mod 2 ^ 32 + 2 ^ 32 * ((x / 2 ^ 32) mod 2 ^ 32) + 2 ^ 31) with (x mod 2 ^ 32 + 2 ^ 31 + (x / 2 ^ 32) mod 2 ^ 32 * 2 ^ 32) by ring.
      rewrite Z.mod_add by lia. apply Zplus_mod_idemp_l. }
    rewrite E, Z.mod_small by lia. lia.
Qed.

Theorem linspace_rational (start stop : Q) n i x : 0 < n ->
  znth (linspace Qminus Qdiv Qmult Qplus inject_Z start stop n) i = Some x ->
  (x == start + (stop - start) * (inject_Z i / inject_Z n))%Q.
Proof.
  intros Hn H. pose proof (znth_bounds _ _ _ H) as Hb. unfold linspace in *.
  assert (HL : 0 <= i < n).
  { unfold zlen in Hb. rewrite map_length in Hb. pose proof (zrange_length n). unfold zlen in *. lia. }
  rewrite znth_map_zrange in H by exact HL. injection H as <-.
  assert (~ inject_Z n == 0)%Q by (intros C; unfold Qeq in C; cbn in C; lia).
  field. assumption.
Qed.

(** ** Device strings *)
Lemma strip_app p r : strip p (p ++ r)%string = Some r.
Proof. induction p as [|c p IH]; cbn; [reflexivity|]. rewrite Ascii.eqb_refl. exact IH. Qed.
Lemma strip_some p s r : strip p s = Some r -> s = (p ++ r)%string.
Proof.
  revert s; induction p as [|c p IH]; intros s H; cbn in *; [congruence|].
  destruct s as [|d s]; [discriminate|]. destruct (Ascii.eqb c d) eqn:E; [|discriminate].
  apply Ascii.eqb_eq in E. subst. rewrite <- (IH s H). reflexivity.
Qed.

Definition digit_char (d : Z) : ascii := ascii_of_nat (Z.to_nat (d + 48)).
Fixpoint digit_string (ds : list Z) (rest : string) : string :=
  match ds with [] => rest | d :: r => String (digit_char d) (digit_string r rest) end.
(** Value of a decimal numeral. *)
Definition decimal (ds : list Z) : Z := fold_left (fun a d => a * 10 + d) ds 0.

Lemma digit_of_char d : 0 <= d < 10 -> digit_of (digit_char d) = Some d.
Proof.
  intros H. unfold digit_of, digit_char. rewrite nat_ascii_embedding by lia.
  replace ((48 <=? Z.to_nat (d + 48))%nat && (Z.to_nat (d + 48) <=? 57)%nat)%bool with true by lia. f_equal. lia.
Qed.
Lemma scan_digit_string ds rest acc : Forall (fun d => 0 <= d < 10) ds -> starts_with_digit rest = false ->
  scan_digits (digit_string ds rest) acc = fold_left (fun a d => a * 10 + d) ds acc.
Proof.
  intros H Hr; revert acc; induction H as [|d ds Hd H IH]; intros acc; cbn.
  - destruct rest as [|c rest]; [reflexivity|]. cbn in *. destruct (digit_of c); [discriminate|reflexivity].
  - rewrite digit_of_char by exact Hd. apply IH.
Qed.

Lemma digit_char_not_space d : 0 <= d < 10 -> is_space (digit_char d) = false.
Proof. intros H. unfold is_space, digit_char. rewrite nat_ascii_embedding by lia. lia. Qed.

Lemma digit_char_not_sign d c : 0 <= d < 10 -> (nat_of_ascii c < 48)%nat -> digit_char d <> c.
Proof. intros H Hc E. subst c. unfold digit_char in Hc. rewrite nat_ascii_embedding in Hc by lia. lia. Qed.

Lemma stoi_digits ds rest : ds <> [] -> Forall (fun d => 0 <= d < 10) ds -> starts_with_digit rest = false -> decimal ds < 2 ^ 31 ->
  stoi (digit_string ds rest) = Ok (decimal ds).
Proof.
  intros Hne H Hr Hlt. destruct ds as [|d ds]; [congruence|]. inversion H as [|? ? Hd H']; subst.
  unfold stoi.
  assert (Es : skip_spaces (digit_string (d :: ds) rest) = digit_string (d :: ds) rest) by (cbn; rewrite digit_char_not_space by exact Hd; reflexivity).
  rewrite Es.
  assert (E2 : match digit_string (d :: ds) rest with
               | String "-"%char r => (-1, r)
               | String "+"%char r => (1, r)
               | _ => (1, digit_string (d :: ds) rest)
               end = (1, digit_string (d :: ds) rest)).
  { assert (Hd2 : d = 0 \/ d = 1 \/ d = 2 \/ d = 3 \/ d = 4 \/ d = 5 \/ d = 6 \/ d = 7 \/ d = 8 \/ d = 9) by lia.
    clear -Hd2. repeat (destruct Hd2 as [->|Hd2]; [reflexivity|]). subst d. reflexivity. }
  rewrite E2. cbn [starts_with_digit digit_string]. rewrite digit_of_char by exact Hd.
  change (String (digit_char d) (digit_string ds rest)) with (digit_string (d :: ds) rest).
  rewrite scan_digit_string by auto. change (fold_left (fun a d0 => a * 10 + d0) (d :: ds) 0) with (decimal (d :: ds)).
  rewrite Z.mul_1_l.
  assert (0 <= decimal (d :: ds)).
  { unfold decimal. clear -H. assert (G : forall l a, Forall (fun d => 0 <= d < 10) l -> 0 <= a -> 0 <= fold_left (fun a d => a * 10 + d) l a).
    { induction l; intros; cbn; auto. inversion H0; subst. apply IHl; auto. lia. }
    apply G; [exact H|lia]. }
  replace ((decimal (d :: ds) <? - 2 ^ 31) || (2 ^ 31 - 1 <? decimal (d :: ds)))%bool with false by lia. reflexivity.
Qed.

Theorem parse_cuda_id ds : ds <> [] -> Forall (fun d => 0 <= d < 10) ds -> decimal ds < 2 ^ 31 ->
  parse_dev ("cuda:" ++ digit_string ds "")%string = Ok (Dev DevCUDA (decimal ds)).
Proof. intros H1 H2 H3. cbn -[stoi decimal]. rewrite stoi_digits by auto. reflexivity. Qed.

Theorem parse_dev_ok_iff s d : parse_dev s = Ok d ->
  (s = "cpu"%string /\ d = Dev DevCPU 0) \/
  (exists r, s = ("cuda" ++ r)%string /\
     ((exists t i, r = String ":" t /\ stoi t = Ok i /\ d = Dev DevCUDA i) \/
      ((forall t, r <> String ":" t) /\ d = Dev DevCUDA 0))).
Proof.
  unfold parse_dev. destruct (String.eqb s "cpu") eqn:E; [intros H; apply String.eqb_eq in E; left; split; [exact E|congruence]|].
  destruct (strip "cuda" s) as [r|] eqn:E1.
  - intros H. right. exists r. split; [apply strip_some; exact E1|].
    unfold dev_suffix in H. destruct r as [|c r]; [right; split; [discriminate|congruence]|].
    destruct (Ascii.ascii_dec c ":") as [->|Hc].
    + destruct (stoi r) as [i| |] eqn:Ei; try discriminate. cbn in H. left. exists r, i. split; [reflexivity|]. split; [auto|congruence].
    + right. split; [congruence|].
      assert (Hr : Ok (Dev DevCUDA 0) = Ok d); [|congruence]. rewrite <- H.
      clear -Hc. destruct c as [[] [] [] [] [] [] [] []]; try reflexivity. congruence.
  - destruct (strip "cudamanaged" s) as [r|] eqn:E2.
    + apply strip_some in E2. subst s. exfalso. cbn in E1. discriminate.
    + destruct (strip "cudahost" s) as [r|] eqn:E3; [|discriminate].
      apply strip_some in E3. subst s. cbn in E1. discriminate.
Qed.

Theorem parse_dev_other s : s <> "cpu"%string -> (forall r, s <> ("cuda" ++ r)%string) -> parse_dev s = Throw RuntimeError.
Proof.
  intros H1 H2. unfold parse_dev. destruct (String.eqb s "cpu") eqn:E; [apply String.eqb_eq in E; contradiction|].
  destruct (strip "cuda" s) as [r|] eqn:E1; [apply strip_some in E1; elim (H2 r E1)|].
  destruct (strip "cudamanaged" s) as [r|] eqn:E2; [apply strip_some in E2; elim (H2 ("managed" ++ r)%string); exact E2|].
  destruct (strip "cudahost" s) as [r|] eqn:E3; [apply strip_some in E3; elim (H2 ("host" ++ r)%string); exact E3|]. reflexivity.
Qed.

Theorem parse_dev_shadowed r : parse_dev ("cudamanaged" ++ r)%string = Ok (Dev DevCUDA 0) /\ parse_dev ("cudahost" ++ r)%string = Ok (Dev DevCUDA 0).
Proof. split; reflexivity. Qed.
