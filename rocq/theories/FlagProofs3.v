(** Proofs about noise estimates, sigma clipping, preprocessing and the exact kurtosis. *)
From Coq Require Import Reals Lra Permutation.
From Verif Require Import RedProofs3 NdProofs2.
From Verif Require Export FlagProofs2.
From Coq Require Import ZifyBool.
Local Open Scope Z_scope.
Local Open Scope list_scope.

(** ** Noise estimates *)
Lemma correct_mask_spec jz mask sh m : arr_is mask sh m -> small sh ->
  correct_mask jz mask = if existsb (fun i => m i =? 0) (all_indices sh) then Ok tt else Throw RuntimeError.
Proof.
  intros A Sm. unfold correct_mask, compare_scalar.
  destruct (scalar_is (fun x t => u8_of_bool (x =? t)) jz mask sh m 0 A Sm) as (e & E & _ & _ & (W & S1 & I & H)). rewrite E. cbn [obind].
  destruct (count_correct (fun x => negb (x =? 0)) (fst e) (snd e) W) as (xs & R & C1); [now rewrite S1|exact I|]. rewrite C1. cbn [obind].
  rewrite S1 in R. pose proof (reads_map _ _ _ _ _ R (fun i Hi => H i (proj1 (in_all_indices sh i) Hi))) as X. subst xs. clear R C1.
  assert (Q : zlen (filter (fun x => negb (x =? 0)) (map (fun i => u8_of_bool (m i =? 0)) (all_indices sh))) =? 0 =
    negb (existsb (fun i => m i =? 0) (all_indices sh))).
  { induction (all_indices sh) as [|i l IH]; [reflexivity|]. cbn [map filter existsb]. unfold u8_of_bool at 1. destruct (m i =? 0); cbn [negb Z.eqb orb].
    - unfold zlen. cbn [List.length]. lia.
    - exact IH. }
  rewrite Q. destruct (existsb _ _); reflexivity.
Qed.

Section Noise.
Context {A D : Type} (zero : D) (add : D -> A -> D) (fin : D -> Z -> A * A) (acc1 acc2 : D -> A -> D) (fin2 : D -> D -> A * A).

(** The mask keeps only its zero pattern. *)
Lemma masked_mask_depends junk l (m : mem A) lm mask mask' axes : red_hyps m l axes ->
  (forall idx, in_range (l_shape l) idx -> exists b b', elt mask l idx = Some b /\ elt mask' l idx = Some b' /\ (b =? 0) = (b' =? 0)) ->
  nd_masked zero add fin junk l m lm mask axes = nd_masked zero add fin junk l m lm mask' axes.
Proof.
  intros (Hw & Hn & Hg & Hs & Hi) H. unfold nd_masked.
  destruct (negb _); [reflexivity|]. destruct (negb _); [reflexivity|].
  rewrite !reduce_fibres by auto. f_equal. apply omapM_ext_in. intros o Ho. apply in_all_indices in Ho. cbn [obind]. f_equal.
  assert (G : forall es s, (forall idx, In idx es -> in_range (l_shape l) idx) ->
    ofold (masked_step add mask m) s (map (cell l) es) = ofold (masked_step add mask' m) s (map (cell l) es)).
  { induction es as [|e es IH]; intros s He; [reflexivity|]. cbn.
    assert (Es : masked_step add mask m s (cell l e) = masked_step add mask' m s (cell l e)).
    { destruct (H e (He e (or_introl eq_refl))) as (b & b' & X & Y & Q). unfold elt in X, Y.
      unfold masked_step, load, zget. rewrite X, Y. cbn [obind]. now rewrite Q. }
    rewrite Es. destruct (masked_step add mask' m s (cell l e)); cbn; auto. apply IH. intros; apply He; right; auto. }
  apply G. intros idx Hx. eapply fibre_range; eauto.
Qed.

Definition on_grid {X} (sh : list Z) (m : mem X) (f : list Z -> X) : Prop := zlen m = zprod sh /\ arr_is (dense sh, m) sh f.

Lemma grid_hyps {X} sh (m : mem X) f : small sh -> on_grid sh m f -> red_hyps m (dense sh) [].
Proof.
  intros [Sn Sl] (L & W & _ & I & _). split; [exact W|]. split; [exact Sn|]. split; [split; constructor|]. split; [|exact I].
  change (zprod _) with 1. lia.
Qed.

Lemma sel_grid sh mask m i : on_grid sh mask m -> in_range sh i -> sel_at mask (cell (dense sh) i) = (m i =? 0).
Proof. intros (_ & _ & _ & _ & E) R. specialize (E i R). cbn [fst snd] in E. unfold elt in E. unfold sel_at. now rewrite E. Qed.

Lemma noise_masked_spec junk jz sh data mask d m : small sh -> on_grid sh data d -> on_grid sh mask m ->
  (forall i, in_range sh i -> m i <> 0) /\
    (forall me, estimate_noise zero add fin acc1 acc2 fin2 junk jz true me (dense sh, data) (dense sh, mask) = Throw RuntimeError) \/
  (exists i, in_range sh i /\ m i = 0) /\
    exists r es v, estimate_noise zero add fin acc1 acc2 fin2 junk jz true Stddev (dense sh, data) (dense sh, mask) = Ok (Some (dense [1], r)) /\
      znth r 0 = Some v /\ zlen r = 1 /\ Permutation es (all_indices sh) /\
      v = (let xs := map d (filter (fun i => m i =? 0) es) in fin (fold_left add xs zero) (zlen xs)).
Proof.
  intros Sm Gd Gm. unfold estimate_noise. cbn [fst snd]. destruct Gm as [Lm Am]. rewrite (correct_mask_spec jz _ sh m Am Sm).
  pose proof (conj Lm Am : on_grid sh mask m) as Gm.
  destruct (existsb (fun i => m i =? 0) (all_indices sh)) eqn:Ex.
  - right. apply existsb_exists in Ex. destruct Ex as (i & Hi & Hz). apply in_all_indices in Hi. split; [exists i; split; [exact Hi|lia]|]. cbn [obind].
    destruct (masked_exact zero add fin junk (dense sh) data (dense sh) mask []) as (vs & R & L & V').
    + eapply grid_hyps; eauto.
    + reflexivity.
    + rewrite Lm. apply dense_inside.
    + intros o Ho. exists i. split; [exact Hi|]. split; [|rewrite (sel_grid sh mask m) by assumption; exact Hz].
      change (out_shape [] _) with [1] in Ho. apply in_range1 in Ho. destruct Ho as (c & -> & Hc). assert (c = 0) by lia. subst. reflexivity.
    + change (out_shape [] (l_shape (dense sh))) with [1] in R, L, V'. rewrite R. cbn [omap].
      destruct (V' [0]) as (es & xs & En & Rd & _ & EV). { apply in_range1. exists 0. split; [reflexivity|lia]. }
      change (l_shape (dense sh)) with sh in En.
      assert (X : xs = map d (filter (fun i => m i =? 0) es)).
      { assert (Q : filter (fun idx => sel_at mask (cell (dense sh) idx)) es = filter (fun i => m i =? 0) es).
        { apply filter_ext_in. intros j Hj. apply sel_grid; [exact Gm|]. apply En in Hj. apply Hj. }
        rewrite Q in Rd. eapply reads_map; [exact Rd|]. intros j Hj. apply filter_In in Hj. destruct Gd as (_ & _ & _ & _ & E). apply E.
        apply En, Hj. }
      exists vs, es, (fin (fold_left add xs zero) (zlen xs)). split; [reflexivity|]. split; [exact EV|]. split; [exact L|]. split; [|now rewrite X].
      apply NoDup_Permutation; [apply En|apply all_indices_nodup|]. intros j. rewrite in_all_indices. destruct En as [_ En]. rewrite En. split; [tauto|].
      intros Hj. split; [exact Hj|reflexivity].
  - left. split; [|reflexivity]. intros i Hi Hz. rewrite <- not_true_iff_false, existsb_exists in Ex. apply Ex. exists i.
    split; [apply in_all_indices, Hi|lia].
Qed.

Lemma noise_depends junk jz sh me data data' mask mask' d d' m m' : small sh ->
  on_grid sh data d -> on_grid sh data' d' -> on_grid sh mask m -> on_grid sh mask' m' ->
  (forall i, in_range sh i -> (m i =? 0) = (m' i =? 0)) ->
  (forall i, in_range sh i -> m i = 0 -> d i = d' i) ->
  estimate_noise zero add fin acc1 acc2 fin2 junk jz true me (dense sh, data) (dense sh, mask) =
  estimate_noise zero add fin acc1 acc2 fin2 junk jz true me (dense sh, data') (dense sh, mask').
Proof.
  intros Sm Gd Gd' Gm Gm' Hm Hd. unfold estimate_noise. cbn [fst snd].
  rewrite (correct_mask_spec jz _ sh m (proj2 Gm) Sm), (correct_mask_spec jz _ sh m' (proj2 Gm') Sm).
  replace (existsb (fun i => m' i =? 0) (all_indices sh)) with (existsb (fun i => m i =? 0) (all_indices sh)).
  2:{ assert (G : forall l, (forall i, In i l -> in_range sh i) -> existsb (fun i => m i =? 0) l = existsb (fun i => m' i =? 0) l).
      { induction l as [|x l IH]; intros Hl; [reflexivity|]. cbn. rewrite IH by (intros; apply Hl; now right). now rewrite Hm by (apply Hl; now left). }
      apply G. intros i. apply in_all_indices. }
  destruct (existsb _ _); [|reflexivity]. cbn [obind]. destruct me; [|reflexivity]. f_equal.
  rewrite (masked_depends zero add fin junk (dense sh) data data' (dense sh) mask []).
  - apply masked_mask_depends; [eapply grid_hyps; eauto|]. intros i R. change (in_range sh i) in R. exists (m i), (m' i).
    destruct Gm as (_ & _ & _ & _ & E1), Gm' as (_ & _ & _ & _ & E2). split; [apply E1, R|]. split; [apply E2, R|apply Hm, R].
  - eapply grid_hyps; eauto.
  - eapply grid_hyps; eauto.
  - intros i R S1. change (in_range sh i) in R. rewrite (sel_grid sh mask m) in S1 by assumption.
    destruct Gd as (_ & _ & _ & _ & E1), Gd' as (_ & _ & _ & _ & E2). cbn [fst snd] in E1, E2. rewrite E1, E2 by exact R. f_equal. apply Hd; [exact R|lia].
Qed.
End Noise.

(** ** Sigma clipping *)
Lemma sigmaclip_throws {A D} (zero : D) (add : D -> A -> D) fin junk t data clip : mask_refused t = true ->
  flag_sigmaclip_array zero add fin junk t data clip = Throw RuntimeError.
Proof. intros H. unfold flag_sigmaclip_array, masked_mean_stddev. now rewrite H. Qed.
Lemma sigmaclip_integer {A D} (zero : D) (add : D -> A -> D) fin junk t data clip : mask_refused t = false -> zprod (l_shape (fst data)) <> 0 ->
  flag_sigmaclip_array zero add fin junk t data clip = UB.
Proof.
  intros H Hz. unfold flag_sigmaclip_array, masked_mean_stddev. rewrite H. destruct t; try discriminate H;
    replace (zprod (l_shape (fst data)) =? 0) with false by lia; reflexivity.
Qed.

(** ** Preprocessing *)
Lemma bcast_self s : bcast_shape s s = Ok s.
Proof. induction s as [|d s IH]; [reflexivity|]. cbn. rewrite Z.eqb_refl. cbn [orb]. rewrite IH. reflexivity. Qed.

Lemma normalize_ub {F} (O : numops F) lowest junk data T C f : arr_is data [T; C] f -> 1 <= T -> 1 <= C ->
  normalize O lowest junk data = UB.
Proof.
  intros (W & S1 & I & E) HT HC. unfold normalize.
  assert (RH : red_hyps (snd data) (fst data) []).
  { split; [exact W|]. split; [rewrite S1; repeat constructor; lia|]. split; [split; constructor|]. split; [|exact I].
    change (zprod _) with 1. lia. }
  unfold nd_max.
  destruct (reduce_total (fun _ => lowest) (fun s x => if o_lt O s x then x else s) (fun s => s) junk (snd data) (fst data) []
     (fun _ => Ok lowest) RH ltac:(reflexivity)) as (vs & R & _).
  assert (Q : reduce (fun _ => Ok lowest) (max_step (fun a b => o_lt O b a) (snd data)) (fun s => Ok s) junk (fst data) [] = Ok (dense [1], vs)) by exact R.
  rewrite Q. cbn [obind fst snd]. unfold expand_op. rewrite S1. change (l_shape (dense [1])) with [1].
  assert (X : expand_shapes [T; C] [1] = Ok [T; C]).
  { unfold expand_shapes. change (Nat.max _ _) with 2%nat. change (pad1 (rev [T; C]) 2) with [C; T]. change (pad1 (rev [1]) 2) with [1; 1].
    cbn [expand_loop]. change (1 =? 1) with true. cbn [negb andb]. rewrite !andb_false_r. cbn [obind rev app]. rewrite !Z.max_l by lia. reflexivity. }
  rewrite X. cbn [obind]. unfold binary_op, ndim. rewrite S1. change (l_shape (dense [1])) with [1]. change (l_shape (dense [T; C])) with [T; C].
  change (zlen [T; C] =? zlen [1]) with false. cbn [andb]. unfold bcast_strides. change (List.length [T; C] <=? List.length [T; C])%nat with true.
  change (List.length [1] <=? List.length [T; C])%nat with true. cbv iota. cbn [obind]. rewrite bcast_self. cbn [obind].
  cbn [bcast_shape]. change (1 =? 1) with true. rewrite orb_true_r. reflexivity.
Qed.

Lemma equalize_spec {F} (O : numops F) junk data h T C f g : arr_is data [T; C] f -> arr_is h [C] g ->
  1 <= T -> 1 <= C -> T * C < 2 ^ 31 -> C <> 1 -> C <> T ->
  exists r, equalize O junk data h = Ok r /\ fst r = dense [T; C] /\ arr_is r [T; C] (fun i => o_div O (f i) (g [nth 1 i 0])).
Proof.
  intros A B HT HC Hb H1 H2. unfold equalize.
  destruct (expand_is (o_div O) junk data h [T; C] [C] [T; C] f g A B) as (r & E & D & _ & H).
  - repeat constructor; lia.
  - repeat constructor; lia.
  - unfold expand_shapes. change (Nat.max _ _) with 2%nat. change (pad1 (rev [T; C]) 2) with [C; T]. change (pad1 (rev [C]) 2) with [C; 1].
    cbn [expand_loop]. rewrite Z.eqb_refl. change (1 =? 1) with true. cbn [negb andb]. rewrite andb_false_r. cbn [obind rev app].
    rewrite Z.max_id, Z.max_l by lia. reflexivity.
  - discriminate.
  - change (zprod [T; C]) with (T * (C * 1)). lia.
  - now left.
  - right. exists C, []. split; [reflexivity|]. split; [exact H1|]. cbn. intros [Q|[]]. lia.
  - exists r. split; [exact E|]. split; [exact D|]. eapply arr_is_ext; [|exact H]. intros i R. cbn beta. rewrite bidx_same by exact R.
    f_equal. apply in_range2 in R. destruct R as (t & c & -> & Ht & Hc). unfold bidx. cbn -[Z.eqb]. replace (C =? 1) with false by lia. reflexivity.
Qed.

Lemma equalize_ub {F} (O : numops F) junk data h T C f g : arr_is data [T; C] f -> arr_is h [C] g ->
  1 <= T -> 1 <= C -> C = 1 \/ C = T -> equalize O junk data h = UB.
Proof.
  intros (W & S1 & I & E) (W2 & S2 & I2 & E2) HT HC H. unfold equalize, expand_op. rewrite S1, S2.
  assert (X : expand_shapes [T; C] [C] = Ok [T; C]).
  { unfold expand_shapes. change (Nat.max _ _) with 2%nat. change (pad1 (rev [T; C]) 2) with [C; T]. change (pad1 (rev [C]) 2) with [C; 1].
    cbn [expand_loop]. rewrite Z.eqb_refl. change (1 =? 1) with true. cbn [negb andb]. rewrite andb_false_r. cbn [obind rev app].
    rewrite Z.max_id, Z.max_l by lia. reflexivity. }
  rewrite X. cbn [obind]. unfold binary_op, ndim. rewrite S1, S2. change (l_shape (dense [T; C])) with [T; C].
  change (zlen [T; C] =? zlen [C]) with false. cbn [andb]. unfold bcast_strides. change (List.length [T; C] <=? List.length [T; C])%nat with true.
  change (List.length [C] <=? List.length [T; C])%nat with true. cbv iota. cbn [obind]. rewrite bcast_self. cbn [obind].
  cbn [bcast_shape]. replace ((C =? T) || (C =? 1)) with true by lia. reflexivity.
Qed.
