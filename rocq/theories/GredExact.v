(** The whole GPU reduction: every output holds a combination of its unmasked elements, each taken once. *)
From Verif Require Export GredGrid RedProofs3.
From Coq Require Import ZifyBool ZifyNat.
Ltac Zify.zify_post_hook ::= Z.div_mod_to_equations.
Local Open Scope Z_scope.

(** ** The elements of an output *)
Lemma all_red n axes : 0 <= n -> good_axes n axes -> all_if_nil n (red_axes n (all_if_nil n axes)) = red_axes n (all_if_nil n axes).
Proof.
  intros Hn Hg. destruct (red_axes n (all_if_nil n axes)) as [|d r] eqn:E; [|reflexivity]. cbn.
  destruct (Z.eq_dec n 0) as [->|H]; [reflexivity|]. exfalso.
  assert (G : good_axes n (all_if_nil n axes)) by now apply good_all_if_nil.
  assert (Hin : exists d, In d (all_if_nil n axes) /\ 0 <= d < n).
  { destruct axes as [|d r]; cbn [all_if_nil].
    - exists 0. rewrite in_zrange. lia.
    - exists d. destruct Hg as (_ & F). inversion F; subst. split; [now left|auto]. }
  destruct Hin as (d & H1 & H2). assert (In d (red_axes n (all_if_nil n axes))) as HI by (apply in_red; auto). rewrite E in HI. destruct HI.
Qed.
Lemma pos_enum sh axes i : posl sh -> good_axes (zlen sh) axes -> 0 <= i < zprod (out_shape axes sh) ->
  enumerates sh axes (oix (out_shape axes sh) i) (map (pos sh (all_if_nil (zlen sh) axes) i) (zrange (zprod (rdims sh (all_if_nil (zlen sh) axes))))).
Proof.
  intros HP Hg Hi. set (ax := all_if_nil (zlen sh) axes). rewrite pos_fibre by exact HP.
  assert (Hn : 0 <= zlen sh) by (unfold zlen; lia).
  assert (EA : all_if_nil (zlen sh) (red_axes (zlen sh) ax) = red_axes (zlen sh) ax) by (apply all_red; auto).
  assert (EK : kept_axes (zlen sh) (red_axes (zlen sh) ax) = kept_axes (zlen sh) ax) by apply kept_red.
  assert (HO : posl (out_shape axes sh)).
  { destruct (out_shape_cases sh axes) as [(_ & -> & _)|(_ & -> & _)]; [constructor; [lia|constructor]|].
    apply posl_sub; [exact HP|apply kept_inr]. }
  pose proof (oix_range (out_shape axes sh) i HO) as Hr.
  assert (ES : out_shape (red_axes (zlen sh) ax) sh = out_shape axes sh).
  { destruct (out_shape_cases sh axes) as [(K1 & S1 & _)|(K1 & S1 & _)], (out_shape_cases sh (red_axes (zlen sh) ax)) as [(K2 & S2 & _)|(K2 & S2 & _)];
    rewrite EA, EK in K2; fold ax in K1; try congruence. rewrite S1, S2, EA, EK. reflexivity. }
  assert (EI : forall idx, length idx = length sh -> out_index (red_axes (zlen sh) ax) idx = out_index axes idx).
  { intros idx HL. destruct (out_shape_cases sh axes) as [(K1 & _ & S1)|(K1 & _ & S1)], (out_shape_cases sh (red_axes (zlen sh) ax)) as [(K2 & _ & S2)|(K2 & _ & S2)];
    rewrite EA, EK in K2; fold ax in K1; try congruence; rewrite S1, S2 by exact HL; [reflexivity|]. now rewrite EA, EK. }
  pose proof (fibre_enumerates sh (red_axes (zlen sh) ax) (oix (out_shape axes sh) i) (good_red _ _)) as F.
  rewrite ES in F. specialize (F Hr). unfold fibre in F. rewrite EA, EK in F.
  replace (base_of sh (kept_axes (zlen sh) ax) (rev (digits (rev (kdims sh ax)) i))) with (base_of sh (kept_axes (zlen sh) ax) (oix (out_shape axes sh) i)).
  - destruct F as (F1 & F2). split; [exact F1|]. intros idx. rewrite F2. split; intros (H1 & H2); (split; [exact H1|]); [rewrite <- EI|rewrite EI]; auto; now apply in_range_length.
  - destruct (out_shape_cases sh axes) as [(K1 & S1 & _)|(K1 & S1 & _)]; fold ax in K1.
    + rewrite K1. reflexivity.
    + rewrite S1. reflexivity.
Qed.

Lemma perm_filter {A} (p : A -> bool) l l' : Permutation l l' -> Permutation (filter p l) (filter p l').
Proof. induction 1; cbn; repeat match goal with |- context [p ?x] => destruct (p x) end; eauto using Permutation. Qed.

(** ** Which elements a thread takes *)
Fixpoint steps_from (n : nat) (j B : Z) : list Z := match n with O => [] | S n' => j :: steps_from n' (j + B) B end.
Lemma in_steps n B : 0 < B -> forall j x, In x (steps_from n j B) <-> exists q, 0 <= q < Z.of_nat n /\ x = j + B * q.
Proof.
  intros HB. induction n as [|n IH]; intros j x; cbn [steps_from In]; [split; [tauto|intros (q & H & _); lia]|].
  rewrite IH. split.
  - intros [<-|(q & Hq & ->)]; [exists 0; lia|exists (q + 1); lia].
  - intros (q & Hq & ->). destruct (Z.eq_dec q 0) as [->|]; [left; lia|right; exists (q - 1); lia].
Qed.
Lemma nodup_steps n B : 0 < B -> forall j, NoDup (steps_from n j B).
Proof.
  intros HB. induction n as [|n IH]; intros j; cbn [steps_from]; constructor; [|apply IH].
  rewrite in_steps by exact HB. intros (q & Hq & E). nia.
Qed.
Definition taken (rf B t : Z) : list Z := steps_from (iterations t rf B) t B.
Lemma nodup_flat {A B} (f : A -> list B) l : NoDup l -> (forall x, In x l -> NoDup (f x)) ->
  (forall x y z, In x l -> In y l -> In z (f x) -> In z (f y) -> x = y) -> NoDup (flat_map f l).
Proof.
  induction l as [|a l IH]; intros HN HF HD; cbn; [constructor|]. inversion HN as [|? ? Ha HN']; subst.
  assert (G : forall u v : list B, NoDup u -> NoDup v -> (forall z, In z u -> ~ In z v) -> NoDup (u ++ v)).
  { clear. induction u as [|x u IH]; intros v Hu Hv H; [exact Hv|]. inversion Hu; subst. cbn. constructor.
    - rewrite in_app_iff. intros [?|?]; [tauto|]. apply (H x); [now left|assumption].
    - apply IH; auto. intros z Hz. apply H. now right. }
  apply G.
  - apply HF. now left.
  - apply IH; auto; [intros x Hx; apply HF; now right|]. intros x y z Hx Hy. apply HD; now right.
  - intros z Hz Hz'. apply in_flat_map in Hz' as (y & Hy & Hz'). assert (a = y) by (eapply HD; eauto; [now left|now right]). now subst.
Qed.
Lemma taken_once rf B : 0 < B -> 0 <= rf -> Permutation (flat_map (taken rf B) (zrange B)) (zrange rf).
Proof.
  intros HB Hr. apply NoDup_Permutation; [|apply zrange_nodup|].
  - apply nodup_flat; [apply zrange_nodup|intros; now apply nodup_steps|].
    intros x y z Hx Hy H1 H2. apply in_zrange in Hx, Hy. unfold taken in *. rewrite in_steps in H1, H2 by exact HB.
    destruct H1 as (q & _ & ->), H2 as (q' & _ & E).
    rewrite <- (Z.mod_small x B), <- (Z.mod_small y B) by lia.
    rewrite <- (Z.mod_add x q B), <- (Z.mod_add y q' B) by lia. f_equal. lia.
  - intros z. rewrite in_flat_map, in_zrange. split.
    + intros (t & Ht & Hz). apply in_zrange in Ht. unfold taken in Hz. rewrite in_steps in Hz by exact HB. destruct Hz as (q & Hq & ->).
      apply iterations_spec in Hq; [|lia|lia] || (destruct Hq as (Hq1 & Hq2); apply iterations_spec in Hq2; [|lia|lia]); nia.
    + intros Hz. exists (z mod B). rewrite in_zrange. split; [apply Z.mod_pos_bound; lia|]. unfold taken. rewrite in_steps by exact HB.
      exists (z / B). assert (0 <= z / B) by (apply Z.div_pos; lia). assert (E : z = z mod B + B * (z / B)) by (pose proof (Z.div_mod z B); lia).
      split; [|exact E]. split; [assumption|]. apply iterations_spec; lia.
Qed.

(** ** Block sizes are powers of two *)
Lemma block_size_pow n : 1 <= n -> exists p, 0 <= p /\ block_size n = 2 ^ p.
Proof.
  intros Hn. destruct (Z.lt_ge_cases n 512) as [H|H].
  - assert (G : forallb (fun n => existsb (fun p => block_size n =? 2 ^ p) (zrange 9)) (map (fun i => i + 1) (zrange 511)) = true) by (vm_compute; reflexivity).
    rewrite forallb_forall in G. specialize (G n). rewrite existsb_exists in G. destruct G as (p & Hp & E).
    + apply in_map_iff. exists (n - 1). rewrite in_zrange. lia.
    + apply in_zrange in Hp. exists p. lia.
  - exists 9. unfold block_size. replace (n <? 512) with false by lia. split; [lia|reflexivity].
Qed.

(** ** The value of an output, through any relation between accumulators and the elements they stand for *)
Section Rel.
  Context {X S C Y : Type} (K : kernel X S C Y).
  Variables (R R' : S -> list X -> Prop) (I : C -> Prop).
  Record kernel_rel : Prop := KR {
    kr_zero : R (k_zero K) [];
    kr_comp : I (k_comp K);
    kr_upd : forall s c x l, I c -> R s l -> R (fst (k_upd K s c x)) (l ++ [x]) /\ I (snd (k_upd K s c x));
    kr_norm : forall s l, R s l -> R' (k_norm K s) l;
    kr_comb : forall s s' l l', R' s l -> R' s' l' -> R' (k_comb K s s') (l ++ l');
    kr_perm : forall s l l', Permutation l l' -> R' s l -> R' s l' }.
  Hypothesis HK : kernel_rel.
  Variables (rf B : Z) (xv : Z -> Z -> X) (mv : Z -> Z -> Z).
  Definition use (i j : Z) : bool := negb (k_masked K && negb (mv i j =? 0)).
  Definition vals (i : Z) (js : list Z) : list X := map (xv i) (filter (use i) js).

  Lemma accs_rel n i : forall j s c l, I c -> R s l ->
    R (fst (accs K B xv mv n i j (s, c))) (l ++ vals i (steps_from n j B)) /\ I (snd (accs K B xv mv n i j (s, c))).
  Proof.
    induction n as [|n IH]; intros j s c l Hc Hs; cbn [accs steps_from]; [unfold vals; cbn; rewrite app_nil_r; auto|].
    unfold vals. cbn [filter]. unfold use at 1. destruct (k_masked K && negb (mv i j =? 0)) eqn:E; cbn [negb].
    - apply IH; auto.
    - destruct (kr_upd HK s c (xv i j) l Hc Hs) as (H1 & H2). cbn [map fst snd].
      destruct (k_upd K s c (xv i j)) as [s1 c1]. cbn in H1, H2. specialize (IH (j + B) s1 c1 (l ++ [xv i j]) H2 H1).
      rewrite <- app_assoc in IH. exact IH.
  Qed.

  Lemma tree_rel p : forall fuel f (ls : Z -> list X), (p <= fuel)%nat -> (forall t, 0 <= t < 2 ^ Z.of_nat p -> R' (f t) (ls t)) ->
    R' (treeF K fuel (Z.quot (2 ^ Z.of_nat p) 2) f 0) (flat_map ls (zrange (2 ^ Z.of_nat p))).
  Proof.
    induction p as [|p IH]; intros fuel f ls Hf Hl.
    - change (Z.quot (2 ^ Z.of_nat 0) 2) with 0. change (zrange (2 ^ Z.of_nat 0)) with [0]. cbn [flat_map]. rewrite app_nil_r.
      destruct fuel; cbn [treeF]; apply Hl; cbn; lia.
    - destruct fuel as [|fuel]; [lia|]. rewrite Nat2Z.inj_succ, Z.pow_succ_r by lia.
      set (P := 2 ^ Z.of_nat p) in *. assert (0 < P) by (apply Z.pow_pos_nonneg; lia).
      rewrite (Z.mul_comm 2 P), Z.quot_mul by lia. cbn [treeF]. replace (0 <? P) with true by lia.
      rewrite Z.mul_comm.
      apply (kr_perm HK) with (flat_map (fun t => ls t ++ ls (t + P)) (zrange P)).
      + replace (2 * P) with (P + P) by lia. rewrite zrange_app by lia. rewrite flat_map_app.
        assert (G : forall l, Permutation (flat_map (fun t => ls t ++ ls (t + P)) l) (flat_map ls l ++ flat_map ls (map (fun t => P + t) l))).
        { induction l as [|t l IHl]; [constructor|]. cbn [flat_map map]. rewrite IHl. rewrite <- !app_assoc. apply Permutation_app_head.
          rewrite (Z.add_comm t P). rewrite !app_assoc. apply Permutation_app_tail. apply Permutation_app_comm. }
        apply G.
      + apply IH; [lia|]. intros t Ht. cbn beta. replace (t <? P) with true by lia. apply (kr_comb HK); apply Hl; rewrite Nat2Z.inj_succ, Z.pow_succ_r by lia; fold P; lia.
  Qed.

  Lemma total_rel i (c : Z -> C) : 0 < B -> (exists p, 0 <= p /\ B = 2 ^ p) -> 0 <= rf -> (forall t, I (c t)) ->
    R' (total K rf B xv mv i c 0) (vals i (zrange rf)) /\ forall t, I (carry K rf B xv mv i c t).
  Proof.
    intros HB (p & Hp & EB) Hr Hc. split.
    - apply (kr_perm HK) with (flat_map (fun t => vals i (taken rf B t)) (zrange B)).
      + unfold vals.
        assert (E : forall l, flat_map (fun t => map (xv i) (filter (use i) (taken rf B t))) l = map (xv i) (filter (use i) (flat_map (taken rf B) l))).
        { induction l as [|t l IHl]; [reflexivity|]. cbn [flat_map]. now rewrite filter_app, map_app, IHl. }
        rewrite E. apply Permutation_map, perm_filter, taken_once; auto.
      + unfold total.
        pose proof (tree_rel (Z.to_nat p) (Z.to_nat B) (fun t => k_norm K (fst (part K rf B xv mv i t (c t)))) (fun t => vals i (taken rf B t))) as G.
        rewrite Z2Nat.id in G by exact Hp. rewrite <- EB in G. apply G.
        * assert (p < B) by (rewrite EB; apply Z.pow_gt_lin_r; lia). lia.
        * intros t Ht. apply (kr_norm HK). destruct (accs_rel (iterations t rf B) i t (k_zero K) (c t) [] (Hc t) (kr_zero HK)) as (H1 & _). exact H1.
    - intros t. unfold carry, part. apply accs_rel with (l := []); [apply Hc|apply (kr_zero HK)].
  Qed.

  Lemma result_rel G i : 0 < B -> 0 < G -> (exists p, 0 <= p /\ B = 2 ^ p) -> 0 <= rf -> 0 <= i ->
    R' (result K rf B G xv mv i) (vals i (zrange rf)).
  Proof.
    intros HB HG Hp Hr Hi. unfold result.
    assert (HI : forall q i c, (forall t, I (c t)) -> forall t, I (comps K rf B G xv mv i q c t)).
    { induction q as [|q IH]; intros i' c Hc; [exact Hc|]. rewrite comps_S. apply IH. now apply total_rel. }
    apply total_rel; auto. apply HI. intros t. apply (kr_comp HK).
  Qed.
End Rel.

(** ** The launched grid *)
(** The array seen without its offsets. *)
Definition unshift (l : layout) : layout := Layout (l_shape l) (l_strides l) (map (fun _ => 0) (l_offsets l)).
Lemma zsum_zeros {A} (l : list A) : zsum (map (fun _ => 0) l) = 0.
Proof. induction l; cbn; auto. Qed.
Lemma cell_unshift l idx : wf l -> length idx = length (l_shape l) -> cell (unshift l) idx = lin idx (l_strides l).
Proof.
  intros (W1 & W2) HL. rewrite cell_lin; [cbn; rewrite zsum_zeros; lia| |exact HL]. split; cbn; [exact W1|now rewrite map_length].
Qed.
Lemma cell_shift l idx : wf l -> length idx = length (l_shape l) -> cell l idx = zsum (l_offsets l) + cell (unshift l) idx.
Proof. intros W HL. rewrite cell_unshift, cell_lin by auto. reflexivity. Qed.

(** Every execution of the launch ends without error, and its outputs satisfy [P]. *)
Definition gpu_yields {X S C Y} (K : kernel X S C Y) (l lm : layout) (axes : list Z) (x : mem X) (mask : mem Z)
  (P : (Z -> list Z -> option Y) -> Prop) : Prop :=
  exists grid, launch K l lm axes = Ok grid /\ forall junkS junkY,
  let osh := out_shape axes (l_shape l) in
  let B := block_size (zprod (map (getz (l_shape l)) (all_if_nil (ndim l) axes))) in
  let m0 := gmem0 K osh B (num_blocks (zprod osh)) x mask junkS junkY in
  grid_ends gaddr_eqb (fun u _ => u) (m0, grid) /\
  forall o, bgsteps gaddr_eqb (fun u _ => u) (m0, grid) o -> exists c, o = Ok c /\
    (grid_done c \/ exists c', bgstep gaddr_eqb (fun u _ => u) c (Ok c')) /\
    (grid_done c -> P (fun k oi => match fst c (GOut k (cell (dense osh) oi)) with Some (VY y) => Some y | _ => None end)).

(** What a kernel may use: unmasked elements. *)
Definition usable {X S C Y} (K : kernel X S C Y) (lm : layout) (mask : mem Z) (es : list (list Z)) : list (list Z) :=
  if k_masked K then filter (fun idx => sel_at mask (cell (unshift lm) idx)) es else es.

Lemma filter_map {A B} (f : A -> B) p l : filter p (map f l) = map f (filter (fun x => p (f x)) l).
Proof. induction l as [|a l IH]; [reflexivity|]. cbn. destruct (p (f a)); cbn; now rewrite IH. Qed.

Lemma zprod_posl l : posl l -> 1 <= zprod l.
Proof. induction 1 as [|d l Hd Hl IH]; [reflexivity|]. rewrite zprod_cons. nia. Qed.
Lemma oix_of osh oi : posl osh -> in_range osh oi -> 0 <= cell (dense osh) oi < zprod osh /\ oix osh (cell (dense osh) oi) = oi.
Proof.
  intros HO Hoi. assert (Hx : In oi (all_indices osh)) by now apply in_all_indices.
  rewrite all_indices_digits in Hx by exact HO. apply in_map_iff in Hx as (i & <- & Hi). apply in_zrange in Hi. fold (oix osh i).
  assert (E : cell (dense osh) (oix osh i) = i).
  { rewrite cell_lin; [|apply dense_wf|apply in_range_length, oix_range, HO]. rewrite oix_cell by auto. cbn. rewrite zsum_zeros. lia. }
  rewrite E. auto.
Qed.
Lemma out_shape_posl sh axes : posl sh -> posl (out_shape axes sh).
Proof.
  intros HP. destruct (out_shape_cases sh axes) as [(_ & -> & _)|(_ & -> & _)]; [constructor; [lia|constructor]|].
  apply posl_sub; [exact HP|apply kept_inr].
Qed.
Lemma out_shape_len sh axes : zlen (out_shape axes sh) <= Z.max 1 (zlen sh).
Proof.
  destruct (out_shape_cases sh axes) as [(_ & -> & _)|(_ & -> & _)]; [change (zlen [1]) with 1; lia|].
  unfold zlen at 1. rewrite map_length. unfold kept_axes.
  assert (G : forall (p : Z -> bool) l, (length (filter p l) <= length l)%nat) by (clear; induction l; cbn; [lia|destruct (p a); cbn; lia]).
  specialize (G (fun d => negb (existsb (Z.eqb d) (all_if_nil (zlen sh) axes))) (zrange (zlen sh))).
  pose proof (zrange_length (zlen sh)). unfold zlen in *. lia.
Qed.

(** The accumulator thread 0 stores for output [oi]; [d] stands for elements out of range, which do not occur. *)
Definition gpu_val {X S C Y} (K : kernel X S C Y) (l lm : layout) (axes : list Z) (x : mem X) (mask : mem Z) (d : X) (oi : list Z) : S :=
  let ax := all_if_nil (ndim l) axes in
  let osh := out_shape axes (l_shape l) in
  let rf := zprod (map (getz (l_shape l)) ax) in
  result K rf (block_size rf) (num_blocks (zprod osh))
    (fun i j => match znth x (cell (unshift l) (pos (l_shape l) ax i j)) with Some v => v | None => d end)
    (fun i j => match znth mask (cell (unshift lm) (pos (l_shape l) ax i j)) with Some v => v | None => 0 end)
    (cell (dense osh) oi).
(** The outputs do not depend on the schedule nor on what memory held, and any relation kept by the kernel's steps holds of them. *)
Theorem gpu_reduce {X S C Y} (K : kernel X S C Y) l lm axes (x : mem X) mask :
  wf l -> red_hyps x (unshift l) axes -> posl (l_shape l) -> ndim l <= 4 ->
  (k_masked K = true -> wf lm /\ l_shape lm = l_shape l /\ inside (unshift lm) (zlen mask)) ->
  (k_chained K = true -> ndim (dense (out_shape axes (l_shape l))) = 1 \/ zprod (out_shape axes (l_shape l)) <= 1024) ->
  forall d, let val := gpu_val K l lm axes x mask d in
  gpu_yields K l lm axes x mask (fun out => forall oi k f, in_range (out_shape axes (l_shape l)) oi -> nth_error (k_outs K) k = Some f ->
    out (Z.of_nat k) oi = Some (f (val oi))) /\
  forall R R' I, kernel_rel K R R' I -> forall oi, in_range (out_shape axes (l_shape l)) oi ->
    forall es xs, enumerates (l_shape l) axes oi es -> reads x (unshift l) (usable K lm mask es) xs -> R' (val oi) xs.
Proof.
  intros W (_ & _ & Hg & Hs & Hin) HP Hnd Hm Hch d val. cbn [l_shape unshift] in Hg, Hs. change (ndim (unshift l)) with (ndim l) in Hg.
  pose proof (out_shape_posl (l_shape l) axes HP) as HO.
  set (sh := l_shape l) in *. set (osh := out_shape axes sh) in *. set (ax := all_if_nil (ndim l) axes) in *.
  set (rf := zprod (map (getz sh) ax)).
  assert (Ga : good_axes (ndim l) ax) by now apply good_all_if_nil.
  assert (Erf : rf = zprod (rdims sh ax)) by (apply zprod_perm, Permutation_map, Permutation_sym, red_perm; exact Ga).
  assert (Hrf : 1 <= rf).
  { rewrite Erf. apply zprod_posl. apply posl_sub; [exact HP|apply red_inr]. }
  assert (Hne : 1 <= zprod osh) by now apply zprod_posl.
  destruct (block_size_pow rf Hrf) as (p & Hp & EB).
  assert (HB : 0 < block_size rf) by (rewrite EB; apply Z.pow_pos_nonneg; lia).
  assert (HG : 0 < num_blocks (zprod osh)) by (unfold num_blocks; lia).
  assert (Hpc : forall i j, cell (unshift l) (pos sh ax i j) = lin (pos sh ax i j) (l_strides l)).
  { intros i j. apply cell_unshift; [exact W|]. apply in_range_length. now apply pos_range. }
  assert (Hpm : k_masked K = true -> forall i j, cell (unshift lm) (pos sh ax i j) = lin (pos sh ax i j) (l_strides lm) /\ 0 <= cell (unshift lm) (pos sh ax i j) < zlen mask).
  { intros Hk i j. destruct (Hm Hk) as (Wm & Em & Im). split; [apply cell_unshift; [exact Wm|]; rewrite Em; apply in_range_length; now apply pos_range|].
    apply Im. cbn. rewrite Em. now apply pos_range. }
  assert (Hpx : forall i j, 0 <= cell (unshift l) (pos sh ax i j) < zlen x) by (intros i j; apply Hin, pos_range; exact HP).
  set (xv := fun i j => match znth x (cell (unshift l) (pos sh ax i j)) with Some v => v | None => d end).
  set (mv := fun i j => match znth mask (cell (unshift lm) (pos sh ax i j)) with Some v => v | None => 0 end).
  assert (Exv : forall i j, znth x (cell (unshift l) (pos sh ax i j)) = Some (xv i j)).
  { intros i j. unfold xv. destruct (znth_some x _ (Hpx i j)) as (v & ->). reflexivity. }
  assert (Emv : k_masked K = true -> forall i j, znth mask (cell (unshift lm) (pos sh ax i j)) = Some (mv i j)).
  { intros Hk i j. unfold mv. destruct (znth_some mask _ (proj2 (Hpm Hk i j))) as (v & ->). reflexivity. }
  assert (EV : forall oi, val oi = result K rf (block_size rf) (num_blocks (zprod osh)) xv mv (cell (dense osh) oi)) by reflexivity.
  clearbody val. split.
  { unfold gpu_yields. unfold launch. fold sh. rewrite <- out_shape_reduced. fold osh.
  change (match axes with [] => zrange (ndim l) | _ => axes end) with ax. fold rf.
  assert (H4 : zlen osh <= 4) by (pose proof (out_shape_len sh axes) as L; fold osh in L; unfold ndim in Hnd; fold sh in Hnd; lia).
  replace (4 <? ndim l) with false by lia. replace (4 <? zlen osh) with false by lia. cbn [orb].
  eexists. split; [reflexivity|]. intros junkS junkY.
  assert (Hnext : forall i, 0 <= i -> i + num_blocks (zprod osh) < zprod osh ->
    next_outs K osh (num_blocks (zprod osh)) (map (fun _ : S -> Y => oix osh i) (k_outs K)) = map (fun _ => oix osh (i + num_blocks (zprod osh))) (k_outs K)).
  { intros i Hi Hlt. destruct (k_chained K) eqn:Ec; [|apply next_plain; auto; lia].
    destruct (Hch eq_refl) as [H1|H1].
    - unfold ndim, dense in H1. cbn in H1. destruct osh as [|d0 [|d1 r]] eqn:Eo; cbn in H1; try (unfold zlen in H1; cbn in H1; lia).
      assert (E1 : zprod [d0] = d0) by (rewrite zprod_cons; change (zprod []) with 1; lia). rewrite E1 in *. apply next_flat; lia.
    - unfold num_blocks in Hlt. lia. }
  assert (Hinp : forall junkS junkY, input_ok K sh (l_strides l) (l_strides lm) ax xv mv (gmem0 K osh (block_size rf) (num_blocks (zprod osh)) x mask junkS junkY)).
  { intros jS jY i j. cbn [gmem0]. rewrite <- Hpc, Exv. split; [reflexivity|]. intros Hk. rewrite <- (proj1 (Hpm Hk i j)), (Emv Hk). reflexivity. }
  destruct (grid_result K osh sh (l_strides l) (l_strides lm) ax rf (block_size rf) (num_blocks (zprod osh)) HP HO HB HG xv mv Hnext x mask junkS junkY (Hinp _ _)) as (HE & HR).
  split; [exact HE|]. intros o Ho. destruct (HR o Ho) as (c & -> & Hmv & Hdone). exists c. split; [reflexivity|]. split; [exact Hmv|].
  intros Hd oi k f Hoi Hf. destruct (oix_of osh oi HO Hoi) as (Hi & Eoi).
  specialize (Hdone Hd k f (cell (dense osh) oi) Hf Hi). rewrite Hdone, EV. reflexivity. }
  intros R R' I HK oi Hoi es xs Hes Hxs. destruct (oix_of osh oi HO Hoi) as (Hi & Eoi). set (i := cell (dense osh) oi) in *.
  pose proof (result_rel K R R' I HK rf (block_size rf) xv mv (num_blocks (zprod osh)) i HB HG (ex_intro _ p (conj Hp EB)) ltac:(lia) ltac:(lia)) as RR.
  rewrite EV. fold i. eapply (kr_perm _ _ _ _ HK); [|exact RR].
  pose proof (pos_enum sh axes i HP Hg Hi) as PE. fold osh in PE. rewrite Eoi in PE. change (zlen sh) with (ndim l) in PE. fold ax in PE. rewrite <- Erf in PE.
  assert (Perm : Permutation (usable K lm mask (map (pos sh ax i) (zrange rf))) (usable K lm mask es)).
  { assert (P0 : Permutation (map (pos sh ax i) (zrange rf)) es) by (eapply enumerates_perm; eauto).
    unfold usable. destruct (k_masked K); [now apply perm_filter|exact P0]. }
  eapply reads_perm; [exact Perm| |exact Hxs].
  unfold vals.
  assert (RD : forall js, reads x (unshift l) (map (pos sh ax i) js) (map (xv i) js)).
  { intros js. unfold reads. induction js as [|j js IH]; [constructor|]. constructor; [apply Exv|exact IH]. }
  unfold usable. destruct (k_masked K) eqn:Ek.
  - rewrite filter_map. replace (filter (fun j => sel_at mask (cell (unshift lm) (pos sh ax i j))) (zrange rf)) with (filter (use K mv i) (zrange rf)); [apply RD|].
    apply filter_ext. intros j. unfold use, sel_at. rewrite Ek, (Emv eq_refl). cbn. now rewrite negb_involutive.
  - replace (filter (use K mv i) (zrange rf)) with (zrange rf); [apply RD|].
    symmetry. assert (G : forall js, filter (use K mv i) js = js); [|apply G]. induction js as [|j js IH]; [reflexivity|]. cbn [filter]. unfold use at 1. rewrite Ek. cbn [andb negb]. now rewrite IH.
Qed.
