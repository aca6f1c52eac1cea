(** The individual reductions, median, creators, device strings, deferred arrays. *)
From Verif Require Export RedProofs.
From Coq Require Import ZifyBool ZifyNat Sorting.Sorted.
Ltac Zify.zify_post_hook ::= Z.div_mod_to_equations.
Local Open Scope Z_scope.

Definition reads {V} (m : mem V) (l : layout) (es : list (list Z)) (xs : list V) : Prop :=
  Forall2 (fun idx x => elt m l idx = Some x) es xs.

Lemma ofold_reads {A S} (g : S -> A -> S) (m : mem A) l es xs s : reads m l es xs ->
  ofold (fun s c => let! x := load m c in Ok (g s x)) s (map (cell l) es) = Ok (fold_left g xs s).
Proof.
  intros H. revert s. induction H as [|idx x es xs Hx H IH]; intros s; cbn; [reflexivity|].
  unfold elt in Hx. rewrite (load_some _ _ _ Hx). cbn. apply IH.
Qed.

Lemma reads_exists {A} (m : mem A) l es : (forall idx, In idx es -> in_range (l_shape l) idx) -> inside l (zlen m) ->
  exists xs, reads m l es xs.
Proof.
  intros H Hi. induction es as [|e es IH]; [exists []; constructor|].
  destruct IH as [xs Hx]; [intros; apply H; right; auto|].
  destruct (inside_elt m l e Hi (H e (or_introl eq_refl))) as [v Hv]. exists (v :: xs). constructor; auto.
Qed.
Lemma reads_fun {A} (m : mem A) l es xs ys : reads m l es xs -> reads m l es ys -> xs = ys.
Proof.
  intros H; revert ys; induction H; intros ys Hy; inversion Hy; subst; auto. f_equal; [congruence|auto].
Qed.

Lemma omapM_ok {A B} (f : A -> outcome B) (g : A -> B) l : (forall x, In x l -> f x = Ok (g x)) -> omapM f l = Ok (map g l).
Proof.
  induction l as [|x l IH]; intros H; cbn; auto. rewrite H by (left; auto). cbn. rewrite IH by (intros; apply H; right; auto). reflexivity.
Qed.
Lemma omapM_exists {A B} (f : A -> outcome B) l : (forall x, In x l -> exists y, f x = Ok y) ->
  exists ys, omapM f l = Ok ys /\ Forall2 (fun x y => f x = Ok y) l ys.
Proof.
  induction l as [|x l IH]; intros H; cbn; [exists []; split; [reflexivity|constructor]|].
  destruct (H x (or_introl eq_refl)) as [y Hy]. destruct IH as (ys & E & F); [intros; apply H; right; auto|].
  exists (y :: ys). rewrite Hy, E. split; [reflexivity|constructor; auto].
Qed.

(** Values listed in row-major order are the elements of the dense array. *)
Lemma dense_elt_nth {V} osh (vs : list V) (P : list Z -> V -> Prop) :
  Forall (fun d => 0 <= d) osh -> Forall2 P (all_indices osh) vs ->
  zlen vs = zprod osh /\ forall o, in_range osh o -> exists v, elt vs (dense osh) o = Some v /\ P o v.
Proof.
  intros Hn H.
  pose proof (dense_cells osh Hn) as D.
  assert (G : forall is vs k, Forall2 P is vs -> map (cell (dense osh)) is = map (fun i => k + i) (zrange (zlen vs)) -> 0 <= k ->
     forall pre, zlen pre = k -> forall o, In o is -> exists v, elt (pre ++ vs) (dense osh) o = Some v /\ P o v).
  { clear. intros is vs k H. revert k. induction H as [|i v is vs Hv H IH]; intros k HM Hk pre Hp o Ho; [destruct Ho|].
    unfold zlen in HM. cbn [length] in HM. rewrite zrange_cons in HM by lia. cbn [map] in HM.
    injection HM as E1 E2. destruct Ho as [->|Ho].
    - exists v. split; [|exact Hv]. unfold elt, cell in *. rewrite E1. unfold znth, zlen in *.
      replace (k + 0 <? 0) with false by lia. rewrite nth_error_app2 by lia.
      replace (Z.to_nat (k + 0) - length pre)%nat with O by lia. reflexivity.
    - replace (pre ++ v :: vs) with ((pre ++ [v]) ++ vs) by (rewrite <- app_assoc; reflexivity).
      apply (IH (k + 1)); [|lia| |exact Ho].
      + rewrite map_map in E2. etransitivity; [exact E2|].
        replace (Z.of_nat (S (length vs)) - 1) with (zlen vs) by (unfold zlen; lia).
        apply map_ext. intros x. lia.
      + unfold zlen in *. rewrite app_length. cbn. lia. }
  assert (HL : zlen vs = zprod osh).
  { assert (L : length (all_indices osh) = length vs) by (clear -H; induction H; cbn; auto).
    pose proof (f_equal (@length Z) D) as L2. rewrite map_length in L2.
    pose proof (zrange_length (zprod osh)). pose proof (zprod_nonneg _ Hn). unfold zlen in *. lia. }
  split; [exact HL|]. intros o Ho.
  apply (G (all_indices osh) vs 0 H) with (pre := []); [|lia|reflexivity|apply in_all_indices; exact Ho].
  rewrite D, HL. rewrite (map_ext (fun i => 0 + i) (fun i => i)) by (intros; lia). rewrite map_id. reflexivity.
Qed.

Definition red_hyps {A} (m : mem A) (l : layout) (axes : list Z) : Prop :=
  wf l /\ Forall (fun d => 0 <= d) (l_shape l) /\ good_axes (ndim l) axes /\
  zprod (out_shape axes (l_shape l)) < 2 ^ 31 /\ inside l (zlen m).

(** Reductions that cannot fail: per output, a fold over the contributing values. *)
Lemma reduce_total {A S V} (start : list Z -> S) (g : S -> A -> S) (fin : S -> V) junk (m : mem A) l axes startO :
  red_hyps m l axes ->
  (forall o, in_range (out_shape axes (l_shape l)) o -> startO o = Ok (start o)) ->
  exists vs, reduce startO (fun s c => let! x := load m c in Ok (g s x)) (fun s => Ok (fin s)) junk l axes =
             Ok (dense (out_shape axes (l_shape l)), vs) /\
    zlen vs = zprod (out_shape axes (l_shape l)) /\
    forall o, in_range (out_shape axes (l_shape l)) o -> exists es xs,
      enumerates (l_shape l) axes o es /\ es = fibre (l_shape l) axes o /\ reads m l es xs /\
      elt vs (dense (out_shape axes (l_shape l))) o = Some (fin (fold_left g xs (start o))).
Proof.
  intros (Hw & Hn & Hg & Hs & Hi) Hst. rewrite reduce_fibres by auto.
  set (osh := out_shape axes (l_shape l)) in *.
  assert (HE : forall o, in_range osh o -> exists xs, reads m l (fibre (l_shape l) axes o) xs).
  { intros o Ho. apply reads_exists; [|exact Hi]. intros idx Hx.
    destruct (fibre_enumerates _ _ _ Hg Ho) as [_ H2]. apply H2 in Hx. tauto. }
  destruct (omapM_exists (fun o => let! s0 := startO o in
     let! s := ofold (fun s c => let! x := load m c in Ok (g s x)) s0 (map (cell l) (fibre (l_shape l) axes o)) in Ok (fin s))
     (all_indices osh)) as (vs & E & F).
  { intros o Ho. apply in_all_indices in Ho. destruct (HE o Ho) as [xs Hx]. rewrite (Hst o Ho). cbn.
    rewrite (ofold_reads g m l _ _ _ Hx). cbn. eauto. }
  exists vs. rewrite E. cbn. split; [reflexivity|].
  destruct (dense_elt_nth osh vs _ (out_shape_nonneg _ _ Hn) F) as [HL HV]. split; [exact HL|].
  intros o Ho. destruct (HE o Ho) as [xs Hx]. exists (fibre (l_shape l) axes o), xs.
  split; [apply fibre_enumerates; auto|]. split; [reflexivity|]. split; [exact Hx|].
  destruct (HV o Ho) as (v & Ev & Pv). rewrite (Hst o Ho) in Pv. cbn in Pv.
  rewrite (ofold_reads g m l _ _ _ Hx) in Pv. cbn in Pv. congruence.
Qed.

Lemma enumerates_perm sh axes o es es' : enumerates sh axes o es -> enumerates sh axes o es' -> Permutation es es'.
Proof. intros [H1 H2] [H3 H4]. apply NoDup_Permutation; auto. intros x. rewrite H2, H4. reflexivity. Qed.

Lemma reads_perm {A} (m : mem A) l es es' xs xs' : Permutation es es' -> reads m l es xs -> reads m l es' xs' -> Permutation xs xs'.
Proof.
  intros HP; revert xs xs'. induction HP; intros ys zs H1 H2.
  - inversion H1; inversion H2; subst; constructor.
  - inversion H1; inversion H2; subst. assert (y = y0) by congruence. subst. constructor. apply IHHP; auto.
  - inversion H1 as [|? y1 ? ? ? H1']; inversion H2 as [|? y2 ? ? ? H2']; subst.
    inversion H1' as [|? y3 ? ? ? H1'']; inversion H2' as [|? y4 ? ? ? H2'']; subst.
    assert (y1 = y4) by congruence. assert (y2 = y3) by congruence. subst.
    rewrite (reads_fun m l _ _ _ H1'' H2''). apply perm_swap.
  - assert (exists w, reads m l l' w) as [w Hw].
    { clear -H1 HP1. revert ys H1. induction HP1; intros ys H1.
      - exists []. constructor.
      - inversion H1; subst. destruct (IHHP1 _ H4) as [w Hw]. exists (y :: w). constructor; auto.
      - inversion H1; subst. inversion H4; subst. exists (y1 :: y0 :: l'0). repeat (constructor; auto).
      - destruct (IHHP1_1 _ H1) as [w Hw]. apply (IHHP1_2 _ Hw). }
    apply perm_trans with w; [apply IHHP1; auto|apply IHHP2; auto].
Qed.

Lemma fold_left_perm {A} (add : A -> A -> A) : (forall a b, add a b = add b a) -> (forall a b c, add a (add b c) = add (add a b) c) ->
  forall xs ys, Permutation xs ys -> forall z, fold_left add xs z = fold_left add ys z.
Proof.
  intros Hc Ha xs ys H. induction H; intros z; cbn; auto.
  - f_equal. rewrite <- !Ha. f_equal. apply Hc.
  - rewrite IHPermutation1. auto.
Qed.

Lemma fibre_at_count sh axes b : Forall (fun d => 0 <= d) sh -> zlen (fibre_at sh axes b) = zprod (map (getz sh) axes).
Proof.
  intros H. unfold fibre_at, zlen. rewrite map_length.
  assert (Hn : Forall (fun d => 0 <= d) (map (getz sh) axes)).
  { apply Forall_forall. intros x Hx. apply in_map_iff in Hx. destruct Hx as (d & <- & _). apply getz_nonneg. exact H. }
  pose proof (f_equal (@length Z) (dense_cells _ Hn)) as L. rewrite map_length in L. rewrite L.
  pose proof (zrange_length (zprod (map (getz sh) axes))). pose proof (zprod_nonneg _ Hn). unfold zlen in *. lia.
Qed.

Lemma reads_length {A} (m : mem A) l es xs : reads m l es xs -> zlen xs = zlen es.
Proof. intros H. unfold zlen. f_equal. induction H; cbn; auto. Qed.

Theorem sum_correct {A} (zero : A) add junk l (m : mem A) axes : red_hyps m l axes ->
  exists vs, nd_sum zero add junk l m axes = Ok (dense (out_shape axes (l_shape l)), vs) /\
    zlen vs = zprod (out_shape axes (l_shape l)) /\
    forall o, in_range (out_shape axes (l_shape l)) o -> exists es xs,
      enumerates (l_shape l) axes o es /\ reads m l es xs /\
      elt vs (dense (out_shape axes (l_shape l))) o = Some (fold_left add xs zero).
Proof.
  intros H. destruct (reduce_total (fun _ => zero) add (fun s => s) junk m l axes (fun _ => Ok zero) H ltac:(reflexivity)) as (vs & E & HL & HV).
  exists vs. split; [exact E|]. split; [exact HL|]. intros o Ho. destruct (HV o Ho) as (es & xs & H1 & _ & H2 & H3). eauto.
Qed.

Theorem sum_any_order {A} (zero : A) add junk l (m : mem A) axes : red_hyps m l axes ->
  (forall a b, add a b = add b a) -> (forall a b c, add a (add b c) = add (add a b) c) ->
  exists vs, nd_sum zero add junk l m axes = Ok (dense (out_shape axes (l_shape l)), vs) /\
    forall o es xs, in_range (out_shape axes (l_shape l)) o -> enumerates (l_shape l) axes o es -> reads m l es xs ->
      elt vs (dense (out_shape axes (l_shape l))) o = Some (fold_left add xs zero).
Proof.
  intros H Hc Ha. destruct (sum_correct zero add junk l m axes H) as (vs & E & _ & HV). exists vs. split; [exact E|].
  intros o es xs Ho He Hx. destruct (HV o Ho) as (es' & xs' & He' & Hx' & ->). f_equal.
  apply fold_left_perm; auto. apply (reads_perm m l es' es); auto. eapply enumerates_perm; eauto.
Qed.

Theorem mean_correct {A D V} (zero : D) (add : D -> A -> D) (fin : D -> Z -> V) junk l (m : mem A) axes : red_hyps m l axes ->
  exists vs, nd_mean zero add fin junk l m axes = Ok (dense (out_shape axes (l_shape l)), vs) /\
    zlen vs = zprod (out_shape axes (l_shape l)) /\
    forall o, in_range (out_shape axes (l_shape l)) o -> exists es xs,
      enumerates (l_shape l) axes o es /\ reads m l es xs /\
      elt vs (dense (out_shape axes (l_shape l))) o = Some (fin (fold_left add xs zero) (zlen es)).
Proof.
  intros H. unfold nd_mean. fold (all_if_nil (ndim l) axes). set (n := zprod _).
  destruct (reduce_total (fun _ => zero) add (fun s => fin s n) junk m l axes (fun _ => Ok zero) H ltac:(reflexivity)) as (vs & E & HL & HV).
  exists vs. split; [exact E|]. split; [exact HL|]. intros o Ho. destruct (HV o Ho) as (es & xs & H1 & H0 & H2 & H3). exists es, xs.
  split; [auto|]. split; [auto|]. rewrite H3. do 2 f_equal. subst es. unfold fibre. rewrite fibre_at_count by apply H. reflexivity.
Qed.

Theorem stddev_correct {A D V} (zero : D) (acc1 acc2 : D -> A -> D) (fin : D -> D -> V) junk l (m : mem A) axes : red_hyps m l axes ->
  exists vs, nd_stddev zero acc1 acc2 fin junk l m axes = Ok (dense (out_shape axes (l_shape l)), vs) /\
    zlen vs = zprod (out_shape axes (l_shape l)) /\
    forall o, in_range (out_shape axes (l_shape l)) o -> exists es xs,
      enumerates (l_shape l) axes o es /\ reads m l es xs /\
      elt vs (dense (out_shape axes (l_shape l))) o = Some (fin (fold_left acc1 xs zero) (fold_left acc2 xs zero)).
Proof.
  intros H.
  destruct (reduce_total (fun _ => (zero, zero)) (fun s x => (acc1 (fst s) x, acc2 (snd s) x)) (fun s => fin (fst s) (snd s)) junk m l axes (fun _ => Ok (zero, zero)) H ltac:(reflexivity)) as (vs & E & HL & HV).
  exists vs. split; [exact E|]. split; [exact HL|]. intros o Ho. destruct (HV o Ho) as (es & xs & H1 & _ & H2 & H3). exists es, xs.
  split; [auto|]. split; [auto|]. rewrite H3. do 2 f_equal.
  - assert (G : forall xs a b, fst (fold_left (fun s x => (acc1 (fst s) x, acc2 (snd s) x)) xs (a, b)) = fold_left acc1 xs a) by (induction xs0; intros; cbn; auto).
    apply G.
  - assert (G : forall xs a b, snd (fold_left (fun s x => (acc1 (fst s) x, acc2 (snd s) x)) xs (a, b)) = fold_left acc2 xs b) by (induction xs0; intros; cbn; auto).
    apply G.
Qed.

(** max: the result is an element (or the starting value), and no element exceeds it. *)
Theorem max_correct {A} (lowest : A) gt junk l (m : mem A) axes : red_hyps m l axes ->
  (forall a, gt a a = false) -> (forall a b c, gt a b = false -> gt b c = false -> gt a c = false) ->
  (forall a b, gt a b = true -> gt b a = false) ->
  exists vs, nd_max lowest gt junk l m axes = Ok (dense (out_shape axes (l_shape l)), vs) /\
    zlen vs = zprod (out_shape axes (l_shape l)) /\
    forall o, in_range (out_shape axes (l_shape l)) o -> exists r,
      elt vs (dense (out_shape axes (l_shape l))) o = Some r /\
      (forall idx x, in_range (l_shape l) idx -> out_index axes idx = o -> elt m l idx = Some x -> gt x r = false) /\
      (r = lowest \/ exists idx, in_range (l_shape l) idx /\ out_index axes idx = o /\ elt m l idx = Some r).
Proof.
  intros H Hirr Htr Has.
  destruct (reduce_total (fun _ => lowest) (fun s x => if gt x s then x else s) (fun s => s) junk m l axes (fun _ => Ok lowest) H ltac:(reflexivity)) as (vs & E & HL & HV).
  exists vs. split; [exact E|]. split; [exact HL|]. intros o Ho. destruct (HV o Ho) as (es & xs & [_ H1] & _ & H2 & H3).
  eexists. split; [exact H3|].
  assert (G : forall ys s, let r := fold_left (fun s x => if gt x s then x else s) ys s in
    gt s r = false /\ (forall x, In x ys -> gt x r = false) /\ (r = s \/ In r ys)).
  { induction ys as [|y ys IH]; intros s; cbn.
    - split; [apply Hirr|]. split; [intros x []|auto].
    - destruct (gt y s) eqn:Eg.
      + destruct (IH y) as (G1 & G2 & G3). split; [apply Htr with y; auto|]. split.
        * intros x [<-|Hx]; auto.
        * right. destruct G3 as [->|G3]; auto.
      + destruct (IH s) as (G1 & G2 & G3). split; [exact G1|]. split.
        * intros x [<-|Hx]; auto. apply Htr with s; auto.
        * destruct G3 as [->|G3]; auto. }
  destruct (G xs lowest) as (G1 & G2 & G3). split.
  - intros idx x Hr Hoi Hx. apply G2. assert (Hin : In idx es) by (apply H1; auto).
    clear -H2 Hin Hx. induction H2; [destruct Hin|]. destruct Hin as [->|Hin]; [left; congruence|right; auto].
  - destruct G3 as [G3|G3]; [left; exact G3|right].
    assert (exists idx, In idx es /\ elt m l idx = Some (fold_left (fun s x => if gt x s then x else s) xs lowest)) as (idx & Hi & Hx).
    { clear -H2 G3. revert G3. generalize (fold_left (fun s x => if gt x s then x else s) xs lowest). intros r G3.
      induction H2; [destruct G3|]. destruct G3 as [->|G3]; [exists x; split; [left; auto|auto]|].
      destruct IHForall2 as (i & Hi & Hx); auto. exists i. split; [right; auto|auto]. }
    apply H1 in Hi. exists idx. tauto.
Qed.

Theorem moment_correct {A D} (zero : D) (add : D -> A -> D) (fin : D -> Z -> A) dev (acc1 acc2 : D -> A -> D) fin2 junk l (m : mem A) axes :
  red_hyps m l axes ->
  exists vs, nd_moment zero add fin dev acc1 acc2 fin2 junk l m axes = Ok (dense (out_shape axes (l_shape l)), vs) /\
    zlen vs = zprod (out_shape axes (l_shape l)) /\
    forall o, in_range (out_shape axes (l_shape l)) o -> exists es xs,
      enumerates (l_shape l) axes o es /\ reads m l es xs /\
      let mu := fin (fold_left add xs zero) (zlen es) in
      let ds := map (fun x => dev x mu) xs in
      elt vs (dense (out_shape axes (l_shape l))) o = Some (fin2 (fold_left acc1 ds zero) (fold_left acc2 ds zero)).
Proof.
  intros H. unfold nd_moment. destruct (mean_correct zero add fin junk l m axes H) as (mus & Em & HLm & HVm).
  rewrite Em. cbn [obind fst snd]. set (osh := out_shape axes (l_shape l)) in *.
  set (mu := fun o => match elt mus (dense osh) o with Some v => v | None => fin zero 0 end).
  assert (Hmu : forall o, in_range osh o -> (let! u := load mus (cell (dense osh) o) in Ok (u, (zero, zero))) = Ok (mu o, (zero, zero))).
  { intros o Ho. destruct (HVm o Ho) as (es & xs & _ & _ & Ee). unfold mu. rewrite Ee. unfold elt in Ee. rewrite (load_some _ _ _ Ee). reflexivity. }
  destruct (reduce_total (fun o => (mu o, (zero, zero)))
     (fun s x => (fst s, (acc1 (fst (snd s)) (dev x (fst s)), acc2 (snd (snd s)) (dev x (fst s)))))
     (fun s => fin2 (fst (snd s)) (snd (snd s))) junk m l axes _ H Hmu) as (vs & E & HL & HV).
  exists vs. split; [exact E|]. split; [exact HL|]. intros o Ho.
  destruct (HV o Ho) as (es & xs & H1 & H0 & H2 & H3). exists es, xs. split; [auto|]. split; [auto|].
  cbn zeta. fold osh in H3. rewrite H3.
  assert (Emu : mu o = fin (fold_left add xs zero) (zlen es)).
  { unfold mu. clear H3 HV E HL vs.
    destruct (reduce_total (fun _ => zero) add (fun s => fin s (zprod (map (getz (l_shape l)) (all_if_nil (ndim l) axes)))) junk m l axes (fun _ => Ok zero) H ltac:(reflexivity)) as (vs' & E' & HL' & HV').
    assert (vs' = mus).
    { unfold nd_mean in Em. fold (all_if_nil (ndim l) axes) in Em. unfold mean_step in Em. rewrite E' in Em. fold osh in Em. congruence. }
    subst vs'. destruct (HV' o Ho) as (es' & xs' & _ & H0' & H2' & H3'). fold osh in H3'. rewrite H3'.
    subst es es'. rewrite (reads_fun m l _ _ _ H2' H2). f_equal. unfold fibre. rewrite fibre_at_count by apply H. reflexivity. }
  rewrite <- Emu.
  assert (G : forall ys u a b, fold_left (fun s x => (fst s, (acc1 (fst (snd s)) (dev x (fst s)), acc2 (snd (snd s)) (dev x (fst s))))) ys (u, (a, b)) =
     (u, (fold_left acc1 (map (fun x => dev x u) ys) a, fold_left acc2 (map (fun x => dev x u) ys) b))).
  { induction ys as [|y ys IH]; intros; cbn; auto. }
  rewrite G. reflexivity.
Qed.

(** ** count *)
Theorem count_correct {A} (truth : A -> bool) l (m : mem A) : wf l -> small (l_shape l) -> inside l (zlen m) ->
  exists xs, reads m l (all_indices (l_shape l)) xs /\ count_true truth l m = Ok (zlen (filter truth xs)).
Proof.
  intros Hw Hs Hi.
  destruct (reads_exists m l (all_indices (l_shape l))) as [xs Hx]; [intros; apply in_all_indices; auto|exact Hi|].
  exists xs. split; [exact Hx|]. unfold count_true. rewrite view_trace_cells by auto.
  assert (E : run_read m (map (cell l) (all_indices (l_shape l))) = Ok xs).
  { clear -Hx. induction Hx; cbn; [reflexivity|]. unfold elt in H. rewrite (load_some _ _ _ H). cbn. rewrite IHHx. reflexivity. }
  rewrite E. reflexivity.
Qed.
