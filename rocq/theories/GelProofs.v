(** The element-wise GPU kernels visit every element once. *)
From Verif Require Export GelModel GpuScatter GredExact.
From Coq Require Import ZifyBool ZifyNat Lia Permutation.
Local Open Scope Z_scope.

Lemma eaddr_eqb_spec x y : eaddr_eqb x y = true <-> x = y.
Proof.
  destruct x, y; cbn; rewrite ?andb_true_iff, ?Z.eqb_eq; split; intros H; try discriminate; try congruence; try (inversion H; auto; fail).
  destruct H; congruence.
Qed.

Lemma to_uint32_small z : 0 <= z < 2 ^ 32 -> to_uint32 z = z.
Proof. intros H. unfold to_uint32. apply Z.mod_small. exact H. Qed.
Lemma lin32_acc idx : forall acc st, to_uint32 (lin32 acc idx st) = to_uint32 (acc + lin idx st).
Proof.
  induction idx as [|i idx IH]; intros acc [|s st]; cbn [lin32 lin]; try (f_equal; lia).
  rewrite IH. unfold to_uint32. rewrite Zplus_mod_idemp_l. f_equal. lia.
Qed.
Lemma lin32_range idx : forall acc st, 0 <= acc < 2 ^ 32 -> 0 <= lin32 acc idx st < 2 ^ 32.
Proof.
  induction idx as [|i idx IH]; intros acc [|s st] H; cbn [lin32]; auto. apply IH. unfold to_uint32. apply Z.mod_pos_bound. lia.
Qed.
(** The linear index is the mathematical one modulo 2^32. *)
Lemma lin32_mod idx st : lin32 0 idx st = to_uint32 (lin idx st).
Proof. rewrite <- (to_uint32_small (lin32 0 idx st)) by (apply lin32_range; lia). apply lin32_acc. Qed.

Lemma int_sum_small l : (forall k, - 2 ^ 31 <= zsum (firstn k l) < 2 ^ 31) -> int_sum l = zsum l.
Proof.
  unfold int_sum. assert (G : forall l acc, - 2 ^ 31 <= acc < 2 ^ 31 -> (forall k, - 2 ^ 31 <= acc + zsum (firstn k l) < 2 ^ 31) ->
    fold_left (fun acc o => to_int32 (acc + o)) l acc = acc + zsum l).
  { clear l. induction l as [|o l IH]; intros acc Ha H; cbn [fold_left]; [unfold zsum; cbn; lia|].
    pose proof (H 1%nat) as H1. cbn [firstn] in H1. rewrite zsum_cons in H1. change (zsum []) with 0 in H1.
    rewrite to_int32_small by lia. rewrite IH; [rewrite zsum_cons; lia|lia|]. intros k. specialize (H (S k)). cbn [firstn] in H. rewrite zsum_cons in H. lia. }
  intros H. rewrite G; [lia|lia|]. intros k. specialize (H k). lia.
Qed.

Lemma getz_range sh idx d : in_range sh idx -> inr (zlen sh) d -> 0 <= getz idx d < getz sh d.
Proof.
  unfold in_range, inr, getz. intros H Hd. assert (Hn : (Z.to_nat d < length sh)%nat) by (unfold zlen in Hd; lia).
  clear Hd. revert Hn. generalize (Z.to_nat d). clear d. induction H; intros n Hn; cbn in *; [lia|]. destruct n; [auto|]. apply IHForall2. lia.
Qed.
Lemma setz_range sh idx d v : in_range sh idx -> inr (zlen sh) d -> 0 <= v < getz sh d -> in_range sh (setz idx d v).
Proof.
  unfold in_range, inr, getz, setz. intros H Hd. assert (Hn : (Z.to_nat d < length sh)%nat) by (unfold zlen in Hd; lia).
  clear Hd. revert Hn. generalize (Z.to_nat d). clear d. induction H; intros n Hn Hv; cbn in *; [lia|]. destruct n; cbn; constructor; auto. apply IHForall2; [lia|auto].
Qed.

Lemma bump32_bump sh ra : forall inc idx, in_range sh idx -> Forall (inr (zlen sh)) ra -> 0 <= inc <= 2 ^ 14 ->
  Forall (fun d => d <= 2 ^ 31) sh -> bump32 sh ra inc idx = fst (bump sh ra inc idx).
Proof.
  induction ra as [|d ra IH]; intros inc idx Hr Hra Hi Hs; cbn [bump32 bump]; [reflexivity|].
  inversion Hra as [|? ? Hd Hra']; subst. pose proof (getz_range _ _ _ Hr Hd) as B.
  assert (Bd : getz sh d <= 2 ^ 31).
  { rewrite Forall_forall in Hs. apply Hs. unfold getz. apply nth_In. unfold inr, zlen in Hd. lia. }
  rewrite to_uint32_small by lia. destruct (getz idx d + inc <? getz sh d) eqn:E; [reflexivity|].
  rewrite Z.quot_div_nonneg, Z.rem_mod_nonneg by lia.
  pose proof (Z.mod_pos_bound (getz idx d + inc) (getz sh d) ltac:(lia)) as M.
  assert (Q : 0 <= (getz idx d + inc) / getz sh d <= inc).
  { split; [apply Z.div_pos; lia|]. apply Z.lt_succ_r. apply Z.div_lt_upper_bound; nia. }
  rewrite !to_uint32_small by lia. apply IH; auto; [|lia]. apply setz_range; auto.
Qed.

Lemma dims_small sh : posl sh -> zprod sh < 2 ^ 31 -> Forall (fun d => d <= 2 ^ 31) sh.
Proof.
  intros HP. assert (G : forall d, In d sh -> d <= zprod sh).
  { induction HP as [|x l Hx HP IH]; intros d Hd; [destruct Hd|]. rewrite zprod_cons. pose proof (zprod_posl l HP). destruct Hd as [->|Hd]; [nia|]. specialize (IH d Hd). nia. }
  intros H. apply Forall_forall. intros d Hd. specialize (G d Hd). lia.
Qed.

Lemma visits_oix sh grid : posl sh -> zprod sh < 2 ^ 31 -> 0 < grid <= 2 ^ 14 -> forall n w, 0 <= w ->
  visits n sh grid (oix sh w) = map (oix sh) (steps_from n w grid).
Proof.
  intros HP Hs Hg. induction n as [|n IH]; intros w Hw; cbn [visits steps_from map]; [reflexivity|]. f_equal.
  rewrite bump32_bump; [|apply oix_range; auto|apply axes_all_inr|lia|now apply dims_small].
  rewrite bump_oix by lia || auto. apply IH. lia.
Qed.

Lemma el_blocks_range n : 0 < n -> 1 <= el_blocks n <= 32.
Proof.
  intros H. unfold el_blocks. rewrite Z.quot_div_nonneg by lia. assert (1 <= (n + 511) / 512) by (apply Z.div_le_lower_bound; lia). lia.
Qed.

(** Workers block by block. *)
Lemma workers_range G B : 0 <= G -> 0 <= B -> flat_map (fun b => map (fun t => b * B + t) (zrange B)) (zrange G) = zrange (G * B).
Proof.
  intros HG HB. pattern G. apply natlike_ind; [reflexivity| |exact HG]. intros g Hg IH. rewrite <- Z.add_1_r, zrange_snoc by lia.
  rewrite flat_map_app, IH. cbn [flat_map]. rewrite app_nil_r. replace ((g + 1) * B) with (g * B + B) by lia. rewrite zrange_app by nia. reflexivity.
Qed.

Lemma flat_map_map {X Y W} (f : Y -> list W) (g : X -> Y) l : flat_map f (map g l) = flat_map (fun x => f (g x)) l.
Proof. induction l; cbn; congruence. Qed.
Lemma flat_map_flat {X Y W} (f : Y -> list W) (g : X -> list Y) l : flat_map f (flat_map g l) = flat_map (fun x => flat_map f (g x)) l.
Proof. induction l; cbn; auto. rewrite flat_map_app. congruence. Qed.
Lemma concat_flat {X Y} (f : X -> list Y) l : concat (map f l) = flat_map f l.
Proof. symmetry. apply flat_map_concat_map. Qed.
Lemma map_flat {X Y W} (f : Y -> W) (g : X -> list Y) l : map f (flat_map g l) = flat_map (fun x => map f (g x)) l.
Proof. induction l; cbn; auto. rewrite map_app. congruence. Qed.

Lemma perm_flat_ext {X Y} (f g : X -> list Y) l : (forall x, In x l -> f x = g x) -> flat_map f l = flat_map g l.
Proof. induction l as [|x l IH]; intros H; cbn; auto. rewrite (H x), IH; auto; [intros; apply H; now right|now left]. Qed.

Lemma my_visits_all sh : posl sh -> zprod sh < 2 ^ 31 ->
  Permutation (flat_map (fun b => flat_map (fun t => my_visits sh (zprod sh) (el_blocks (zprod sh)) b t) (zrange 512)) (zrange (el_blocks (zprod sh))))
              (all_indices sh).
Proof.
  intros HP Hs. pose proof (zprod_posl sh HP) as Hn. pose proof (el_blocks_range (zprod sh) ltac:(lia)) as HB.
  set (G := el_blocks (zprod sh)) in *.
  rewrite all_indices_digits by exact HP. change (fun n => rev (digits (rev sh) n)) with (oix sh).
  replace (flat_map (fun b => flat_map (fun t => my_visits sh (zprod sh) G b t) (zrange 512)) (zrange G))
    with (flat_map (fun w => map (oix sh) (taken (zprod sh) (G * 512) w)) (zrange (G * 512))).
  - rewrite <- map_flat. apply Permutation_map. apply taken_once; lia.
  - rewrite <- (workers_range G 512) by lia. rewrite flat_map_flat. apply perm_flat_ext. intros b Hb. apply in_zrange in Hb.
    rewrite flat_map_map. apply perm_flat_ext. intros t Ht. apply in_zrange in Ht. unfold my_visits.
    rewrite unflat_oix by (auto; lia). rewrite visits_oix by (auto; lia). reflexivity.
Qed.

Lemma all_pos_or_empty sh : Forall (fun d => 0 <= d) sh -> posl sh \/ zprod sh = 0.
Proof.
  induction 1 as [|d l Hd H IH]; [left; constructor|]. rewrite zprod_cons. destruct (Z.eq_dec d 0) as [->|]; [right; lia|].
  destruct IH as [IH|IH]; [left; constructor; [lia|exact IH]|right; rewrite IH; lia].
Qed.
Lemma empty_range sh idx : zprod sh = 0 -> in_range sh idx -> False.
Proof.
  intros H Hr. assert (G : zprod sh <> 0); [|auto]. clear H. induction Hr as [|d i l l' Hd Hr IH]; [unfold zprod; cbn; lia|]. rewrite zprod_cons. nia.
Qed.

(** What a launch does: it always ends, never goes wrong or deadlocks, and when done the cells are as stated. *)
Definition gpu_final {X Y} (eqX : X -> X -> bool) (addY : Y -> Y -> Y) (m0 : gpumem (A := X) (V := Y)) (g : list (list (bprog X Y))) (final : gpumem (A := X) (V := Y) -> Prop) : Prop :=
  grid_ends eqX addY (m0, g) /\
  forall o, bgsteps eqX addY (m0, g) o -> exists c, o = Ok c /\
    (grid_done c \/ exists c', bgstep eqX addY c (Ok c')) /\ (grid_done c -> final (fst c)).
Lemma gpu_final_weaken {X Y} eqX addY m0 g (P Q : gpumem (A := X) (V := Y) -> Prop) : (forall m, P m -> Q m) ->
  gpu_final eqX addY m0 g P -> gpu_final eqX addY m0 g Q.
Proof. intros H (H1 & H2). split; [exact H1|]. intros o Ho. destruct (H2 o Ho) as (c & E & H3 & H4). exists c. auto. Qed.

Lemma Forall2_map_same {X Y W} (P : Y -> W -> Prop) (f : X -> Y) (g : X -> W) l : (forall x, In x l -> P (f x) (g x)) -> Forall2 P (map f l) (map g l).
Proof. induction l; intros H; cbn; constructor; [apply H; now left|apply IHl; intros; apply H; now right]. Qed.

Lemma no_blocks {X Y} (eqX : X -> X -> bool) (addY : Y -> Y -> Y) m o : bgsteps eqX addY (m, []) o -> o = Ok (m, []).
Proof.
  intros H. remember (m, []) as c eqn:E. destruct H as [c|c c' o Hst H|c Hst]; subst; [reflexivity|exfalso|exfalso].
  - inversion Hst as [m1 B1 ps1 p ps2 B2 m' p' Hb E1 E2| |m1 B1 qs B2 Hq E1 E2]; destruct B1; discriminate.
  - inversion Hst as [|m1 B1 ps1 p ps2 B2 Hb E1|]; destruct B1; discriminate.
Qed.

Section El.
  Context {A B V : Type}.
  Notation val := (evalue A B V).
  Notation prog := (eprog A B V).
  Variables (addV : val -> val -> val) (sh : list Z) (m0 : gpumem (A := eaddr) (V := val)) (RO : eaddr -> Prop).
  Variables (prog_of : list (list Z) -> prog) (dst : list Z -> eaddr) (new : list Z -> val).
  Hypothesis Hprog : forall is, (forall i, In i is -> in_range sh i) -> writer RO m0 BRet (prog_of is) (map (fun i => (dst i, new i)) is).
  Hypothesis Hinj : forall i j, in_range sh i -> in_range sh j -> dst i = dst j -> i = j.
  Hypothesis HRO : forall i, in_range sh i -> ~ RO (dst i).

  Theorem el_correct : small sh ->
    gpu_final eaddr_eqb addV m0
      (el_grid (zprod sh) (fun b t => prog_of (my_visits sh (zprod sh) (el_blocks (zprod sh)) b t)))
      (fun m => (forall i, in_range sh i -> m (dst i) = Some (new i)) /\ (forall a, (forall i, in_range sh i -> dst i <> a) -> m a = m0 a)).
  Proof.
    intros (Hs1 & Hs2). destruct (all_pos_or_empty sh Hs1) as [HP|H0].
    2:{ unfold el_grid. rewrite H0. change (el_blocks 0) with 0. cbn. split; [apply grid_always_ends|].
        intros o Ho. rewrite (no_blocks _ _ _ _ Ho). exists (m0, []). split; [reflexivity|]. split; [left; constructor|].
        intros _. cbn. split; [intros i Hi; destruct (empty_range sh i H0 Hi)|auto]. }
    pose proof (my_visits_all sh HP Hs2) as HV.
    set (wss := map (fun b => map (fun t => map (fun i => (dst i, new i)) (my_visits sh (zprod sh) (el_blocks (zprod sh)) b t)) (zrange 512)) (zrange (el_blocks (zprod sh)))).
    assert (EV : concat (concat wss) = map (fun i => (dst i, new i)) (flat_map (fun b => flat_map (fun t => my_visits sh (zprod sh) (el_blocks (zprod sh)) b t) (zrange 512)) (zrange (el_blocks (zprod sh))))).
    { unfold wss. clear. induction (zrange (el_blocks (zprod sh))) as [|b l IH]; [reflexivity|].
      cbn [map concat flat_map]. rewrite concat_app, map_app, IH. f_equal. rewrite map_flat. apply concat_flat. }
    assert (EP : Permutation (concat (concat wss)) (map (fun i => (dst i, new i)) (all_indices sh))) by (rewrite EV; apply Permutation_map; exact HV).
    assert (HN : NoDup (map fst (concat (concat wss)))).
    { apply (Permutation_NoDup (Permutation_sym (Permutation_map fst EP))). rewrite map_map. cbn.
      assert (G : forall l, (forall i, In i l -> in_range sh i) -> NoDup l -> NoDup (map dst l)).
      { clear - Hinj. induction l as [|i l IH]; intros Hl Hn; cbn; constructor; inversion Hn; subst.
        - intros Hi. apply in_map_iff in Hi as (j & E & Hj). apply Hinj in E; [subst; auto|apply Hl; now right|apply Hl; now left].
        - apply IH; auto. intros; apply Hl; now right. }
      apply G; [|apply all_indices_nodup]. intros i. apply in_all_indices. }
    destruct (scatter eaddr_eqb eaddr_eqb_spec addV RO m0
      (el_grid (zprod sh) (fun b t => prog_of (my_visits sh (zprod sh) (el_blocks (zprod sh)) b t))) wss) as (H1 & H2).
    - unfold el_grid, wss. apply Forall2_map_same. intros b Hb. apply Forall2_map_same. intros t Ht. apply Hprog.
      intros i Hi. apply in_all_indices. eapply Permutation_in; [exact HV|]. apply in_flat_map. exists b. split; [exact Hb|].
      apply in_flat_map. exists t. auto.
    - exact HN.
    - intros a Ha. apply (Permutation_in _ (Permutation_map fst EP)) in Ha. rewrite map_map in Ha. apply in_map_iff in Ha as (i & <- & Hi).
      apply HRO. apply in_all_indices. exact Hi.
    - split; [exact H1|]. intros o Ho. destruct (H2 o Ho) as (c & -> & H3 & H4). exists c. split; [reflexivity|]. split; [exact H3|].
      intros Hd. specialize (H4 Hd). split.
      + intros i Hi. rewrite H4. apply put_all_in; [exact eaddr_eqb_spec|exact addV|exact HN|].
        eapply Permutation_in; [apply Permutation_sym; exact EP|]. apply in_map_iff. exists i. split; [reflexivity|]. now apply in_all_indices.
      + intros a Ha. rewrite H4. apply put_all_other; [exact eaddr_eqb_spec|exact addV|]. intros Hin.
        apply (Permutation_in _ (Permutation_map fst EP)) in Hin. rewrite map_map in Hin. apply in_map_iff in Hin as (i & E & Hi).
        apply (Ha i); [now apply in_all_indices|exact E].
  Qed.
End El.

(** Offsets of the elements from the view's origin fit the kernels' 32-bit linear index. *)
Definition near (l : layout) : Prop := forall idx, in_range (l_shape l) idx -> 0 <= cell l idx - zsum (l_offsets l) < 2 ^ 32.
(** Partial sums of the offsets fit an int. *)
Definition int_offsets (l : layout) : Prop := forall k, - 2 ^ 31 <= zsum (firstn k (l_offsets l)) < 2 ^ 31.
(** [s] is repeated along new leading axes and along axes of length 1. *)
Definition repeats_to (s out : list Z) : Prop := exists lead tail, out = lead ++ tail /\ stretches s tail.

Lemma aligned_repeats s out : aligned s out -> repeats_to s out.
Proof. intros (l & t & E & H & _). exists l, t. auto. Qed.
Lemma repeats_strides s st out : repeats_to s out -> length st = length s ->
  exists ast, bcast_strides s st out = Ok ast /\ (forall idx, length idx = length out -> lin idx ast = lin (bidx s idx) st) /\
    (forall idx, in_range out idx -> in_range s (bidx s idx)).
Proof.
  intros (lead & tail & -> & Hst) Hlen. pose proof (stretches_length _ _ Hst) as Hls. unfold bcast_strides.
  assert (L : length (lead ++ tail) = (length lead + length tail)%nat) by apply app_length.
  destruct (Nat.leb_spec (length s) (length (lead ++ tail))); [|lia]. eexists. split; [reflexivity|]. split.
  - intros idx Hi. unfold bidx. rewrite !lin_dot. rewrite Hi.
    rewrite dot_repeat0 by lia. apply dot_bidx; rewrite ?skipn_length; lia.
  - intros idx Hi. eapply bidx_in_range; eauto.
Qed.

Lemma lin32_near l idx st i : wf l -> near l -> in_range (l_shape l) i -> lin idx st = lin i (l_strides l) ->
  zsum (l_offsets l) + lin32 0 idx st = cell l i.
Proof.
  intros Hw Hn Hr E. rewrite lin32_mod, E. specialize (Hn i Hr). rewrite cell_lin in * by (auto; now apply in_range_length).
  rewrite to_uint32_small; lia.
Qed.

Lemma emem_ea {A B V} (ma : mem A) (mb : mem B) (mo : mem V) bl sd j c x : znth ma c = Some x -> emem0 ma mb mo bl sd j (EA c) = Some (XA x).
Proof. intros H. cbn. now rewrite H. Qed.

Definition is_input (a : eaddr) : Prop := match a with EA _ | EB _ => True | _ => False end.

Lemma elt_some {X} (m : mem X) l idx : inside l (zlen m) -> in_range (l_shape l) idx -> exists x, elt m l idx = Some x.
Proof. intros H Hr. apply znth_some. apply H. exact Hr. Qed.

Section Ops.
  Context {A B V : Type}.
  Notation val := (evalue A B V).
  Variables (addV : val -> val -> val) (ma : mem A) (mb : mem B) (mo : mem V) (blocks shared : Z) (junk : Z -> Z -> Z).
  Let m0 : gpumem (A := eaddr) (V := val) := emem0 ma mb mo blocks shared junk.

  (** The output holds [f] on the elements of [lo], the rest is as before. *)
  Definition el_result (lo : layout) (f : list Z -> V -> Prop) (m : gpumem (A := eaddr) (V := val)) : Prop :=
    (forall idx, in_range (l_shape lo) idx -> exists v, f idx v /\ m (EO (cell lo idx)) = Some (XO v)) /\
    (forall c, outside_view lo c -> m (EO c) = option_map XO (znth mo c)) /\
    (forall i, m (EA i) = option_map XA (znth ma i)) /\ (forall i, m (EB i) = option_map XB (znth mb i)).

  Lemma el_result_of lo f new m : wf lo -> inside lo (zlen mo) -> separate lo ->
    (forall idx, in_range (l_shape lo) idx -> exists v, f idx v /\ new idx = XO v) ->
    ((forall i, in_range (l_shape lo) i -> m (EO (cell lo i)) = Some (new i)) /\
     (forall a, (forall i, in_range (l_shape lo) i -> EO (cell lo i) <> a) -> m a = m0 a)) -> el_result lo f m.
  Proof.
    intros Hw Hi Hs Hf (H1 & H2). repeat split.
    - intros idx Hr. destruct (Hf idx Hr) as (v & Hv & E). exists v. split; [exact Hv|]. rewrite H1, E; auto.
    - intros c Hc. rewrite H2; [reflexivity|]. intros i Hr E. injection E as E. exact (Hc i Hr E).
    - intros i. rewrite H2; [reflexivity|]. intros; discriminate.
    - intros i. rewrite H2; [reflexivity|]. intros; discriminate.
  Qed.

  Theorem unary_gpu_correct (f : A -> V) lo la :
    wf lo -> wf la -> small (l_shape lo) -> zlen (l_shape lo) <= 4 ->
    repeats_to (l_shape la) (l_shape lo) -> (exists r, bcast_shape (l_shape la) (l_shape lo) = Ok r) ->
    inside lo (zlen mo) -> separate lo -> inside la (zlen ma) -> near lo -> near la ->
    exists g, unary_gpu (B := B) f lo la = Ok g /\
      gpu_final eaddr_eqb addV m0 g
        (el_result lo (fun idx v => exists x, elt ma la (bidx (l_shape la) idx) = Some x /\ v = f x)).
  Proof.
    intros Hwo Hwa Hsm H4 Hre (r & Er) Hio Hso Hia Hno Hna. unfold unary_gpu.
    destruct (repeats_strides _ (l_strides la) _ Hre (proj1 Hwa)) as (sa & -> & Dl & Dr). rewrite Er. cbn [obind].
    replace (4 <? ndim lo) with false by (unfold ndim; lia). rewrite andb_false_r. eexists. split; [reflexivity|].
    unfold numel. rewrite small_numel by exact Hsm.
    eapply gpu_final_weaken; [|eapply (el_correct (A := A) (B := B) (V := V) addV (l_shape lo) m0 is_input
      (un_items f (zsum (l_offsets lo)) (zsum (l_offsets la)) (l_strides lo) sa) (fun i => EO (cell lo i))
      (fun i => match elt ma la (bidx (l_shape la) i) with Some x => XO (f x) | None => XZ 0 end))].
    - intros m Hm. eapply el_result_of; [assumption|assumption|assumption| |exact Hm]. intros idx Hr.
      destruct (elt_some ma la (bidx (l_shape la) idx)) as (x & Ex); [auto|auto|]. cbn. rewrite Ex. exists (f x). eauto.
    - induction is as [|i is IH]; intros His; cbn [un_items map]; [constructor|].
      assert (Hi : in_range (l_shape lo) i) by (apply His; now left).
      destruct (elt_some ma la (bidx (l_shape la) i)) as (x & Ex); [auto|auto|].
      rewrite (lin32_near la i sa (bidx (l_shape la) i)) by (auto; apply Dl; now apply in_range_length).
      rewrite (lin32_near lo i (l_strides lo) i) by auto.
      eapply (wr_rd _ _ _ _ _ (XA x)); [exact I|apply emem_ea; exact Ex|]. rewrite Ex. constructor.
      + pose proof (Hio i Hi). destruct (znth_some mo (cell lo i)) as (y & Ey); [auto|]. subst m0. cbn. rewrite Ey. discriminate.
      + apply IH. intros j Hj. apply His. now right.
    - intros i j Hi Hj E. injection E as E. auto.
    - intros i Hi. cbn. auto.
    - exact Hsm.
  Qed.

  Theorem binary_gpu_correct (op : A -> B -> V) lo la lb :
    wf lo -> wf la -> wf lb -> small (l_shape lo) -> zlen (l_shape lo) <= 4 ->
    repeats_to (l_shape la) (l_shape lo) -> (exists r, bcast_shape (l_shape la) (l_shape lo) = Ok r) ->
    repeats_to (l_shape lb) (l_shape lo) -> (exists r, bcast_shape (l_shape lb) (l_shape lo) = Ok r) ->
    (length (l_shape la) = length (l_shape lb) -> compat_same_rank (l_shape la) (l_shape lb) = true) ->
    inside lo (zlen mo) -> separate lo -> inside la (zlen ma) -> inside lb (zlen mb) -> near lo -> near la -> near lb ->
    int_offsets lo -> int_offsets la -> int_offsets lb ->
    exists g, binary_gpu op lo la lb = Ok g /\
      gpu_final eaddr_eqb addV m0 g
        (el_result lo (fun idx v => exists x y, elt ma la (bidx (l_shape la) idx) = Some x /\
                                                elt mb lb (bidx (l_shape lb) idx) = Some y /\ v = op x y)).
  Proof.
    intros Hwo Hwa Hwb Hsm H4 Hra (ra & Ea) Hrb (rb & Eb) Hc Hio Hso Hia Hib Hno Hna Hnb Oo Oa Ob. unfold binary_gpu.
    replace ((ndim la =? ndim lb) && negb (compat_same_rank (l_shape la) (l_shape lb))) with false.
    2:{ unfold ndim, zlen. destruct (Z.eqb_spec (Z.of_nat (length (l_shape la))) (Z.of_nat (length (l_shape lb)))) as [E|E]; [|reflexivity].
        rewrite Hc by lia. reflexivity. }
    destruct (repeats_strides _ (l_strides la) _ Hra (proj1 Hwa)) as (sa & -> & Dl & Dr).
    destruct (repeats_strides _ (l_strides lb) _ Hrb (proj1 Hwb)) as (sb & -> & Dl' & Dr'). rewrite Ea, Eb. cbn [obind].
    replace (4 <? ndim lo) with false by (unfold ndim; lia). rewrite andb_false_r. eexists. split; [reflexivity|].
    unfold numel. rewrite small_numel by exact Hsm. rewrite !int_sum_small by assumption.
    eapply gpu_final_weaken; [|eapply (el_correct (A := A) (B := B) (V := V) addV (l_shape lo) m0 is_input
      (bin_items op (zsum (l_offsets lo)) (zsum (l_offsets la)) (zsum (l_offsets lb)) (l_strides lo) sa sb) (fun i => EO (cell lo i))
      (fun i => match elt ma la (bidx (l_shape la) i), elt mb lb (bidx (l_shape lb) i) with Some x, Some y => XO (op x y) | _, _ => XZ 0 end))].
    - intros m Hm. eapply el_result_of; [assumption|assumption|assumption| |exact Hm]. intros idx Hr.
      destruct (elt_some ma la (bidx (l_shape la) idx)) as (x & Ex); [auto|auto|].
      destruct (elt_some mb lb (bidx (l_shape lb) idx)) as (y & Ey); [auto|auto|]. cbn. rewrite Ex, Ey. exists (op x y). split; [exists x, y; auto|reflexivity].
    - induction is as [|i is IH]; intros His; cbn [bin_items map]; [constructor|].
      assert (Hi : in_range (l_shape lo) i) by (apply His; now left).
      destruct (elt_some ma la (bidx (l_shape la) i)) as (x & Ex); [auto|auto|].
      destruct (elt_some mb lb (bidx (l_shape lb) i)) as (y & Ey); [auto|auto|].
      rewrite (lin32_near la i sa (bidx (l_shape la) i)) by (auto; apply Dl; now apply in_range_length).
      rewrite (lin32_near lb i sb (bidx (l_shape lb) i)) by (auto; apply Dl'; now apply in_range_length).
      rewrite (lin32_near lo i (l_strides lo) i) by auto.
      eapply (wr_rd _ _ _ _ _ (XA x)); [exact I|apply emem_ea; exact Ex|].
      eapply (wr_rd _ _ _ _ _ (XB y)); [exact I|unfold m0; cbn; unfold elt in Ey; rewrite Ey; reflexivity|]. rewrite Ex, Ey. constructor.
      + pose proof (Hio i Hi). destruct (znth_some mo (cell lo i)) as (z & Ez); [auto|]. subst m0. cbn. rewrite Ez. discriminate.
      + apply IH. intros j Hj. apply His. now right.
    - intros i j Hi Hj E. injection E as E. auto.
    - intros i Hi. cbn. auto.
    - exact Hsm.
  Qed.
End Ops.
