(** More proofs about the array library: broadcasting shapes, whole operations on new outputs,
    copies, operators with the scalar on the left, element counts, export, files. *)
From Verif Require Export NdProofs.
From Coq Require Import ZifyBool ZifyNat.
Ltac Zify.zify_post_hook ::= Z.div_mod_to_equations.
Local Open Scope Z_scope.

(** ** expand_shapes *)

Definition axes_fit (ra rb : list Z) : Prop :=
  forall k, nth k ra 1 = nth k rb 1 \/ nth k ra 1 = 1 \/ nth k rb 1 = 1.

Lemma expand_loop_ok ra rb : length ra = length rb -> axes_fit ra rb ->
  exists r, expand_loop ra rb = Ok r /\ length r = length ra /\
            forall k, (k < length ra)%nat -> nth k r 1 = Z.max (nth k ra 1) (nth k rb 1).
Proof.
  revert rb; induction ra as [|a ra IH]; intros [|b rb] Hl Hf; cbn in Hl; try discriminate.
  - exists []. cbn. repeat split; auto. intros; lia.
  - pose proof (Hf 0%nat) as H0. cbn in H0. cbn [expand_loop].
    replace (negb (a =? b) && negb (a =? 1) && negb (b =? 1)) with false by lia.
    destruct (IH rb) as (r & -> & Hlr & Hk); [lia| |].
    { intros k. apply (Hf (S k)). }
    cbn [obind]. eexists; split; [reflexivity|]. cbn. split; [lia|].
    intros [|k] Hk'; cbn; [reflexivity|]. apply Hk. cbn in Hk'. lia.
Qed.

Lemma expand_loop_bad ra rb : length ra = length rb -> ~ axes_fit ra rb ->
  expand_loop ra rb = Throw InvalidArgument.
Proof.
  revert rb; induction ra as [|a ra IH]; intros [|b rb] Hl Hf; cbn in Hl; try discriminate.
  - elim Hf. intros k. auto.
  - cbn [expand_loop].
    destruct (negb (a =? b) && negb (a =? 1) && negb (b =? 1)) eqn:E; [reflexivity|].
    rewrite IH; [reflexivity|lia|]. intros H. apply Hf. intros [|k]; cbn; [lia|apply H].
Qed.

Lemma pad1_length r n : (length r <= n)%nat -> length (pad1 r n) = n.
Proof. intros H. unfold pad1. rewrite app_length, repeat_length. lia. Qed.

Lemma nth_repeat1 j k : nth k (repeat 1 j) 1 = 1.
Proof. revert k; induction j as [|j IH]; intros [|k]; cbn; auto. Qed.

Lemma pad1_nth r n k : nth k (pad1 r n) 1 = nth k r 1.
Proof.
  unfold pad1. destruct (Nat.lt_ge_cases k (length r)).
  - apply app_nth1. lia.
  - rewrite app_nth2 by lia. rewrite nth_repeat1. symmetry. apply nth_overflow. lia.
Qed.

Lemma expand_shapes_ok a b : broadcastable a b ->
  exists s, expand_shapes a b = Ok s /\ length s = Nat.max (length a) (length b) /\
    forall k, (k < Nat.max (length a) (length b))%nat ->
      axis_from_end s k = Z.max (axis_from_end a k) (axis_from_end b k).
Proof.
  intros H. unfold expand_shapes. set (n := Nat.max (length a) (length b)).
  destruct (expand_loop_ok (pad1 (rev a) n) (pad1 (rev b) n)) as (r & -> & Hl & Hk).
  - rewrite !pad1_length; rewrite ?rev_length; lia.
  - intros k. rewrite !pad1_nth. apply H.
  - cbn [obind]. exists (rev r). split; [reflexivity|].
    rewrite pad1_length in Hl, Hk by (rewrite rev_length; lia).
    split; [rewrite rev_length; exact Hl|]. intros k Hlt. unfold axis_from_end.
    rewrite rev_involutive, Hk, !pad1_nth by lia. reflexivity.
Qed.

Lemma expand_shapes_bad a b : ~ broadcastable a b -> expand_shapes a b = Throw InvalidArgument.
Proof.
  intros H. unfold expand_shapes. set (n := Nat.max (length a) (length b)).
  rewrite expand_loop_bad; [reflexivity| |].
  - rewrite !pad1_length; rewrite ?rev_length; lia.
  - intros F. apply H. intros k. specialize (F k). rewrite !pad1_nth in F. exact F.
Qed.

Lemma expand_loop_comm ra rb : expand_loop ra rb = expand_loop rb ra.
Proof.
  revert rb; induction ra as [|a ra IH]; intros [|b rb]; cbn; auto.
  rewrite IH, (Z.max_comm a b).
  replace (negb (b =? a) && negb (b =? 1) && negb (a =? 1))
    with (negb (a =? b) && negb (a =? 1) && negb (b =? 1)) by lia.
  reflexivity.
Qed.

Lemma expand_shapes_comm a b : expand_shapes a b = expand_shapes b a.
Proof. unfold expand_shapes. rewrite Nat.max_comm, expand_loop_comm. reflexivity. Qed.

Lemma expand_loop_self ra : expand_loop ra ra = Ok ra.
Proof.
  induction ra as [|a ra IH]; cbn; [reflexivity|]. rewrite Z.eqb_refl. cbn. rewrite IH. cbn.
  rewrite Z.max_id. reflexivity.
Qed.

Lemma expand_shapes_self a : expand_shapes a a = Ok a.
Proof.
  unfold expand_shapes. rewrite Nat.max_id. unfold pad1. rewrite rev_length, Nat.sub_diag. cbn [repeat].
  rewrite app_nil_r, expand_loop_self. cbn. rewrite rev_involutive. reflexivity.
Qed.


Lemma expand_shapes_throw_iff a b : expand_shapes a b = Throw InvalidArgument <-> ~ broadcastable a b.
Proof.
  split; [|apply expand_shapes_bad].
  intros E H. destruct (expand_shapes_ok a b H) as (s & E' & _). congruence.
Qed.

(** numpy gives 0 for a zero-length axis against an axis of size 1; the code gives 1. *)
Lemma expand_shapes_zero : expand_shapes [0] [1] = Ok [1].
Proof. reflexivity. Qed.

(** ** From the broadcast shape to stretching *)

Lemma Forall2_of_nth (P : Z -> Z -> Prop) l m : length l = length m ->
  (forall k, (k < length l)%nat -> P (nth k l 1) (nth k m 1)) -> Forall2 P l m.
Proof.
  revert m; induction l as [|x l IH]; intros [|y m] Hl H; cbn in Hl; try discriminate; constructor.
  - apply (H 0%nat). cbn. lia.
  - apply IH; [lia|]. intros k Hk. apply (H (S k)). cbn. lia.
Qed.

Lemma Forall2_rev {A B} (P : A -> B -> Prop) l m : Forall2 P l m -> Forall2 P (rev l) (rev m).
Proof. induction 1; cbn; [constructor|]. apply Forall2_app; auto. Qed.

Lemma axis_from_end_nth s k : (k < length s)%nat -> axis_from_end s k = nth (length s - S k) s 1.
Proof. intros H. unfold axis_from_end. apply rev_nth. exact H. Qed.

Lemma axis_from_end_positive s k : posl s -> 0 < axis_from_end s k.
Proof.
  intros H. unfold axis_from_end. destruct (Nat.lt_ge_cases k (length (rev s))).
  - apply posl_rev in H. apply (proj1 (Forall_forall _ _) H). apply nth_In. exact H0.
  - rewrite nth_overflow by lia. lia.
Qed.

Lemma expand_stretches a b s : posl a -> posl b -> expand_shapes a b = Ok s ->
  exists lead tail, s = lead ++ tail /\ stretches a tail.
Proof.
  intros Ha Hb E.
  assert (Hbr : broadcastable a b).
  { intros k.
    destruct (Z.eq_dec (axis_from_end a k) (axis_from_end b k)); auto.
    destruct (Z.eq_dec (axis_from_end a k) 1); auto.
    destruct (Z.eq_dec (axis_from_end b k) 1); auto.
    exfalso. rewrite expand_shapes_bad in E; [discriminate|]. intros H. destruct (H k) as [|[|]]; auto. }
  destruct (expand_shapes_ok a b Hbr) as (s' & E' & Hl & Hk). assert (s' = s) by congruence. subst s'. clear E'.
  set (j := (length s - length a)%nat).
  exists (firstn j s), (skipn j s). split; [symmetry; apply firstn_skipn|].
  assert (Hlt : length (skipn j s) = length a) by (rewrite skipn_length; unfold j; lia).
  apply Forall2_of_nth; [lia|]. intros i Hi.
  pose (k := (length a - S i)%nat).
  specialize (Hk k ltac:(unfold k; lia)). specialize (Hbr k).
  pose proof (axis_from_end_positive a k Ha). pose proof (axis_from_end_positive b k Hb).
  rewrite (axis_from_end_nth s) in Hk by (unfold k; lia).
  rewrite (axis_from_end_nth a) in * by (unfold k; lia).
  replace (length s - S k)%nat with (j + i)%nat in Hk by (unfold k, j; lia).
  replace (length a - S k)%nat with i in * by (unfold k; lia).
  assert (Es : nth i (skipn j s) 1 = nth (j + i) s 1).
  { rewrite <- (firstn_skipn j s) at 2. rewrite app_nth2 by (rewrite firstn_length; lia).
    f_equal. rewrite firstn_length. unfold j. lia. }
  rewrite Es. lia.
Qed.

(** Where the kernel is able to walk an operand of shape [s] against an output of shape [out]:
    equal number of axes, or a first axis of [s] that is not 1 and differs from every leading axis
    of [out]. *)
Definition walkable (s out : list Z) : Prop :=
  length s = length out \/
  exists d0 s', s = d0 :: s' /\ d0 <> 1 /\ ~ In d0 (firstn (length out - length s) out).

Lemma aligned_of_walkable s out lead tail : out = lead ++ tail -> stretches s tail -> walkable s out -> aligned s out.
Proof.
  intros E Hst Hw. exists lead, tail. split; [exact E|]. split; [exact Hst|].
  pose proof (stretches_length _ _ Hst) as Hl.
  assert (El : (length out - length s)%nat = length lead) by (rewrite E, app_length; lia).
  destruct Hw as [Hw|(d0 & s' & Es & H1 & H2)].
  - left. rewrite E, app_length in Hw. destruct lead; [reflexivity|cbn in Hw; lia].
  - right. exists d0, s'. split; [exact Es|]. split; [exact H1|].
    rewrite El, E, firstn_app, Nat.sub_diag, firstn_all in H2. cbn in H2. rewrite app_nil_r in H2. exact H2.
Qed.

Lemma compat_of_broadcastable a b : length a = length b -> broadcastable a b -> compat_same_rank a b = true.
Proof.
  intros Hl H.
  assert (F : Forall2 (fun x y => x = y \/ x = 1 \/ y = 1) a b).
  { apply Forall2_of_nth; auto. intros i Hi. specialize (H (length a - S i)%nat).
    rewrite !axis_from_end_nth in H by lia. rewrite <- Hl in H.
    replace (length a - S (length a - S i))%nat with i in H by lia. exact H. }
  clear Hl H. unfold compat_same_rank. induction F; cbn; [reflexivity|]. rewrite IHF. lia.
Qed.

Lemma posl_nonneg s : posl s -> Forall (fun d => 0 <= d) s.
Proof. apply Forall_impl. intros; lia. Qed.

Lemma expand_posl a b s : posl a -> posl b -> expand_shapes a b = Ok s -> posl s.
Proof.
  intros Ha Hb E. assert (Hbr : broadcastable a b).
  { intros k.
    destruct (Z.eq_dec (axis_from_end a k) (axis_from_end b k)); auto.
    destruct (Z.eq_dec (axis_from_end a k) 1); auto.
    destruct (Z.eq_dec (axis_from_end b k) 1); auto.
    exfalso. rewrite expand_shapes_bad in E; [discriminate|]. intros H. destruct (H k) as [|[|]]; auto. }
  destruct (expand_shapes_ok a b Hbr) as (s' & E' & Hl & Hk). assert (s' = s) by congruence. subst s'.
  apply Forall_forall. intros x Hx. apply In_nth with (d := 1) in Hx. destruct Hx as (i & Hi & <-).
  specialize (Hk (length s - S i)%nat ltac:(lia)).
  rewrite axis_from_end_nth in Hk by lia. replace (length s - S (length s - S i))%nat with i in Hk by lia.
  rewrite Hk. pose proof (axis_from_end_positive a (length s - S i) Ha). lia.
Qed.

Lemma expand_broadcastable a b s : expand_shapes a b = Ok s -> broadcastable a b.
Proof.
  intros E k.
  destruct (Z.eq_dec (axis_from_end a k) (axis_from_end b k)); auto.
  destruct (Z.eq_dec (axis_from_end a k) 1); auto.
  destruct (Z.eq_dec (axis_from_end b k) 1); auto.
  exfalso. rewrite expand_shapes_bad in E; [discriminate|]. intros H. destruct (H k) as [|[|]]; auto.
Qed.

(** [a + b] and [a / b]. *)
Lemma expand_op_correct {A B V} (op : A -> B -> V) junk la lb (ma : mem A) (mb : mem B) s :
  wf la -> wf lb -> posl (l_shape la) -> posl (l_shape lb) ->
  expand_shapes (l_shape la) (l_shape lb) = Ok s -> s <> [] -> zprod s < 2 ^ 31 ->
  walkable (l_shape la) s -> walkable (l_shape lb) s ->
  inside la (zlen ma) -> inside lb (zlen mb) ->
  exists m, expand_op op junk la lb ma mb = Ok (dense s, m) /\ zlen m = zprod s /\
    forall idx, in_range s idx ->
      exists x y, elt ma la (bidx (l_shape la) idx) = Some x /\ elt mb lb (bidx (l_shape lb) idx) = Some y /\
                  elt m (dense s) idx = Some (op x y).
Proof.
  intros Hwa Hwb Hpa Hpb E Hne Hsm Wa Wb Hia Hib. unfold expand_op. rewrite E. cbn [obind].
  pose proof (expand_posl _ _ _ Hpa Hpb E) as Hps. pose proof (posl_nonneg _ Hps) as Hnn.
  destruct (expand_stretches _ _ _ Hpa Hpb E) as (lda & tla & Ea & Sa).
  rewrite expand_shapes_comm in E.
  destruct (expand_stretches _ _ _ Hpb Hpa E) as (ldb & tlb & Eb & Sb).
  destruct (binary_op_correct op (dense s) la lb (fresh junk s) ma mb) as (m & E' & L & S & _); auto.
  - apply dense_wf.
  - split; auto.
  - apply (aligned_of_walkable _ _ lda tla); assumption.
  - apply (aligned_of_walkable _ _ ldb tlb); assumption.
  - intros Hl. apply compat_of_broadcastable; auto. rewrite expand_shapes_comm in E. eapply expand_broadcastable; eauto.
  - rewrite fresh_length by auto. apply dense_inside.
  - apply dense_separate.
  - rewrite E'. cbn [obind]. exists m. split; [reflexivity|].
    rewrite L, fresh_length by auto. split; [reflexivity|]. exact S.
Qed.

(** [a - b], [a * b] and the comparisons, when the right operand stretches to the left one. *)
Lemma left_shape_op_correct {A B V} (op : A -> B -> V) junk la lb (ma : mem A) (mb : mem B) lead tail :
  wf la -> wf lb -> small (l_shape la) -> l_shape la <> [] ->
  l_shape la = lead ++ tail -> stretches (l_shape lb) tail -> walkable (l_shape lb) (l_shape la) ->
  inside la (zlen ma) -> inside lb (zlen mb) ->
  exists m, left_shape_op op junk la lb ma mb = Ok (dense (l_shape la), m) /\ zlen m = zprod (l_shape la) /\
    forall idx, in_range (l_shape la) idx ->
      exists x y, elt ma la idx = Some x /\ elt mb lb (bidx (l_shape lb) idx) = Some y /\
                  elt m (dense (l_shape la)) idx = Some (op x y).
Proof.
  intros Hwa Hwb Hs Hne E Sb Wb Hia Hib. unfold left_shape_op.
  assert (Sa : stretches (l_shape la) (l_shape la)) by (clear; induction (l_shape la); constructor; auto).
  destruct (binary_op_correct op (dense (l_shape la)) la lb (fresh junk (l_shape la)) ma mb) as (m & E' & L & S & _); auto.
  - apply dense_wf.
  - exists [], (l_shape la). split; [reflexivity|]. split; [exact Sa|left; reflexivity].
  - apply (aligned_of_walkable _ _ lead tail); assumption.
  - intros Hl. cbn in *. apply compat_of_stretch with (out := l_shape la); [exact Sa|].
    pose proof (stretches_length _ _ Sb) as Hl2. rewrite E, app_length in Hl.
    destruct lead; [|cbn in Hl; lia]. cbn in E. rewrite E. exact Sb.
  - rewrite fresh_length by apply Hs. apply dense_inside.
  - apply dense_separate.
  - rewrite E'. cbn [obind]. exists m. split; [reflexivity|]. rewrite L, fresh_length by apply Hs.
    split; [reflexivity|]. intros idx Hr. destruct (S idx Hr) as (x & y & Hx & Hy & Hv).
    exists x, y. split; [|auto].
    assert (Eb : cell la (bidx (l_shape la) idx) = cell la idx).
    { unfold bidx. rewrite (in_range_length _ _ Hr), Nat.sub_diag. cbn [skipn].
      cbn [dense l_shape] in Hr. f_equal. clear - Hr. induction Hr; cbn; [reflexivity|]. rewrite IHHr.
      destruct (Z.eqb_spec x 1); f_equal; lia. }
    unfold elt in *. rewrite Eb in Hx. exact Hx.
Qed.

(** An operand whose axes all match the leading axes of a higher-rank output makes the kernel read
    past its shape. *)
Lemma bcast_shape_prefix s out rest : stretches s out -> rest <> [] -> bcast_shape s (out ++ rest) = UB.
Proof.
  intros H Hr. induction H as [|d o s out Hd H IH]; cbn.
  - destruct rest; [congruence|reflexivity].
  - replace ((d =? o) || (d =? 1)) with true by lia. rewrite IH. reflexivity.
Qed.

Lemma bcast_strides_ok s st out : (length s <= length out)%nat -> exists r, bcast_strides s st out = Ok r.
Proof. intros H. unfold bcast_strides. replace (length s <=? length out)%nat with true by lia. eauto. Qed.

Lemma expand_op_prefix_ub {A V} (op : A -> A -> V) junk n (ma mb : mem A) :
  1 <= n -> expand_op op junk (dense [n; n]) (dense [n]) ma mb = UB.
Proof.
  intros Hn. unfold expand_op.
  assert (E : expand_shapes [n; n] [n] = Ok [n; n]).
  { unfold expand_shapes. cbn. rewrite Z.eqb_refl. cbn.
    replace (negb (n =? 1) && negb (n =? 1) && negb (1 =? 1)) with false by lia.
    rewrite Z.max_id, Z.max_l by lia.
    destruct (negb (n =? 1)); reflexivity. }
  cbn [dense l_shape]. rewrite E. cbn [obind]. unfold binary_op. cbn [dense l_shape ndim].
  unfold ndim, zlen; cbn [l_shape dense length].
  change (Z.of_nat 2 =? Z.of_nat 1) with false. cbn [andb].
  destruct (bcast_strides_ok [n; n] (l_strides (dense [n; n])) [n; n]) as [r1 ->]; [cbn; lia|].
  destruct (bcast_strides_ok [n] (l_strides (dense [n])) [n; n]) as [r2 ->]; [cbn; lia|]. cbn [obind].
  rewrite bcast_shape_stretch by (repeat constructor; auto). cbn [obind].
  change (bcast_shape [n] [n; n]) with (bcast_shape [n] ([n] ++ [n])).
  rewrite bcast_shape_prefix; [reflexivity|repeat constructor; auto|discriminate].
Qed.

(** The output of - * and the comparisons always has the shape of the left operand. *)
Lemma left_shape_op_shape {A B V} (op : A -> B -> V) junk la lb (ma : mem A) (mb : mem B) r :
  left_shape_op op junk la lb ma mb = Ok r -> l_shape (fst r) = l_shape la.
Proof.
  unfold left_shape_op. destruct (binary_op _ _ _ _ _ _ _); cbn; try discriminate.
  intros E; injection E as <-. reflexivity.
Qed.

(** ** Array-scalar operations *)
Lemma array_scalar_op_correct {A S V} (op : A -> S -> V) junk la (ma : mem A) (b : S) :
  wf la -> small (l_shape la) -> inside la (zlen ma) ->
  exists m, array_scalar_op op junk la ma b = Ok (dense (l_shape la), m) /\ zlen m = zprod (l_shape la) /\
    forall idx, in_range (l_shape la) idx ->
      exists x, elt ma la idx = Some x /\ elt m (dense (l_shape la)) idx = Some (op x b).
Proof.
  intros Hw Hs Hin. unfold array_scalar_op.
  destruct (scalar_op_correct (fun x => op x b) (dense (l_shape la)) la (fresh junk (l_shape la)) ma)
    as (m & E & L & S1 & _); auto.
  - apply dense_wf.
  - rewrite fresh_length by apply Hs. apply dense_inside.
  - apply dense_separate.
  - rewrite E. cbn [obind]. exists m. split; [reflexivity|]. rewrite L, fresh_length by apply Hs.
    split; [reflexivity|]. exact S1.
Qed.

(** ** Copy into a view *)
Lemma assign_slice_correct {A V} (cast : A -> V) dst src (md : mem V) (ms : mem A) :
  wf dst -> wf src -> small (l_shape dst) -> l_shape src = l_shape dst ->
  inside dst (zlen md) -> separate dst -> inside src (zlen ms) ->
  exists md', assign_slice cast dst src md ms = Ok md' /\ zlen md' = zlen md /\
    (forall idx, in_range (l_shape dst) idx -> exists x, elt ms src idx = Some x /\ elt md' dst idx = Some (cast x)) /\
    (forall c, outside_view dst c -> znth md' c = znth md c).
Proof.
  intros Hwd Hws Hs Hsh Hid Hsd His. unfold assign_slice, unary_op.
  assert (Sd : stretches (l_shape dst) (l_shape dst)) by (clear; induction (l_shape dst); constructor; auto).
  rewrite Hsh, bcast_shape_stretch by auto. cbn [obind].
  unfold bcast_strides. rewrite Nat.leb_refl, Nat.sub_diag. cbn [repeat app obind].
  replace (ndim src =? ndim dst) with true by (unfold ndim; rewrite Hsh; lia).
  replace (forallb _ _) with true.
  2:{ symmetry. apply forallb_forall. intros p Hp. apply orb_true_iff. left. clear - Hp.
      induction (l_shape dst); cbn in Hp; [contradiction|]. destruct Hp as [<-|Hp]; [apply Z.eqb_refl|auto]. }
  set (ast := zip_with _ _ _).
  assert (Hlst : length (l_strides src) = length (l_shape dst)) by (rewrite <- Hsh; apply Hws).
  rewrite (loop2_cells dst src (l_shape dst) ast) by (auto; apply follows_stretch; auto).
  assert (Hc : forall idx, in_range (l_shape dst) idx -> zsum (l_offsets src) + dot idx ast = cell src idx).
  { intros idx Hr. rewrite cell_dot; auto; [|apply in_range_length in Hr; rewrite Hsh; exact Hr].
    f_equal. unfold ast. rewrite dot_bidx by (auto; apply in_range_length in Hr; exact Hr).
    f_equal. clear - Hr. induction Hr; cbn; [reflexivity|]. rewrite IHHr. destruct (Z.eqb_spec x 1); f_equal; lia. }
  destruct (run2_cells cast ms md dst (fun idx => zsum (l_offsets src) + dot idx ast) Hid Hsd)
    as (mo' & E & L & S1 & S2).
  { intros idx Hr. rewrite Hc by auto. apply His. rewrite Hsh. exact Hr. }
  exists mo'. split; [exact E|]. split; [exact L|]. split; [|exact S2].
  intros idx Hr. destruct (S1 idx Hr) as (x & Hx & Hv). exists x. rewrite Hc in Hx by auto. auto.
Qed.

Lemma bcast_shape_values s out r : bcast_shape s out = Ok r ->
  forallb (fun p => (fst p =? snd p) || (fst p =? 1)) (combine r out) = true.
Proof.
  revert s r; induction out as [|o out IH]; intros s r E; cbn in E; [injection E as <-; reflexivity|].
  destruct s as [|d s]; [discriminate|].
  destruct ((d =? o) || (d =? 1));
    [destruct (bcast_shape s out) as [r'| |] eqn:E'|destruct (bcast_shape (d :: s) out) as [r'| |] eqn:E'];
    cbn in E; try discriminate; injection E as <-; cbn; rewrite (IH _ _ E'); lia.
Qed.

Lemma run2_never_throws {A V} (f : A -> V) ma tr : forall mo e, run2 f ma mo tr <> Throw e.
Proof.
  induction tr as [|[o i] tr IH]; intros mo e; cbn; [discriminate|].
  unfold load, zget, store. destruct (znth ma i); cbn; [|discriminate].
  destruct ((0 <=? o) && (o <? zlen mo)); cbn; [apply IH|discriminate].
Qed.

(** A copy between views of the same rank never reports a shape mismatch. *)
Lemma assign_slice_never_throws {A V} (cast : A -> V) dst src (md : mem V) (ms : mem A) e :
  ndim src = ndim dst -> assign_slice cast dst src md ms <> Throw e.
Proof.
  intros Hn. unfold assign_slice, unary_op.
  destruct (bcast_shape (l_shape src) (l_shape dst)) as [ash| |] eqn:E; cbn; try discriminate.
  2:{ exfalso. clear - E. revert E. generalize (l_shape src). induction (l_shape dst) as [|o out IH]; intros s E; cbn in E; [discriminate|].
      destruct s as [|d s]; [discriminate|]. destruct ((d =? o) || (d =? 1)).
      - destruct (bcast_shape s out) eqn:E'; cbn in E; try discriminate. eapply IH; rewrite E'; exact E.
      - destruct (bcast_shape (d :: s) out) eqn:E'; cbn in E; try discriminate. eapply IH; rewrite E'; exact E. }
  unfold bcast_strides. destruct (length ash <=? length (l_shape dst))%nat; cbn; [|discriminate].
  rewrite Hn, Z.eqb_refl, (bcast_shape_values _ _ _ E). apply run2_never_throws.
Qed.

(** ** Element count *)
Lemma numel_dense dims : dims <> [] -> numel (dense dims) = to_int32 (zprod dims).
Proof. intros H. apply numel_of_int32. exact H. Qed.

(** ** DLPack export *)
Lemma to_dlpack_dense dims : to_dlpack (dense dims) = dense dims.
Proof. reflexivity. Qed.

Lemma to_dlpack_shift a idx : wf a -> in_range (l_shape a) idx ->
  cell a idx = cell (to_dlpack a) idx + zsum (l_offsets a).
Proof.
  intros Hw Hr. pose proof (in_range_length _ _ Hr) as Hl.
  rewrite (cell_dot a) by auto.
  rewrite (cell_dot (to_dlpack a)); [|split; cbn; [apply Hw|apply map_length]|exact Hl].
  cbn [to_dlpack l_offsets l_strides]. rewrite zsum_zeros. lia.
Qed.

(** ** Files *)
Lemma firstn_app_exact {A} n (l m : list A) : length l = n -> firstn n (l ++ m) = l.
Proof. intros <-. rewrite firstn_app, Nat.sub_diag, firstn_all. cbn. apply app_nil_r. Qed.

Lemma concat_length_const {A} k (ls : list (list A)) : Forall (fun l => length l = k) ls ->
  length (concat ls) = (length ls * k)%nat.
Proof. induction 1; cbn; [reflexivity|]. rewrite app_length. lia. Qed.

Lemma skipn_concat {A} k (ls : list (list A)) i : Forall (fun l => length l = k) ls ->
  skipn (i * k) (concat ls) = concat (skipn i ls).
Proof.
  intros H; revert i; induction H as [|l ls Hl H IH]; intros [|i]; cbn.
  - reflexivity.
  - rewrite skipn_nil. reflexivity.
  - reflexivity.
  - rewrite <- IH. rewrite skipn_app. rewrite skipn_all2 by lia. cbn. f_equal. lia.
Qed.

Lemma read_of_chunks k (ls : list (list Z)) : 0 < k -> Forall (fun l => zlen l = k) ls ->
  read_from_file k (concat ls) = Ok ls.
Proof.
  intros Hk H. unfold read_from_file. replace (k <=? 0) with false by lia.
  assert (H' : Forall (fun l => length l = Z.to_nat k) ls).
  { eapply Forall_impl; [|exact H]. unfold zlen. intros l Hl. lia. }
  assert (El : zlen (concat ls) = zlen ls * k).
  { unfold zlen. rewrite (concat_length_const _ _ H'). lia. }
  rewrite El, Z.quot_mul by lia. rewrite Z.ltb_irrefl.
  f_equal. clear El H. revert H'.
  assert (G : forall n (ls : list (list Z)), length ls = n -> Forall (fun l => length l = Z.to_nat k) ls ->
            map (fun i => firstn (Z.to_nat k) (skipn (Z.to_nat (i * k)) (concat ls))) (zrange (Z.of_nat n)) = ls).
  { clear ls. induction n as [|n IH]; intros [|l ls] Hl Hf; cbn in Hl; try discriminate; [reflexivity|].
    inversion Hf as [|? ? Hl0 Hf']; subst. rewrite zrange_cons by lia. cbn [map].
    rewrite Z.mul_0_l. change (Z.to_nat 0) with 0%nat. cbn [skipn concat]. rewrite firstn_app_exact by auto. f_equal.
    rewrite map_map. replace (Z.of_nat (S n) - 1) with (Z.of_nat n) by lia.
    etransitivity; [|apply (IH ls); [lia|exact Hf']]. apply map_ext_in. intros i Hi. apply in_zrange in Hi.
    replace (Z.to_nat ((1 + i) * k)) with (Z.to_nat k + Z.to_nat (i * k))%nat by nia.
    f_equal. rewrite skipn_app, skipn_all2 by lia. cbn [app]. f_equal. lia. }
  intros H'. apply (G (length ls)); auto.
Qed.

Lemma read_truncated k bytes : 0 < k -> zlen bytes mod k <> 0 -> read_from_file k bytes = UB.
Proof.
  intros Hk Hm. unfold read_from_file. replace (k <=? 0) with false by lia.
  rewrite Z.quot_div_nonneg by (unfold zlen; lia).
  replace (zlen bytes / k * k <? zlen bytes) with true; [reflexivity|].
  pose proof (Z_div_mod_eq_full (zlen bytes) k). pose proof (Z.mod_pos_bound (zlen bytes) k Hk). nia.
Qed.
