(** Proofs about the array library: layouts, views, element-wise kernels. *)
From Verif Require Export NdMemFacts.
From Coq Require Import ZifyBool ZifyNat.
Ltac Zify.zify_post_hook ::= Z.div_mod_to_equations.
Local Open Scope Z_scope.

Lemma Ok_inj {A} (x y : A) : Ok x = Ok y -> x = y.
Proof. congruence. Qed.

(** ** Dense arrays *)

Lemma row_major_length r s : length (row_major_loop r s) = length r.
Proof. revert s; induction r as [|d r IH]; intros s; cbn; auto. Qed.

Lemma dense_wf dims : wf (dense dims).
Proof. split; cbn; rewrite ?rev_length, ?row_major_length, ?map_length, ?rev_length; reflexivity. Qed.

Lemma zsum_zeros {A} (l : list A) : zsum (map (fun _ => 0) l) = 0.
Proof. induction l as [|x l IH]; cbn; [reflexivity|]. rewrite zsum_cons, IH. reflexivity. Qed.

Lemma dot_digits_row_major r s n : posl r -> 0 <= n ->
  dot (digits r n) (row_major_loop r s) = s * (n mod zprod r).
Proof.
  intros H; revert s n; induction H as [|d r Hd Hr IH]; intros s n Hn; cbn.
  - rewrite zprod_nil, Z.mod_1_r. ring.
  - rewrite IH by (apply Z.div_pos; lia). rewrite zprod_cons.
    pose proof (zprod_posl _ Hr) as HP.
    rewrite Z.rem_mul_r by lia. ring.
Qed.

Lemma dense_cells dims : Forall (fun d => 0 <= d) dims ->
  map (cell (dense dims)) (all_indices dims) = zrange (zprod dims).
Proof.
  intros Hnn. destruct (nonneg_pos_cases _ Hnn) as [Hp|[Hz He]].
  2:{ rewrite Hz, He. reflexivity. }
  rewrite all_indices_digits, map_map by auto.
  rewrite <- (map_id (zrange (zprod dims))) at 2.
  apply map_ext_in. intros n Hn. apply in_zrange in Hn.
  pose proof (cells_digits (dense dims) n (dense_wf dims)) as E. cbn [dense l_shape l_strides l_offsets] in E.
  rewrite E by (rewrite digits_length, rev_length; reflexivity).
  rewrite rev_involutive, zsum_zeros, dot_digits_row_major by (try apply posl_rev; auto; lia).
  rewrite zprod_rev, Z.mod_small by lia. lia.
Qed.

Lemma in_range_nonneg sh idx : in_range sh idx -> Forall (fun d => 0 <= d) sh.
Proof. induction 1; constructor; auto; lia. Qed.

Lemma dense_inside dims : inside (dense dims) (zprod dims).
Proof.
  intros idx H. cbn [dense l_shape] in H.
  apply in_zrange. rewrite <- dense_cells by (eapply in_range_nonneg; eauto).
  apply in_map. apply in_all_indices. exact H.
Qed.

Lemma nodup_map_inj {A B} (f : A -> B) l x y :
  NoDup (map f l) -> In x l -> In y l -> f x = f y -> x = y.
Proof.
  induction l as [|a l IH]; cbn; intros Hnd Hx Hy E; [contradiction|].
  inversion Hnd as [|? ? Hni Hnd']; subst.
  destruct Hx as [->|Hx], Hy as [->|Hy]; auto.
  - elim Hni. rewrite E. apply in_map. exact Hy.
  - elim Hni. rewrite <- E. apply in_map. exact Hx.
Qed.

Lemma dense_separate dims : separate (dense dims).
Proof.
  intros i j Hi Hj E. cbn [dense l_shape] in Hi, Hj.
  eapply (nodup_map_inj (cell (dense dims)) (all_indices dims)); eauto; try (apply in_all_indices; auto).
  rewrite dense_cells by (eapply in_range_nonneg; eauto). apply zrange_nodup.
Qed.

Lemma dense_onto dims c : Forall (fun d => 0 <= d) dims -> 0 <= c < zprod dims ->
  exists idx, in_range dims idx /\ cell (dense dims) idx = c.
Proof.
  intros Hnn Hc. apply in_zrange in Hc. rewrite <- dense_cells in Hc by auto.
  apply in_map_iff in Hc. destruct Hc as (idx & E & Hin). exists idx.
  split; [apply in_all_indices|]; auto.
Qed.

(** ** Slices *)

Lemma nth_error_znth {A} (l : list A) (i : Z) x : 0 <= i -> nth_error l (Z.to_nat i) = Some x -> znth l i = Some x.
Proof. intros H E. unfold znth. replace (i <? 0) with false by lia. exact E. Qed.

Lemma znth_nth_error {A} (l : list A) (i : Z) x : znth l i = Some x -> nth_error l (Z.to_nat i) = Some x.
Proof. unfold znth. destruct (i <? 0); [discriminate|auto]. Qed.

Lemma zlen_eq_znth {A B} (l : list A) (m : list B) i x : length l = length m -> znth l i = Some x -> exists y, znth m i = Some y.
Proof.
  intros Hl H. apply znth_bounds in H. apply znth_some. unfold zlen in *. rewrite <- Hl. exact H.
Qed.

Lemma size_axis_ok a dim sz : znth (l_shape a) dim = Some sz -> size_axis a dim = Ok sz.
Proof.
  intros H. unfold size_axis, zget. rewrite H. apply znth_bounds in H. unfold ndim.
  replace (dim <? zlen (l_shape a)) with true by lia. reflexivity.
Qed.

Lemma cell_loop_upd offs idx strides n st q s i0 :
  nth_error strides n = Some st -> nth_error idx n = Some i0 -> length idx = length offs ->
  cell_loop (upd offs n (fun o => o + s * st)) idx (upd strides n (fun t => t * q))
  = cell_loop offs (upd idx n (fun i => s + i * q)) strides.
Proof.
  revert offs idx strides; induction n as [|n IH]; intros [|o offs] [|i idx] [|t strides] Hs Hi Hl;
    cbn in *; try discriminate.
  - injection Hs as ->. ring.
  - rewrite (IH offs idx strides) by (auto; lia). reflexivity.
Qed.

Lemma in_range_nth sh idx n d : in_range sh idx -> nth_error sh n = Some d ->
  exists i, nth_error idx n = Some i /\ 0 <= i < d.
Proof.
  intros H; revert n; induction H as [|d0 i0 sh idx H0 H IH]; intros [|n] E; cbn in *; try discriminate.
  - injection E as ->. eauto.
  - eauto.
Qed.

Lemma in_range_upd sh idx n d d' (f : Z -> Z) :
  nth_error sh n = Some d' -> in_range (upd sh n (fun _ => d)) idx ->
  (forall i, 0 <= i < d -> 0 <= f i < d') -> in_range sh (upd idx n f).
Proof.
  revert idx n; induction sh as [|s sh IH]; intros idx [|n] E H Hf; cbn in *; try discriminate.
  - injection E as ->. inversion H; subst. constructor; auto.
  - inversion H; subst. constructor; auto. eapply IH; eauto.
Qed.

Lemma slice1_cases a dim start stop stride sz :
  wf a -> znth (l_shape a) dim = Some sz -> 0 <= sz -> 0 <= start -> 0 <= stop -> 0 < stride ->
  (sz < start /\ slice1 a dim start stop stride = Throw OutOfRange) \/
  (start <= sz /\ Z.min stop sz < start /\ slice1 a dim start stop stride = Throw RuntimeError) \/
  (start <= Z.min stop sz /\
   exists st, znth (l_strides a) dim = Some st /\
   slice1 a dim start stop stride = Ok
     (Layout (upd (l_shape a) (Z.to_nat dim) (fun _ => (Z.min stop sz - start) / stride))
             (upd (l_strides a) (Z.to_nat dim) (fun s => s * stride))
             (upd (l_offsets a) (Z.to_nat dim) (fun o => o + start * st)))).
Proof.
  intros [Hw1 Hw2] Hsz Hsz0 Hst Hen Hstr. unfold slice1. rewrite (size_axis_ok _ _ _ Hsz). cbn [obind].
  replace (start <? 0) with false by lia. replace (stop <? 0) with false by lia.
  replace (stride =? 0) with false by lia. cbn [negb andb].
  replace (if sz <? stop then sz else stop) with (Z.min stop sz) by (destruct (Z.ltb_spec sz stop); lia).
  destruct (Z.ltb_spec sz start); [left; auto|].
  destruct (Z.ltb_spec (Z.min stop sz) start); [right; left; auto|].
  right; right. split; [lia|].
  destruct (zlen_eq_znth _ (l_strides a) dim sz (eq_sym Hw1) Hsz) as [st Est].
  exists st. rewrite Est. split; [reflexivity|].
  rewrite Z.quot_div_nonneg by lia. reflexivity.
Qed.

(** The window described by a successful slice. *)
Lemma slice1_window a dim start stop stride sz v :
  wf a -> znth (l_shape a) dim = Some sz -> 0 <= sz -> 0 <= start -> 0 <= stop -> 0 < stride ->
  slice1 a dim start stop stride = Ok v ->
  start <= Z.min stop sz /\
  wf v /\ l_shape v = upd (l_shape a) (Z.to_nat dim) (fun _ => (Z.min stop sz - start) / stride) /\
  (forall idx, in_range (l_shape v) idx ->
     in_range (l_shape a) (upd idx (Z.to_nat dim) (fun i => start + i * stride)) /\
     cell v idx = cell a (upd idx (Z.to_nat dim) (fun i => start + i * stride))).
Proof.
  intros Hw Hsz Hsz0 Hst Hen Hstr Hok.
  destruct (slice1_cases a dim start stop stride sz Hw Hsz Hsz0 Hst Hen Hstr)
    as [[_ E]|[(_ & _ & E)|(Hle & st & Est & E)]]; rewrite E in Hok; try discriminate.
  injection Hok as <-. split; [exact Hle|]. destruct Hw as [Hw1 Hw2].
  split; [split; cbn; rewrite !upd_length; auto|]. split; [reflexivity|].
  intros idx Hr. cbn [l_shape] in Hr.
  pose proof (znth_nth_error _ _ _ Hsz) as Hsz'.
  assert (Hlen : length idx = length (l_shape a)).
  { apply in_range_length in Hr. rewrite upd_length in Hr. exact Hr. }
  split.
  - eapply in_range_upd; eauto. intros i Hi.
    set (k := (Z.min stop sz - start) / stride) in *.
    assert (k * stride <= Z.min stop sz - start) by (unfold k; nia). nia.
  - unfold cell. cbn [l_offsets l_strides].
    pose proof (znth_nth_error _ _ _ Est) as Est'.
    destruct (in_range_nth _ _ (Z.to_nat dim) ((Z.min stop sz - start) / stride) Hr) as (i0 & Hi0 & _).
    { erewrite nth_error_upd_same; eauto. }
    eapply cell_loop_upd; eauto. rewrite Hlen. auto.
Qed.

Lemma upd_inj (idx idx' : list Z) n (f : Z -> Z) :
  (forall x y, f x = f y -> x = y) -> length idx = length idx' -> upd idx n f = upd idx' n f -> idx = idx'.
Proof.
  intros Hf; revert idx' n; induction idx as [|i idx IH]; intros [|i' idx'] [|n] Hl E; cbn in *; try discriminate; auto.
  - injection E as E1 E2. apply Hf in E1. congruence.
  - injection E as E1 E2. f_equal; auto. eapply IH; eauto.
Qed.

Lemma slice1_inside_separate a dim start stop stride sz v n :
  wf a -> znth (l_shape a) dim = Some sz -> 0 <= sz -> 0 <= start -> 0 <= stop -> 0 < stride ->
  slice1 a dim start stop stride = Ok v ->
  inside a n -> separate a -> inside v n /\ separate v.
Proof.
  intros Hw Hsz Hsz0 Hst Hen Hstr Hok Hin Hsep.
  destruct (slice1_window _ _ _ _ _ _ _ Hw Hsz Hsz0 Hst Hen Hstr Hok) as (_ & Hwv & Hsh & Hc).
  split.
  - intros idx Hr. destruct (Hc idx Hr) as [H1 ->]. apply Hin. exact H1.
  - intros i j Hi Hj E. destruct (Hc i Hi) as [Hi1 Hi2]. destruct (Hc j Hj) as [Hj1 Hj2].
    rewrite Hi2, Hj2 in E. apply Hsep in E; auto.
    eapply upd_inj; [|rewrite (in_range_length _ _ Hi), (in_range_length _ _ Hj); reflexivity|exact E].
    intros x y Hxy. cbv beta in Hxy. apply (Z.mul_reg_r x y stride); lia.
Qed.

(** Views obtained from a new array by any number of slices with non-negative bounds. *)
Definition good_spec (s : slice_spec) : Prop := 0 <= sp_start s /\ 0 <= sp_end s /\ 0 < sp_stride s.

Lemma upd_Forall {A} (P : A -> Prop) l n f : Forall P l -> (forall x, P x -> P (f x)) -> Forall P (upd l n f).
Proof.
  intros H Hf; revert n; induction H as [|x l Hx Hl IH]; intros [|n]; cbn; constructor; auto.
Qed.

Lemma znth_Forall {A} (P : A -> Prop) l i x : Forall P l -> znth l i = Some x -> P x.
Proof. intros H E. apply znth_nth_error in E. eapply Forall_forall; eauto. eapply nth_error_In; eauto. Qed.

Lemma slice1_some_axis a dim start stop stride v :
  slice1 a dim start stop stride = Ok v -> exists sz, znth (l_shape a) dim = Some sz.
Proof.
  unfold slice1, size_axis, zget. destruct (dim <? ndim a); [|discriminate].
  destruct (znth (l_shape a) dim); [eauto|discriminate].
Qed.

Definition good_view (n : Z) (a : layout) : Prop :=
  wf a /\ Forall (fun d => 0 <= d) (l_shape a) /\ inside a n /\ separate a.

Lemma slice_many_good specs a v n :
  Forall good_spec specs -> good_view n a -> slice_many a specs = Ok v -> good_view n v.
Proof.
  intros Hs; revert a; induction Hs as [|s specs (H1 & H2 & H3) Hs IH]; intros a Hg E; cbn in E.
  - injection E as <-. exact Hg.
  - destruct (slice1 a (sp_dim s) (sp_start s) (sp_end s) (sp_stride s)) as [a'| |] eqn:E1; cbn in E; try discriminate.
    apply (IH a'); auto. destruct Hg as (Hw & Hnn & Hin & Hsep).
    destruct (slice1_some_axis _ _ _ _ _ _ E1) as [sz Hsz].
    assert (Hsz0 : 0 <= sz) by (eapply (znth_Forall (fun d => 0 <= d)); eauto).
    destruct (slice1_window _ _ _ _ _ _ _ Hw Hsz Hsz0 H1 H2 H3 E1) as (Hle & Hw' & Hsh & _).
    destruct (slice1_inside_separate _ _ _ _ _ _ _ n Hw Hsz Hsz0 H1 H2 H3 E1 Hin Hsep) as [Hi Hse].
    split; [exact Hw'|]. split; [|split; assumption].
    rewrite Hsh. apply upd_Forall; auto. intros _ _. apply Z.div_pos; lia.
Qed.

Lemma dense_good dims : Forall (fun d => 0 <= d) dims -> good_view (zprod dims) (dense dims).
Proof.
  intros H. split; [apply dense_wf|]. split; [exact H|]. split; [apply dense_inside|apply dense_separate].
Qed.

(** Composition of two slices along one dimension. *)
Lemma upd_upd {A} (l : list A) n f g : upd (upd l n f) n g = upd l n (fun x => g (f x)).
Proof. revert n; induction l as [|x l IH]; intros [|n]; cbn; congruence. Qed.

Lemma upd_ext {A} (l : list A) n f g : (forall x, nth_error l n = Some x -> f x = g x) -> upd l n f = upd l n g.
Proof. revert n; induction l as [|x l IH]; intros [|n] H; cbn; auto; [rewrite (H x); auto|rewrite (IH n); auto]. Qed.

Lemma znth_upd_same {A} (l : list A) i f x : znth l i = Some x -> znth (upd l (Z.to_nat i) f) i = Some (f x).
Proof.
  intros H. pose proof (znth_bounds _ _ _ H). apply nth_error_znth; [lia|].
  apply nth_error_upd_same. apply znth_nth_error. exact H.
Qed.

Lemma slice_compose a dim s1 e1 t1 s2 e2 t2 sz v w :
  wf a -> znth (l_shape a) dim = Some sz -> 0 <= sz ->
  0 <= s1 -> 0 <= e1 -> 0 < t1 -> 0 <= s2 -> 0 <= e2 -> 0 < t2 ->
  slice1 a dim s1 e1 t1 = Ok v -> slice1 v dim s2 e2 t2 = Ok w ->
  slice1 a dim (s1 + s2 * t1) (s1 + Z.min e2 ((Z.min e1 sz - s1) / t1) * t1) (t1 * t2) = Ok w.
Proof.
  intros Hw Hsz Hsz0 Hs1 He1 Ht1 Hs2 He2 Ht2 E1 E2.
  assert (Hv : wf v) by (eapply (slice1_window a dim s1 e1 t1 sz v); assumption).
  destruct (slice1_cases a dim s1 e1 t1 sz Hw Hsz Hsz0 Hs1 He1 Ht1)
    as [[_ E]|[(_ & _ & E)|(Hle & st & Est & E)]]; rewrite E in E1; try discriminate.
  injection E1 as <-. clear E.
  set (n1 := (Z.min e1 sz - s1) / t1) in *.
  assert (Hn1 : 0 <= n1) by (apply Z.div_pos; lia).
  assert (Hn1t : n1 * t1 <= Z.min e1 sz - s1) by (unfold n1; nia).
  set (v := Layout _ _ _) in *.
  assert (Hszv : znth (l_shape v) dim = Some n1).
  { unfold v; cbn [l_shape]. erewrite znth_upd_same; eauto. }
  destruct (slice1_cases v dim s2 e2 t2 n1 Hv Hszv Hn1 Hs2 He2 Ht2)
    as [[_ E]|[(_ & _ & E)|(Hle2 & st2 & Est2 & E)]]; rewrite E in E2; try discriminate.
  injection E2 as <-. clear E.
  destruct (slice1_cases a dim (s1 + s2 * t1) (s1 + Z.min e2 n1 * t1) (t1 * t2) sz Hw Hsz Hsz0)
    as [[C E]|[(C1 & C2 & E)|(C & st' & Est' & E)]]; try nia.
  rewrite E. clear E. assert (st' = st) by congruence. subst st'.
  assert (st2 = st * t1).
  { unfold v in Est2; cbn [l_strides] in Est2. erewrite znth_upd_same in Est2 by eauto. congruence. }
  subst st2. f_equal. unfold v; cbn [l_shape l_strides l_offsets]. rewrite !upd_upd. f_equal.
  - apply upd_ext. intros _ _.
    replace (Z.min (s1 + Z.min e2 n1 * t1) sz) with (s1 + Z.min e2 n1 * t1) by nia.
    replace (s1 + Z.min e2 n1 * t1 - (s1 + s2 * t1)) with ((Z.min e2 n1 - s2) * t1) by ring.
    rewrite Z.mul_comm, Z.div_mul_cancel_l by lia. reflexivity.
  - apply upd_ext. intros; ring.
  - apply upd_ext. intros; ring.
Qed.

(** ** Negative bounds *)
Lemma slice_negative a dim k sz :
  wf a -> znth (l_shape a) dim = Some sz -> 1 <= k <= sz ->
  exists v, slice1 a dim (- k) sz 1 = Ok v /\
    l_shape v = upd (l_shape a) (Z.to_nat dim) (fun _ => k + 1) /\
    forall idx, in_range (l_shape v) idx ->
      cell v idx = cell a (upd idx (Z.to_nat dim) (fun i => sz - k - 1 + i)).
Proof.
  intros [Hw1 Hw2] Hsz Hk. unfold slice1. rewrite (size_axis_ok _ _ _ Hsz). cbn [obind].
  replace (- k <? 0) with true by lia. replace (sz <? 0) with false by lia.
  replace (sz <? sz) with false by lia. cbn [negb andb].
  replace (sz <? sz + - k - 1) with false by lia.
  change (1 =? 0) with false. cbv iota.
  destruct (zlen_eq_znth _ (l_strides a) dim sz (eq_sym Hw1) Hsz) as [st Est]. rewrite Est.
  eexists; split; [reflexivity|]. cbn [l_shape]. rewrite Z.quot_1_r.
  replace (sz - (sz + - k - 1)) with (k + 1) by lia. split; [reflexivity|].
  intros idx Hr. unfold cell; cbn [l_offsets l_strides].
  destruct (in_range_nth _ _ (Z.to_nat dim) (k + 1) Hr) as (i0 & Hi0 & _).
  { erewrite nth_error_upd_same; eauto using znth_nth_error. }
  assert (Hlen : length idx = length (l_offsets a)).
  { apply in_range_length in Hr. rewrite upd_length in Hr. lia. }
  rewrite (cell_loop_upd (l_offsets a) idx (l_strides a) (Z.to_nat dim) st 1 (sz + - k - 1) i0);
    auto using znth_nth_error.
  f_equal. apply upd_ext. intros x _. ring.
Qed.

(** ** squeeze / unsqueeze / reshape *)
Lemma remove_insert {A} (l : list A) n v : (n <= length l)%nat -> remove_at (insert_at l n v) n = l.
Proof. revert n; induction l as [|x l IH]; intros [|n] H; cbn in *; auto; try lia. rewrite IH; auto; lia. Qed.

Lemma nth_insert_same {A} (l : list A) n v : (n <= length l)%nat -> nth_error (insert_at l n v) n = Some v.
Proof. revert n; induction l as [|x l IH]; intros [|n] H; cbn in *; auto; try lia. apply IH. lia. Qed.

Lemma insert_length {A} (l : list A) n v : (n <= length l)%nat -> length (insert_at l n v) = S (length l).
Proof. revert n; induction l as [|x l IH]; intros [|n] H; cbn in *; auto; try lia. rewrite IH; lia. Qed.

Lemma squeeze_unsqueeze a axis : wf a -> 0 <= axis <= ndim a ->
  exists b, unsqueeze a axis = Ok b /\ squeeze b axis = Ok a.
Proof.
  intros [Hw1 Hw2] Ha. unfold ndim, zlen in Ha. unfold unsqueeze.
  replace ((axis <? 0) || (ndim a <? axis)) with false by (unfold ndim, zlen; lia).
  eexists; split; [reflexivity|].
  unfold squeeze, ndim. cbn [l_shape l_strides l_offsets].
  replace (axis <? 0) with false by lia. rewrite (proj2 (Z.ltb_ge axis 0)) by lia.
  unfold zlen. rewrite insert_length by lia.
  replace (Z.of_nat (S (length (l_shape a))) - 1 <? axis) with false by lia.
  unfold zget. rewrite (nth_error_znth _ _ 1); [|lia|apply nth_insert_same; lia].
  cbn [obind]. change (negb (1 =? 1)) with false. cbv iota.
  rewrite !remove_insert by lia. destruct a; reflexivity.
Qed.

Lemma all_indices_insert sh n : (n <= length sh)%nat ->
  all_indices (insert_at sh n 1) = map (fun idx => insert_at idx n 0) (all_indices sh).
Proof.
  revert n; induction sh as [|d sh IH]; intros [|n] H; cbn [insert_at all_indices]; cbn in H; try lia.
  - reflexivity.
  - rewrite (zrange_cons 1) by lia. cbn. rewrite app_nil_r. apply map_ext. intros idx. destruct idx; reflexivity.
  - rewrite map_flat_map. rewrite !flat_map_concat_map. f_equal. apply map_ext. intros i.
    rewrite IH by lia. rewrite !map_map. reflexivity.
Qed.

Lemma cell_loop_insert offs idx strides n o s : (n <= length offs)%nat -> length idx = length offs -> length strides = length offs ->
  cell_loop (insert_at offs n o) (insert_at idx n 0) (insert_at strides n s) = o + cell_loop offs idx strides.
Proof.
  revert idx strides n; induction offs as [|o' offs IH]; intros [|i idx] [|t strides] [|n] Hn H1 H2; cbn in *; try discriminate; try lia.
  rewrite IH by lia. ring.
Qed.

Lemma unsqueeze_elements {V} (m : mem V) a axis b : wf a -> unsqueeze a axis = Ok b -> elements m b = elements m a.
Proof.
  intros [Hw1 Hw2]. unfold unsqueeze. destruct ((axis <? 0) || (ndim a <? axis)) eqn:E; [discriminate|].
  unfold ndim, zlen in E. intros H. injection H as <-.
  unfold elements. cbn [l_shape]. rewrite all_indices_insert by lia. rewrite map_map.
  apply map_ext_in. intros idx Hin. apply in_all_indices, in_range_length in Hin.
  unfold elt, cell. cbn [l_offsets l_strides]. rewrite cell_loop_insert by lia. f_equal.
Qed.

Lemma remove_insert_id {A} (l : list A) n x : nth_error l n = Some x -> insert_at (remove_at l n) n x = l.
Proof.
  revert n; induction l as [|y l IH]; intros [|n] H; cbn in *; try discriminate;
    [destruct l; cbn; congruence|].
  rewrite IH; auto.
Qed.

Lemma remove_length {A} (l : list A) n : (n < length l)%nat -> length (remove_at l n) = pred (length l).
Proof.
  revert n; induction l as [|y l IH]; intros [|n] H; cbn in *; try lia.
  rewrite IH by lia. destruct l; cbn in *; lia.
Qed.

(** Squeezing moves every element back by the offset of the removed axis. *)
Lemma squeeze_elements {V} (m : mem V) a axis b : wf a -> squeeze a axis = Ok b ->
  exists off, znth (l_offsets a) (if axis <? 0 then ndim a + axis else axis) = Some off /\
    elements m b = map (fun idx => znth m (cell a idx - off)) (all_indices (l_shape a)).
Proof.
  intros [Hw1 Hw2]. unfold squeeze.
  set (ax := if axis <? 0 then ndim a + axis else axis).
  destruct (Z.ltb_spec ax 0); [discriminate|].
  destruct (Z.ltb_spec (ndim a - 1) ax); [discriminate|].
  unfold zget. destruct (znth (l_shape a) ax) as [d|] eqn:Ed; [|discriminate]. cbn [obind].
  destruct (negb (d =? 1)) eqn:Ed1; [discriminate|]. assert (d = 1) by lia. subst d.
  intros E. injection E as <-.
  destruct (zlen_eq_znth _ (l_offsets a) ax 1 (eq_sym Hw2) Ed) as [off Eoff].
  destruct (zlen_eq_znth _ (l_strides a) ax 1 (eq_sym Hw1) Ed) as [st Est].
  exists off. split; [exact Eoff|].
  apply znth_nth_error in Ed, Eoff, Est. set (n := Z.to_nat ax) in *.
  assert (Hn : (n < length (l_shape a))%nat) by (apply nth_error_Some; congruence).
  unfold elements. cbn [l_shape].
  replace (all_indices (l_shape a)) with (all_indices (insert_at (remove_at (l_shape a) n) n 1))
    by (rewrite (remove_insert_id _ _ _ Ed); reflexivity).
  rewrite all_indices_insert by (rewrite remove_length; lia). rewrite map_map.
  apply map_ext_in. intros idx Hin. apply in_all_indices, in_range_length in Hin.
  rewrite remove_length in Hin by lia.
  unfold elt, cell. cbn [l_offsets l_strides].
  pose proof (cell_loop_insert (remove_at (l_offsets a) n) idx (remove_at (l_strides a) n) n off st) as C.
  rewrite (remove_insert_id _ _ _ Eoff), (remove_insert_id _ _ _ Est) in C. rewrite C.
  1: f_equal; lia. all: rewrite !remove_length; lia.
Qed.

Lemma reshape_strides_nil r acc : reshape_strides r [] acc = row_major_loop r acc.
Proof. revert acc; induction r as [|d r IH]; intros acc; cbn; congruence. Qed.

(** Two layouts of the same dense cells list the same elements. *)
Lemma elements_cells {V} (m : mem V) l : elements m l = map (znth m) (map (cell l) (all_indices (l_shape l))).
Proof. unfold elements. rewrite map_map. reflexivity. Qed.

Lemma layout_shift_cells dims strides offs : length strides = length dims -> length offs = length dims ->
  map (cell (Layout dims strides offs)) (all_indices dims)
  = map (fun c => zsum offs + c) (map (cell (Layout dims strides (map (fun _ => 0) dims))) (all_indices dims)).
Proof.
  intros H1 H2. rewrite map_map. apply map_ext_in. intros idx Hin. apply in_all_indices, in_range_length in Hin.
  rewrite !cell_dot; cbn [l_shape l_offsets l_strides]; auto; try (split; cbn; rewrite ?map_length; auto).
  rewrite zsum_zeros. reflexivity.
Qed.

Lemma zsum_repeat0 n : zsum (repeat 0 n) = 0.
Proof. induction n as [|n IH]; cbn; [reflexivity|]. rewrite zsum_cons, IH. reflexivity. Qed.

(** From a contiguous one-dimensional view (stride one) reshape to any other rank lists the same
    elements. *)
Lemma reshape_from_1d {V} (m : mem V) n off new b :
  Forall (fun d => 0 <= d) new -> 0 <= n < 2 ^ 31 -> zprod new < 2 ^ 31 ->
  reshape (Layout [n] [1] [off]) new = Ok b -> l_shape b = new /\ elements m b = elements m (Layout [n] [1] [off]).
Proof.
  intros Hnn Hn Hsm. unfold reshape, numel. cbn [l_shape l_strides l_offsets ndim].
  rewrite (small_numel new) by (split; auto).
  rewrite (small_numel [n]) by (split; [repeat constructor; lia|]; rewrite zprod_cons, zprod_nil; lia).
  rewrite zprod_cons, zprod_nil, Z.mul_1_r.
  destruct (Z.eqb_spec (zprod new) n) as [En|]; [|discriminate]. cbn [negb].
  destruct (zlen new =? _); [discriminate|].
  destruct (rev new) as [|r0 r] eqn:Er; [discriminate|]. intros E. apply Ok_inj in E. subst b.
  split; [reflexivity|]. rewrite <- Er. cbn [tl rev]. rewrite reshape_strides_nil.
  rewrite !elements_cells. cbn [l_shape].
  assert (Hlen : length new = S (length r)) by (rewrite <- (rev_length new), Er; reflexivity).
  rewrite layout_shift_cells;
    [|rewrite rev_length, row_major_length, rev_length; reflexivity
     |rewrite app_length, repeat_length; cbn; lia].
  pose proof (dense_cells new Hnn) as D. unfold dense in D. rewrite D. clear D.
  rewrite zsum_app, zsum_repeat0, !zsum_cons, zsum_nil.
  f_equal. rewrite En. cbn [all_indices map]. rewrite map_flat_map.
  cbn. unfold cell; cbn. rewrite flat_map_single. apply map_ext. intros x. ring.
Qed.

(** Flattening a dense array of rank two or more. *)
Lemma row_major_tl_rev d1 d2 rest : exists pre, rev (tl (l_strides (dense (d1 :: d2 :: rest)))) = 1 :: pre.
Proof.
  cbn [dense l_strides]. set (l := d2 :: rest).
  assert (E : rev (row_major_loop (rev (d1 :: l)) 1) = zprod l :: rev (row_major_loop (rev l) 1)).
  { cbn [rev].
    assert (G : forall r s d, row_major_loop (r ++ [d]) s = row_major_loop r s ++ [s * zprod r]).
    { clear. induction r as [|x r IH]; intros s d; cbn; [rewrite zprod_nil, Z.mul_1_r; reflexivity|].
      rewrite IH, zprod_cons, Z.mul_assoc. reflexivity. }
    change (rev rest ++ [d2]) with (rev l). rewrite G, rev_app_distr. cbn [rev app].
    rewrite zprod_rev, Z.mul_1_l. reflexivity. }
  rewrite E. cbn [tl]. rewrite rev_involutive. unfold l.
  destruct (rev (d2 :: rest)) as [|x r] eqn:Er.
  - apply (f_equal (@rev Z)) in Er. rewrite rev_involutive in Er. discriminate.
  - cbn. eauto.
Qed.

Lemma reshape_flatten {V} (m : mem V) dims n b :
  Forall (fun d => 0 <= d) dims -> zprod dims < 2 ^ 31 -> (2 <= length dims)%nat -> 0 <= n < 2 ^ 31 ->
  reshape (dense dims) [n] = Ok b -> l_shape b = [n] /\ elements m b = elements m (dense dims).
Proof.
  intros Hnn Hsm Hlen Hn0. unfold reshape, numel.
  rewrite (small_numel [n]) by (split; [repeat constructor; lia|]; rewrite zprod_cons, zprod_nil; lia).
  change (l_shape (dense dims)) with dims.
  rewrite (small_numel dims) by (split; auto). rewrite zprod_cons, zprod_nil, Z.mul_1_r.
  destruct (Z.eqb_spec n (zprod dims)) as [->|]; [|discriminate]. cbn [negb].
  destruct (zlen [_] =? _); [discriminate|]. cbn [rev app].
  destruct dims as [|d1 [|d2 rest]]; cbn in Hlen; try lia.
  destruct (row_major_tl_rev d1 d2 rest) as [pre Epre]. rewrite Epre.
  intros E. apply Ok_inj in E. subst b. split; [reflexivity|].
  cbn [reshape_strides rev app length Nat.sub repeat].
  rewrite !elements_cells. f_equal. cbn [l_shape]. rewrite dense_cells by auto.
  cbn [l_offsets dense]. rewrite zsum_zeros.
  set (P := zprod _). cbn [all_indices map]. rewrite map_flat_map. cbn. unfold cell; cbn.
  rewrite flat_map_single. rewrite <- (map_id (zrange P)) at 2. apply map_ext. intros x. ring.
Qed.

(** ** Element-wise kernels *)

Lemma inside_elt {V} (m : mem V) l idx : inside l (zlen m) -> in_range (l_shape l) idx -> exists v, elt m l idx = Some v.
Proof. intros H Hr. apply znth_some. apply H. exact Hr. Qed.

Lemma run2_cells {A V} (f : A -> V) (ma : mem A) (mo : mem V) lo (cin : list Z -> Z) :
  inside lo (zlen mo) -> separate lo ->
  (forall idx, in_range (l_shape lo) idx -> 0 <= cin idx < zlen ma) ->
  exists mo', run2 f ma mo (map (fun idx => (cell lo idx, cin idx)) (all_indices (l_shape lo))) = Ok mo' /\
    zlen mo' = zlen mo /\
    (forall idx, in_range (l_shape lo) idx -> exists x, znth ma (cin idx) = Some x /\ elt mo' lo idx = Some (f x)) /\
    (forall c, outside_view lo c -> znth mo' c = znth mo c).
Proof.
  intros Hin Hsep Hcin.
  destruct (posl_dec (l_shape lo)) as [Hp|Hp]; cycle 1.
  { (* no element at all *)
    assert (Hno : forall idx, ~ in_range (l_shape lo) idx).
    { intros idx Hr. apply Hp. clear - Hr. induction Hr; constructor; auto; lia. }
    assert (E : all_indices (l_shape lo) = []).
    { destruct (all_indices (l_shape lo)) as [|i is] eqn:E; [reflexivity|].
      elim (Hno i). apply in_all_indices. rewrite E. left. reflexivity. }
    rewrite E. exists mo. cbn. repeat split; auto. intros idx Hr. elim (Hno _ Hr). }
  assert (HA : exists a0 : A, True).
  { destruct (all_indices (l_shape lo)) as [|i is] eqn:E.
    - rewrite all_indices_digits in E by auto. pose proof (zprod_posl _ Hp).
      rewrite zrange_cons in E by lia. discriminate.
    - assert (Hr : in_range (l_shape lo) i) by (apply in_all_indices; rewrite E; left; auto).
      destruct (znth_some ma (cin i) (Hcin i Hr)) as [x _]. eauto. }
  destruct HA as [a0 _].
  set (tr := map _ _).
  set (val := fun p : Z * Z => match znth ma (snd p) with Some x => x | None => a0 end).
  rewrite (run2_writes f ma mo tr val).
  2:{ intros [o i] Hp2. unfold tr in Hp2. apply in_map_iff in Hp2. destruct Hp2 as (idx & E & Hi).
      injection E as <- <-. apply in_all_indices in Hi. unfold val. cbn [snd].
      destruct (znth_some ma (cin idx) (Hcin idx Hi)) as [x Hx]. rewrite Hx. reflexivity. }
  assert (Efst : map fst (map (fun p : Z * Z => (fst p, f (val p))) tr) = map (cell lo) (all_indices (l_shape lo))).
  { unfold tr. rewrite !map_map. reflexivity. }
  destruct (writes_spec (map (fun p => (fst p, f (val p))) tr) mo) as (mo' & E & L & S1 & S2).
  - rewrite Efst. apply separate_nodup. exact Hsep.
  - intros o v Hov. apply (in_map fst) in Hov. rewrite Efst in Hov. cbn [fst] in Hov.
    apply in_map_iff in Hov. destruct Hov as (idx & <- & Hi). apply Hin. apply in_all_indices. exact Hi.
  - exists mo'. split; [exact E|]. split; [exact L|]. split.
    + intros idx Hr. destruct (znth_some ma (cin idx) (Hcin idx Hr)) as [x Hx]. exists x. split; [exact Hx|].
      unfold elt. apply S1. apply in_map_iff. exists (cell lo idx, cin idx). split.
      * unfold val; cbn [fst snd]. rewrite Hx. reflexivity.
      * unfold tr. apply (in_map (fun idx => (cell lo idx, cin idx))). apply in_all_indices. exact Hr.
    + intros c Hc. apply S2. rewrite Efst. intros Hi. apply in_map_iff in Hi.
      destruct Hi as (idx & E' & Hi). apply (Hc idx); auto. apply in_all_indices. exact Hi.
Qed.

Lemma scalar_op_correct {A V} (f : A -> V) lo la (mo : mem V) (ma : mem A) :
  wf lo -> wf la -> small (l_shape lo) -> l_shape la = l_shape lo ->
  inside lo (zlen mo) -> separate lo -> inside la (zlen ma) ->
  exists mo', scalar_op f lo la mo ma = Ok mo' /\ zlen mo' = zlen mo /\
    (forall idx, in_range (l_shape lo) idx -> exists x, elt ma la idx = Some x /\ elt mo' lo idx = Some (f x)) /\
    (forall c, outside_view lo c -> znth mo' c = znth mo c).
Proof.
  intros Hwo Hwa Hs Hsh Hio Hso Hia. unfold scalar_op.
  replace (length (l_shape la) <? length (l_shape lo))%nat with false by (rewrite Hsh; lia).
  assert (Hf : follows (l_shape lo) (l_shape la) (l_strides la)).
  { rewrite Hsh. apply follows_refl. destruct Hwa as [H _]. rewrite H, Hsh. reflexivity. }
  rewrite (loop2_cells lo la (l_shape la) (l_strides la)) by auto.
  assert (Hc : forall idx, in_range (l_shape lo) idx -> zsum (l_offsets la) + dot idx (l_strides la) = cell la idx).
  { intros idx Hr. rewrite cell_dot; auto. apply in_range_length in Hr. rewrite Hsh. exact Hr. }
  destruct (run2_cells f ma mo lo (fun idx => zsum (l_offsets la) + dot idx (l_strides la)) Hio Hso)
    as (mo' & E & L & S1 & S2).
  { intros idx Hr. rewrite Hc by auto. apply Hia. rewrite Hsh. exact Hr. }
  exists mo'. split; [exact E|]. split; [exact L|]. split; [|exact S2].
  intros idx Hr. destruct (S1 idx Hr) as (x & Hx & Hv). exists x. rewrite Hc in Hx by auto. auto.
Qed.

Lemma fill_correct {V} lo (mo : mem V) (v : V) :
  wf lo -> small (l_shape lo) -> inside lo (zlen mo) -> separate lo ->
  exists mo', fill lo mo v = Ok mo' /\ zlen mo' = zlen mo /\
    (forall idx, in_range (l_shape lo) idx -> elt mo' lo idx = Some v) /\
    (forall c, outside_view lo c -> znth mo' c = znth mo c).
Proof.
  intros Hw Hs Hin Hsep. unfold fill. rewrite view_trace_cells by auto. rewrite run_fill_writes.
  rewrite map_map.
  destruct (writes_spec (map (fun x => (cell lo x, v)) (all_indices (l_shape lo))) mo) as (mo' & E & L & S1 & S2).
  - rewrite map_map. cbn. apply separate_nodup. exact Hsep.
  - intros o w Hi. apply in_map_iff in Hi. destruct Hi as (idx & E & Hi). injection E as <- <-.
    apply Hin. apply in_all_indices. exact Hi.
  - exists mo'. split; [exact E|]. split; [exact L|]. split.
    + intros idx Hr. apply S1. apply (in_map (fun x => (cell lo x, v))). apply in_all_indices. exact Hr.
    + intros c Hc. apply S2. rewrite map_map. cbn. intros Hi. apply in_map_iff in Hi.
      destruct Hi as (idx & E' & Hi). apply (Hc idx); auto. apply in_all_indices. exact Hi.
Qed.

Lemma run_read_gets {V} (m : mem V) cs : (forall c, In c cs -> 0 <= c < zlen m) ->
  exists vs, run_read m cs = Ok vs /\ map Some vs = map (znth m) cs.
Proof.
  induction cs as [|c cs IH]; intros H; cbn; [exists []; auto|].
  destruct (znth_some m c (H c (or_introl eq_refl))) as [x Hx].
  rewrite (load_some _ _ _ Hx). cbn.
  destruct IH as (vs & -> & E); [intros c' Hc'; apply H; right; exact Hc'|].
  cbn. exists (x :: vs). cbn. rewrite Hx, E. auto.
Qed.

Lemma write_to_file_correct {V} (m : mem V) l :
  wf l -> small (l_shape l) -> inside l (zlen m) ->
  exists vs, write_to_file l m = Ok vs /\ map Some vs = elements m l.
Proof.
  intros Hw Hs Hin. unfold write_to_file. rewrite view_trace_cells by auto.
  rewrite elements_cells. apply run_read_gets. intros c Hc. apply in_map_iff in Hc.
  destruct Hc as (idx & <- & Hi). apply Hin. apply in_all_indices. exact Hi.
Qed.

(** ** Broadcasting *)

Lemma stretches_length s out : stretches s out -> length s = length out.
Proof. induction 1; cbn; auto. Qed.

Lemma bcast_shape_stretch s out : stretches s out -> bcast_shape s out = Ok out.
Proof.
  induction 1 as [|d o s out Hd H IH]; cbn; [reflexivity|].
  replace ((d =? o) || (d =? 1)) with true by lia. rewrite IH. reflexivity.
Qed.

Lemma bcast_shape_lead d0 s lead tail : d0 <> 1 -> ~ In d0 lead -> stretches (d0 :: s) tail ->
  bcast_shape (d0 :: s) (lead ++ tail) = Ok (map (fun _ => 1) lead ++ tail).
Proof.
  intros H1 Hni Ht. induction lead as [|x lead IH]; cbn [app map].
  - apply bcast_shape_stretch. exact Ht.
  - cbn [bcast_shape]. cbn in Hni. replace ((d0 =? x) || (d0 =? 1)) with false by lia.
    rewrite IH by tauto. reflexivity.
Qed.

(** Shapes whose broadcast the kernel handles: same rank, or fewer axes with a first axis that is
    neither 1 nor equal to one of the leading axes of the output. *)
Definition aligned (s out : list Z) : Prop :=
  exists lead tail, out = lead ++ tail /\ stretches s tail /\
    (lead = [] \/ exists d0 s', s = d0 :: s' /\ d0 <> 1 /\ ~ In d0 lead).

Lemma zip_with_length {A B C} (f : A -> B -> C) l m : length l = length m -> length (zip_with f l m) = length l.
Proof. revert m; induction l as [|x l IH]; intros [|y m] H; cbn in *; auto. Qed.

Lemma follows_stretch s out st : stretches s out -> length st = length s ->
  follows out out (zip_with (fun d t => if d =? 1 then 0 else t) s st) /\ True.
Proof.
  intros H; split; [|exact I]. revert st H0. induction H as [|d o s out Hd H IH]; intros [|t st] Hl; cbn in *; try discriminate; constructor; auto.
Qed.

Lemma follows_ones lead st : length st = length lead -> Forall (fun t => t = 0) st ->
  follows lead (map (fun _ => 1) lead) st.
Proof.
  revert st; induction lead as [|x lead IH]; intros [|t st] Hl Hz; cbn in *; try discriminate; constructor.
  - right. inversion Hz; auto.
  - apply IH; auto. inversion Hz; auto.
Qed.

Lemma dot_repeat0 k idx rest : (k <= length idx)%nat -> dot idx (repeat 0 k ++ rest) = dot (skipn k idx) rest.
Proof.
  revert idx; induction k as [|k IH]; intros idx H; cbn; [reflexivity|].
  destruct idx as [|i idx]; cbn in *; [lia|]. rewrite IH by lia. ring.
Qed.

Lemma dot_bidx s st idx : length st = length s -> length idx = length s ->
  dot idx (zip_with (fun d t => if d =? 1 then 0 else t) s st)
  = dot (zip_with (fun d i => if d =? 1 then 0 else i) s idx) st.
Proof.
  revert st idx; induction s as [|d s IH]; intros [|t st] [|i idx] H1 H2; cbn in *; try discriminate; auto.
  rewrite IH by lia. destruct (d =? 1); ring.
Qed.

Lemma bidx_length s idx : (length s <= length idx)%nat -> length (bidx s idx) = length s.
Proof. intros H. unfold bidx. apply zip_with_length. rewrite skipn_length. lia. Qed.

Lemma bidx_in_range s lead tail idx : stretches s tail -> in_range (lead ++ tail) idx -> in_range s (bidx s idx).
Proof.
  intros Hst Hr. unfold bidx.
  pose proof (in_range_length _ _ Hr) as Hl. rewrite app_length in Hl.
  pose proof (stretches_length _ _ Hst) as Hls.
  replace (length idx - length s)%nat with (length lead) by lia.
  clear Hl. unfold in_range in Hr. apply Forall2_app_inv_l in Hr. destruct Hr as (l1 & l2 & H1 & H2 & ->).
  assert (El : length l1 = length lead) by (apply in_range_length; exact H1).
  rewrite skipn_app, skipn_all2 by lia. replace (length lead - length l1)%nat with O by lia. cbn [skipn app].
  clear - Hst H2. revert l2 H2. induction Hst as [|d o s tail Hd Hst IH]; intros l2 H2; inversion H2; subst; cbn; constructor; auto.
  - destruct (Z.eqb_spec d 1); [lia|]. destruct Hd; subst; lia.
  - apply IH. assumption.
Qed.

Lemma aligned_bcast s st out : aligned s out -> length st = length s ->
  exists ash ast, bcast_shape s out = Ok ash /\ bcast_strides s st out = Ok ast /\ follows out ash ast /\
    (forall idx, length idx = length out -> dot idx ast = dot (bidx s idx) st).
Proof.
  intros (lead & tail & -> & Hst & Hl) Hlen.
  pose proof (stretches_length _ _ Hst) as Hls.
  assert (Ek : (length (lead ++ tail) - length s)%nat = length lead) by (rewrite app_length; lia).
  assert (Hb : exists ash, bcast_shape s (lead ++ tail) = Ok (ash ++ tail) /\ length ash = length lead /\
                           (ash = map (fun _ => 1) lead)).
  { destruct Hl as [-> | (d0 & s' & -> & H1 & Hni)].
    - exists []. cbn. rewrite bcast_shape_stretch by auto. auto.
    - exists (map (fun _ => 1) lead). rewrite bcast_shape_lead by auto. rewrite map_length. auto. }
  destruct Hb as (ash & Eb & Ela & Eash).
  exists (ash ++ tail), (repeat 0 (length lead) ++ zip_with (fun d t => if d =? 1 then 0 else t) s st).
  split; [exact Eb|]. split.
  { unfold bcast_strides. rewrite Ek. replace (length s <=? length (lead ++ tail))%nat with true by (rewrite app_length; lia).
    reflexivity. }
  split.
  - apply follows_app; [|apply follows_stretch; auto].
    rewrite Eash. apply follows_ones; [apply repeat_length|]. clear. induction (length lead); cbn; constructor; auto.
  - intros idx Hidx. rewrite dot_repeat0 by (rewrite Hidx, app_length; lia).
    rewrite dot_bidx by (rewrite ?skipn_length; rewrite ?Hidx, ?app_length; lia).
    unfold bidx. rewrite Hidx, Ek. reflexivity.
Qed.

Lemma compat_of_stretch sa sb out : stretches sa out -> stretches sb out -> compat_same_rank sa sb = true.
Proof.
  intros Ha; revert sb; induction Ha as [|d o sa out Hd Ha IH]; intros sb Hb; inversion Hb; subst; cbn; auto.
  change (forallb _ (combine sa l)) with (compat_same_rank sa l). rewrite IH by auto.
  rewrite andb_true_r. lia.
Qed.

Lemma binary_op_correct {A B V} (op : A -> B -> V) lo la lb (mo : mem V) (ma : mem A) (mb : mem B) :
  wf lo -> wf la -> wf lb -> small (l_shape lo) -> l_shape lo <> [] ->
  aligned (l_shape la) (l_shape lo) -> aligned (l_shape lb) (l_shape lo) ->
  (length (l_shape la) = length (l_shape lb) -> compat_same_rank (l_shape la) (l_shape lb) = true) ->
  inside lo (zlen mo) -> separate lo -> inside la (zlen ma) -> inside lb (zlen mb) ->
  exists mo', binary_op op lo la lb mo ma mb = Ok mo' /\ zlen mo' = zlen mo /\
    (forall idx, in_range (l_shape lo) idx ->
       exists x y, elt ma la (bidx (l_shape la) idx) = Some x /\ elt mb lb (bidx (l_shape lb) idx) = Some y /\
                   elt mo' lo idx = Some (op x y)) /\
    (forall c, outside_view lo c -> znth mo' c = znth mo c).
Proof.
  intros Hwo Hwa Hwb Hs Hne Haa Hab Hcompat Hio Hso Hia Hib. unfold binary_op.
  replace ((ndim la =? ndim lb) && negb (compat_same_rank (l_shape la) (l_shape lb))) with false.
  2:{ unfold ndim, zlen. destruct (Z.eqb_spec (Z.of_nat (length (l_shape la))) (Z.of_nat (length (l_shape lb)))) as [E|E]; [|reflexivity].
      rewrite Hcompat by lia. reflexivity. }
  destruct (aligned_bcast _ (l_strides la) _ Haa (proj1 Hwa)) as (ash & ast & E1 & E2 & F1 & D1).
  destruct (aligned_bcast _ (l_strides lb) _ Hab (proj1 Hwb)) as (bsh & bst & E3 & E4 & F2 & D2).
  rewrite E2, E4, E1, E3. cbn [obind].
  destruct (l_shape lo) as [|d0 sh0] eqn:Esh; [congruence|]. rewrite <- Esh in *.
  rewrite bin_loop_cells by auto.
  assert (Hca : forall idx, in_range (l_shape lo) idx -> zsum (l_offsets la) + dot idx ast = cell la (bidx (l_shape la) idx)
                            /\ in_range (l_shape la) (bidx (l_shape la) idx)).
  { intros idx Hr. pose proof (in_range_length _ _ Hr) as Hl. rewrite D1 by auto.
    destruct Haa as (lead & tail & Eo & Hst & _).
    assert (Hb : in_range (l_shape la) (bidx (l_shape la) idx)) by (eapply bidx_in_range; eauto; rewrite <- Eo; exact Hr).
    rewrite cell_dot by (auto using in_range_length). auto. }
  assert (Hcb : forall idx, in_range (l_shape lo) idx -> zsum (l_offsets lb) + dot idx bst = cell lb (bidx (l_shape lb) idx)
                            /\ in_range (l_shape lb) (bidx (l_shape lb) idx)).
  { intros idx Hr. pose proof (in_range_length _ _ Hr) as Hl. rewrite D2 by auto.
    destruct Hab as (lead & tail & Eo & Hst & _).
    assert (Hb : in_range (l_shape lb) (bidx (l_shape lb) idx)) by (eapply bidx_in_range; eauto; rewrite <- Eo; exact Hr).
    rewrite cell_dot by (auto using in_range_length). auto. }
  set (tr := map _ (all_indices (l_shape lo))).
  (* values read *)
  assert (Hra : forall idx, in_range (l_shape lo) idx -> exists x, elt ma la (bidx (l_shape la) idx) = Some x).
  { intros idx Hr. apply inside_elt; auto. apply Hca. exact Hr. }
  assert (Hrb : forall idx, in_range (l_shape lo) idx -> exists y, elt mb lb (bidx (l_shape lb) idx) = Some y).
  { intros idx Hr. apply inside_elt; auto. apply Hcb. exact Hr. }
  assert (Hcase : all_indices (l_shape lo) = [] \/ exists i0, in_range (l_shape lo) i0).
  { destruct (all_indices (l_shape lo)) as [|i0 is0] eqn:Eall; [left; reflexivity|right].
    exists i0. apply in_all_indices. rewrite Eall. left. reflexivity. }
  destruct Hcase as [Eall|[i0 Hr0]].
  { exists mo. unfold tr. rewrite Eall. cbn. repeat split; auto.
    intros idx Hr. apply in_all_indices in Hr. rewrite Eall in Hr. destruct Hr. }
  destruct (Hra i0 Hr0) as [a0 _]. destruct (Hrb i0 Hr0) as [b0 _].
  set (va := fun p : Z * Z * Z => match znth ma (snd (fst p)) with Some x => x | None => a0 end).
  set (vb := fun p : Z * Z * Z => match znth mb (snd p) with Some x => x | None => b0 end).
  rewrite (run3_writes op ma mb mo tr va vb).
  2:{ intros p Hp. unfold tr in Hp. apply in_map_iff in Hp. destruct Hp as (idx & <- & Hi). apply in_all_indices in Hi.
      unfold va. cbn [fst snd]. destruct (Hca idx Hi) as [-> _]. destruct (Hra idx Hi) as [x Hx]. unfold elt in Hx. rewrite Hx. reflexivity. }
  2:{ intros p Hp. unfold tr in Hp. apply in_map_iff in Hp. destruct Hp as (idx & <- & Hi). apply in_all_indices in Hi.
      unfold vb. cbn [fst snd]. destruct (Hcb idx Hi) as [-> _]. destruct (Hrb idx Hi) as [x Hx]. unfold elt in Hx. rewrite Hx. reflexivity. }
  assert (Efst : map fst (map (fun p => (fst (fst p), op (va p) (vb p))) tr) = map (cell lo) (all_indices (l_shape lo))).
  { unfold tr. rewrite !map_map. reflexivity. }
  destruct (writes_spec (map (fun p => (fst (fst p), op (va p) (vb p))) tr) mo) as (mo' & E & L & S1 & S2).
  - rewrite Efst. apply separate_nodup. exact Hso.
  - intros o v Hov. apply (in_map fst) in Hov. rewrite Efst in Hov. cbn [fst] in Hov.
    apply in_map_iff in Hov. destruct Hov as (idx & <- & Hi). apply Hio. apply in_all_indices. exact Hi.
  - exists mo'. split; [exact E|]. split; [exact L|]. split.
    + intros idx Hr. destruct (Hra idx Hr) as [x Hx]. destruct (Hrb idx Hr) as [y Hy]. exists x, y.
      split; [exact Hx|]. split; [exact Hy|]. unfold elt at 1. apply S1. apply in_map_iff.
      exists (cell lo idx, zsum (l_offsets la) + dot idx ast, zsum (l_offsets lb) + dot idx bst). split.
      * unfold va, vb; cbn [fst snd]. destruct (Hca idx Hr) as [-> _]. destruct (Hcb idx Hr) as [-> _].
        unfold elt in Hx, Hy. rewrite Hx, Hy. reflexivity.
      * unfold tr. apply (in_map (fun idx => (cell lo idx, zsum (l_offsets la) + dot idx ast, zsum (l_offsets lb) + dot idx bst))).
        apply in_all_indices. exact Hr.
    + intros c Hc. apply S2. rewrite Efst. intros Hi. apply in_map_iff in Hi.
      destruct Hi as (idx & E' & Hi). apply (Hc idx); auto. apply in_all_indices. exact Hi.
Qed.
