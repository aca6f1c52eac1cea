(** Property theorems C09, C10, C11, C14, C16, C17. *)
From Verif Require Import RedProofs3 DeferProofs.
From Coq Require Import ZifyBool ZifyNat Sorting.Sorted QArith.
Local Open Scope Z_scope.

(** C09: every contributing element exactly once, in every layout. *)
Theorem C09_sum : forall A (zero : A) add junk l (m : mem A) axes, red_hyps m l axes ->
  exists vs, nd_sum zero add junk l m axes = Ok (dense (out_shape axes (l_shape l)), vs) /\
    zlen vs = zprod (out_shape axes (l_shape l)) /\
    forall o, in_range (out_shape axes (l_shape l)) o -> exists es xs,
      enumerates (l_shape l) axes o es /\ reads m l es xs /\
      elt vs (dense (out_shape axes (l_shape l))) o = Some (fold_left add xs zero).
Proof. exact @sum_correct. Qed.
Print Assumptions C09_sum.

Theorem C09_sum_any_order : forall A (zero : A) add junk l (m : mem A) axes, red_hyps m l axes ->
  (forall a b, add a b = add b a) -> (forall a b c, add a (add b c) = add (add a b) c) ->
  exists vs, nd_sum zero add junk l m axes = Ok (dense (out_shape axes (l_shape l)), vs) /\
    forall o es xs, in_range (out_shape axes (l_shape l)) o -> enumerates (l_shape l) axes o es -> reads m l es xs ->
      elt vs (dense (out_shape axes (l_shape l))) o = Some (fold_left add xs zero).
Proof. exact @sum_any_order. Qed.
Print Assumptions C09_sum_any_order.

Theorem C09_mean : forall A D V (zero : D) (add : D -> A -> D) (fin : D -> Z -> V) junk l (m : mem A) axes, red_hyps m l axes ->
  exists vs, nd_mean zero add fin junk l m axes = Ok (dense (out_shape axes (l_shape l)), vs) /\
    zlen vs = zprod (out_shape axes (l_shape l)) /\
    forall o, in_range (out_shape axes (l_shape l)) o -> exists es xs,
      enumerates (l_shape l) axes o es /\ reads m l es xs /\
      elt vs (dense (out_shape axes (l_shape l))) o = Some (fin (fold_left add xs zero) (zlen es)).
Proof. exact @mean_correct. Qed.
Print Assumptions C09_mean.

Theorem C09_stddev : forall A D V (zero : D) (acc1 acc2 : D -> A -> D) (fin : D -> D -> V) junk l (m : mem A) axes, red_hyps m l axes ->
  exists vs, nd_stddev zero acc1 acc2 fin junk l m axes = Ok (dense (out_shape axes (l_shape l)), vs) /\
    zlen vs = zprod (out_shape axes (l_shape l)) /\
    forall o, in_range (out_shape axes (l_shape l)) o -> exists es xs,
      enumerates (l_shape l) axes o es /\ reads m l es xs /\
      elt vs (dense (out_shape axes (l_shape l))) o = Some (fin (fold_left acc1 xs zero) (fold_left acc2 xs zero)).
Proof. exact @stddev_correct. Qed.
Print Assumptions C09_stddev.

Theorem C09_max : forall A (lowest : A) gt junk l (m : mem A) axes, red_hyps m l axes ->
  (forall a, gt a a = false) -> (forall a b c, gt a b = false -> gt b c = false -> gt a c = false) ->
  (forall a b, gt a b = true -> gt b a = false) ->
  exists vs, nd_max lowest gt junk l m axes = Ok (dense (out_shape axes (l_shape l)), vs) /\
    zlen vs = zprod (out_shape axes (l_shape l)) /\
    forall o, in_range (out_shape axes (l_shape l)) o -> exists r,
      elt vs (dense (out_shape axes (l_shape l))) o = Some r /\
      (forall idx x, in_range (l_shape l) idx -> out_index axes idx = o -> elt m l idx = Some x -> gt x r = false) /\
      (r = lowest \/ exists idx, in_range (l_shape l) idx /\ out_index axes idx = o /\ elt m l idx = Some r).
Proof. exact @max_correct. Qed.
Print Assumptions C09_max.

Theorem C09_standardized_moment : forall A D (zero : D) (add : D -> A -> D) (fin : D -> Z -> A) dev (acc1 acc2 : D -> A -> D) fin2 junk l (m : mem A) axes,
  red_hyps m l axes ->
  exists vs, nd_moment zero add fin dev acc1 acc2 fin2 junk l m axes = Ok (dense (out_shape axes (l_shape l)), vs) /\
    zlen vs = zprod (out_shape axes (l_shape l)) /\
    forall o, in_range (out_shape axes (l_shape l)) o -> exists es xs,
      enumerates (l_shape l) axes o es /\ reads m l es xs /\
      let mu := fin (fold_left add xs zero) (zlen es) in
      let ds := map (fun x => dev x mu) xs in
      elt vs (dense (out_shape axes (l_shape l))) o = Some (fin2 (fold_left acc1 ds zero) (fold_left acc2 ds zero)).
Proof. exact @moment_correct. Qed.
Print Assumptions C09_standardized_moment.

Theorem C09_count : forall A (truth : A -> bool) l (m : mem A), wf l -> Forall (fun d => 0 <= d) (l_shape l) ->
  zprod (l_shape l) < 2 ^ 31 -> inside l (zlen m) ->
  exists xs, reads m l (all_indices (l_shape l)) xs /\ count_true truth l m = Ok (zlen (filter truth xs)).
Proof. intros A truth l m H1 H2 H3 H4. exact (count_correct truth l m H1 (conj H2 H3) H4). Qed.
Print Assumptions C09_count.

(** Axis -1 is not "the last axis": the loops read outside the shape. *)
Theorem C09_negative_axis_refuted : forall S V (start : list Z -> outcome S) step (finish : S -> outcome V) junk l axes d,
  In d axes -> d < 0 -> reduce start step finish junk l axes = UB.
Proof.
  intros S V start step finish junk l axes d Hd Hn. unfold reduce, reduce_kernel.
  destruct axes as [|a axes]; [destruct Hd|].
  replace (forallb (fun d => (0 <=? d) && (d <? ndim l)) (a :: axes)) with false; [reflexivity|].
  symmetry. apply Bool.not_true_is_false. intros C. rewrite forallb_forall in C. specialize (C d Hd). cbv beta in C. lia.
Qed.
Print Assumptions C09_negative_axis_refuted.

(** A column slice of a 3x4 array, reduced over axis 0 and over both axes given in reverse order. *)
Definition c09_view := Layout [3; 2] [4; 1] [0; 1].
Lemma c09_hyps axes : good_axes 2 axes -> zprod (out_shape axes [3; 2]) < 2 ^ 31 -> red_hyps (zrange 12) c09_view axes.
Proof.
  intros H1 H2. split; [split; reflexivity|]. split; [repeat constructor; lia|]. split; [exact H1|]. split; [exact H2|].
  intros idx H. inversion H as [|? i ? r Hi H' ]; subst. inversion H' as [|? j ? r' Hj H'']; subst. inversion H''; subst.
  change (zlen (zrange 12)) with 12. unfold cell, c09_view. cbn. lia.
Qed.
Example C09_case : red_hyps (zrange 12) c09_view [0] /\ red_hyps (zrange 12) c09_view [1; 0] /\
  nd_sum 0 Z.add (fun _ => 0) c09_view (zrange 12) [0] = Ok (dense [2], [15; 18]) /\
  nd_max (-100) Z.gtb (fun _ => 0) c09_view (zrange 12) [1; 0] = Ok (dense [1], [10]) /\
  count_true (fun x => 4 <? x) c09_view (zrange 12) = Ok 4.
Proof.
  split; [apply c09_hyps; [split; [repeat constructor; cbn; tauto|repeat constructor; lia]|vm_compute; reflexivity]|].
  split; [apply c09_hyps; [split; [repeat constructor; cbn; lia|repeat constructor; lia]|vm_compute; reflexivity]|].
  vm_compute. auto.
Qed.

(** C10: masked statistics when the mask has the data's layout (for instance both freshly made). *)
Theorem C10_masked : forall A D V (zero : D) (add : D -> A -> D) (fin : D -> Z -> V) junk l (m : mem A) lm mask axes,
  red_hyps m l axes -> l_shape l = l_shape lm -> (forall idx, in_range (l_shape l) idx -> cell lm idx = cell l idx) -> inside lm (zlen mask) ->
  ((forall o, in_range (out_shape axes (l_shape l)) o ->
     exists idx, in_range (l_shape l) idx /\ out_index axes idx = o /\ elt mask lm idx = Some 0) ->
   exists vs, nd_masked zero add fin junk l m lm mask axes = Ok (dense (out_shape axes (l_shape l)), vs) /\
    zlen vs = zprod (out_shape axes (l_shape l)) /\
    forall o, in_range (out_shape axes (l_shape l)) o -> exists es xs,
      enumerates (l_shape l) axes o es /\
      reads m l (filter (fun idx => match elt mask lm idx with Some b => b =? 0 | None => false end) es) xs /\
      elt vs (dense (out_shape axes (l_shape l))) o = Some (fin (fold_left add xs zero) (zlen xs))) /\
  ((exists o, in_range (out_shape axes (l_shape l)) o /\
     forall idx, in_range (l_shape l) idx -> out_index axes idx = o -> elt mask lm idx <> Some 0) ->
   nd_masked zero add fin junk l m lm mask axes = Throw RuntimeError).
Proof.
  intros A D V zero add fin junk l m lm mask axes H Hsh Hc Hi.
  assert (Hi' : inside l (zlen mask)).
  { intros idx Hx. rewrite <- Hc by exact Hx. apply Hi. rewrite <- Hsh. exact Hx. }
  assert (Hsel : forall idx, in_range (l_shape l) idx -> sel_at mask (cell l idx) = match elt mask lm idx with Some b => b =? 0 | None => false end).
  { intros idx Hx. unfold sel_at, elt. rewrite Hc by exact Hx. reflexivity. }
  split.
  - intros Hex. destruct (masked_exact zero add fin junk l m lm mask axes H Hsh Hi') as (vs & E & HL & HV).
    + intros o Ho. destruct (Hex o Ho) as (idx & H1 & H2 & H3). exists idx. split; [auto|]. split; [auto|].
      rewrite Hsel, H3 by exact H1. reflexivity.
    + exists vs. split; [exact E|]. split; [exact HL|]. intros o Ho. destruct (HV o Ho) as (es & xs & He & Hx & _ & Hv).
      exists es, xs. split; [exact He|]. split; [|exact Hv].
      rewrite <- (filter_ext_in (fun idx => sel_at mask (cell l idx))); [exact Hx|].
      intros idx Hin. apply Hsel. apply He in Hin. tauto.
  - intros (o & Ho & Hnone). apply masked_throws; auto. exists o. split; [exact Ho|].
    intros idx Hx Hoi. rewrite Hsel by exact Hx. specialize (Hnone idx Hx Hoi).
    destruct (elt mask lm idx) as [b|]; [|reflexivity]. apply Z.eqb_neq. congruence.
Qed.
Print Assumptions C10_masked.

Theorem C10_depends_only_on_unmasked : forall A D V (zero : D) (add : D -> A -> D) (fin : D -> Z -> V) junk l (m m' : mem A) lm mask axes,
  red_hyps m l axes -> red_hyps m' l axes -> (forall idx, in_range (l_shape l) idx -> cell lm idx = cell l idx) ->
  (forall idx, in_range (l_shape l) idx -> elt mask lm idx = Some 0 -> elt m l idx = elt m' l idx) ->
  nd_masked zero add fin junk l m lm mask axes = nd_masked zero add fin junk l m' lm mask axes.
Proof.
  intros A D V zero add fin junk l m m' lm mask axes H H' Hc Heq. apply masked_depends; auto.
  intros idx Hx Hs. apply Heq; [exact Hx|]. unfold sel_at in Hs. unfold elt. rewrite Hc by exact Hx.
  destruct (znth mask (cell l idx)) as [b|]; [|discriminate]. apply Z.eqb_eq in Hs. congruence.
Qed.
Print Assumptions C10_depends_only_on_unmasked.

Theorem C10_shape_mismatch : forall A D V (zero : D) (add : D -> A -> D) (fin : D -> Z -> V) junk l (m : mem A) lm mask axes,
  l_shape l <> l_shape lm -> nd_masked zero add fin junk l m lm mask axes = Throw RuntimeError.
Proof. exact @masked_shape_mismatch. Qed.
Print Assumptions C10_shape_mismatch.

Example C10_case : nd_masked 0 Z.add (fun s n => (s, n)) (fun _ => (0, 0)) (dense [2; 3]) [1; 2; 3; 4; 5; 6] (dense [2; 3]) [0; 1; 0; 0; 0; 1] [1]
  = Ok (dense [2], [(4, 2); (9, 2)]) /\
  nd_masked 0 Z.add (fun s n => (s, n)) (fun _ => (0, 0)) (dense [2; 3]) [1; 2; 3; 4; 5; 6] (dense [2; 3]) [0; 1; 0; 1; 1; 1] [1]
  = Throw RuntimeError.
Proof. vm_compute. auto. Qed.

(** What happens in every layout: the mask is looked up at the data's cell ... *)
Theorem C10_mask_lookup : forall A D V (zero : D) (add : D -> A -> D) (fin : D -> Z -> V) junk l (m : mem A) lm mask axes,
  red_hyps m l axes -> l_shape l = l_shape lm -> inside l (zlen mask) ->
  (forall o, in_range (out_shape axes (l_shape l)) o ->
     exists idx, in_range (l_shape l) idx /\ out_index axes idx = o /\ sel_at mask (cell l idx) = true) ->
  exists vs, nd_masked zero add fin junk l m lm mask axes = Ok (dense (out_shape axes (l_shape l)), vs) /\
    zlen vs = zprod (out_shape axes (l_shape l)) /\
    forall o, in_range (out_shape axes (l_shape l)) o -> exists es xs,
      enumerates (l_shape l) axes o es /\
      reads m l (filter (fun idx => sel_at mask (cell l idx)) es) xs /\ xs <> [] /\
      elt vs (dense (out_shape axes (l_shape l))) o = Some (fin (fold_left add xs zero) (zlen xs)).
Proof. exact @masked_exact. Qed.
Print Assumptions C10_mask_lookup.

(** ... so with a mask that is a slice of a wider array the wrong elements are used: the mask view
    below selects only element (1,1) but the mean is taken of elements (0,0) and (0,1). *)
Theorem C10_other_layout_refuted : exists lm,
  slice1 (dense [2; 4]) 1 0 2 1 = Ok lm /\ elements [1; 1; 0; 0; 1; 0; 0; 0] lm = map Some [1; 1; 1; 0] /\
  nd_masked [] (fun s x => s ++ [x]) (fun s _ => s) (fun _ => []) (dense [2; 2]) [10; 11; 12; 13] lm [1; 1; 0; 0; 1; 0; 0; 0] []
  = Ok (dense [1], [[12; 13]]) /\
  elements [10; 11; 12; 13] (dense [2; 2]) = map Some [10; 11; 12; 13].
Proof. eexists. split; [vm_compute; reflexivity|]. vm_compute. auto. Qed.
Print Assumptions C10_other_layout_refuted.

(** C11 *)
Theorem C11_median : forall A (lt : A -> A -> bool),
  (forall a, lt a a = false) -> (forall a b c, le lt a b -> le lt b c -> le lt a c) -> (forall a b, le lt a b -> le lt b a -> a = b) ->
  forall half_sum l r s, median_run lt half_sum l r -> l <> [] -> Permutation l s -> StronglySorted (le lt) s ->
  exists hi, nth_error s (length s / 2) = Some hi /\
  (Nat.odd (length s) = true -> r = Ok hi) /\
  (Nat.odd (length s) = false -> exists lo, nth_error s (length s / 2 - 1) = Some lo /\ r = Ok (half_sum hi lo)).
Proof. exact @median_sorted. Qed.
Print Assumptions C11_median.

Theorem C11_median_order_independent : forall A (lt : A -> A -> bool),
  (forall a, lt a a = false) -> (forall a b c, le lt a b -> le lt b c -> le lt a c) -> (forall a b, le lt a b -> le lt b a -> a = b) ->
  forall half_sum l l' r r', median_run lt half_sum l r -> median_run lt half_sum l' r' -> Permutation l l' -> r = r'.
Proof. exact @median_order_independent. Qed.
Print Assumptions C11_median_order_independent.

Example C11_case : median_run Z.ltb (fun a b => (a + b) / 2) [9; 1; 5; 3] (Ok 4) /\ StronglySorted (le Z.ltb) [1; 3; 5; 9].
Proof.
  split; [|repeat constructor].
  change (Ok 4) with (median_value (fun a b => (a + b) / 2) [1; 3; 5; 9] [1; 3; 5; 9]). constructor; [discriminate| |].
  - split; [|exists [1; 3], 5, [9]; repeat split; repeat constructor].
    change [9; 1; 5; 3] with ([9] ++ [1; 5; 3]). rewrite Permutation_app_comm. cbn. apply perm_skip. apply perm_trans with [3; 5; 9]; [|reflexivity].
    apply (Permutation_trans (l' := [3; 5; 9])); [|reflexivity]. apply perm_trans with (5 :: [3; 9]); [reflexivity|apply perm_swap].
  - cbn. split; [reflexivity|exists [1], 3, [5; 9]; repeat split; repeat constructor].
Qed.

(** C14 *)
Theorem C14_arange : forall start stop step, 0 < step -> start <= stop ->
  exists vs, arange start stop step = Ok vs /\ zlen vs = (stop - start) / step /\
    (forall i, 0 <= i < zlen vs -> znth vs i = Some (start + step * i)) /\
    (forall v, In v vs -> start <= v < stop).
Proof. exact arange_progression. Qed.
Print Assumptions C14_arange.
Example C14_case : arange 3 12 3 = Ok [3; 6; 9].
Proof. reflexivity. Qed.

(** All the values below the end are there exactly when the step divides the interval: for every
    other interval the claim fails. *)
Theorem C14_arange_complete_iff_divides : forall start stop step, 0 < step -> start <= stop ->
  ((forall i, 0 <= i -> start + step * i < stop -> exists vs, arange start stop step = Ok vs /\ In (start + step * i) vs)
   <-> (stop - start) mod step = 0).
Proof. exact arange_complete. Qed.
Print Assumptions C14_arange_complete_iff_divides.
Theorem C14_arange_refuted : arange 0 10 4 = Ok [0; 4] /\ 0 + 4 * 2 < 10.
Proof. split; reflexivity. Qed.
Print Assumptions C14_arange_refuted.

Theorem C14_linspace : forall (start stop : Q) n i x, 0 < n ->
  znth (linspace Qminus Qdiv Qmult Qplus inject_Z start stop n) i = Some x ->
  (x == start + (stop - start) * (inject_Z i / inject_Z n))%Q.
Proof. exact linspace_rational. Qed.
Print Assumptions C14_linspace.
Example C14_linspace_case : exists x, znth (linspace Qminus Qdiv Qmult Qplus inject_Z (1#1) (4#1) 6) 5 = Some x /\ (x == 7 # 2)%Q.
Proof. eexists. split; [vm_compute; reflexivity|]. vm_compute. reflexivity. Qed.

Theorem C14_linspace_int : forall start stop n, 0 < n -> - 2 ^ 31 <= start -> start <= stop -> stop < 2 ^ 31 ->
  exists vs, linspace_int32 start stop n = Ok vs /\ zlen vs = n /\
    forall i, 0 <= i < n -> znth vs i = Some (start + (stop - start) / n * i).
Proof. exact linspace_int32_ascending. Qed.
Print Assumptions C14_linspace_int.
Example C14_linspace_int_case : linspace_int32 (-10) 10 4 = Ok [-10; -5; 0; 5].
Proof. reflexivity. Qed.

(** Descending integer ranges go through unsigned division. *)
Theorem C14_linspace_descending_refuted : linspace_int32 9 0 3 = Ok [9; 1431655771; -1431655763].
Proof. vm_compute. reflexivity. Qed.
Print Assumptions C14_linspace_descending_refuted.

(** C16 *)
Theorem C16_cpu : parse_dev "cpu" = Ok (Dev DevCPU 0).
Proof. reflexivity. Qed.
Print Assumptions C16_cpu.
Theorem C16_cuda_id : forall ds, ds <> [] -> Forall (fun d => 0 <= d < 10) ds -> decimal ds < 2 ^ 31 ->
  parse_dev ("cuda:" ++ digit_string ds "")%string = Ok (Dev DevCUDA (decimal ds)).
Proof. exact parse_cuda_id. Qed.
Print Assumptions C16_cuda_id.
Example C16_case : decimal [1; 7] = 17 /\ ("cuda:" ++ digit_string [1; 7] "")%string = "cuda:17"%string.
Proof. split; reflexivity. Qed.

Theorem C16_results : forall s d, parse_dev s = Ok d ->
  (s = "cpu"%string /\ d = Dev DevCPU 0) \/
  (exists r, s = ("cuda" ++ r)%string /\
     ((exists t i, r = String ":" t /\ stoi t = Ok i /\ d = Dev DevCUDA i) \/
      ((forall t, r <> String ":" t) /\ d = Dev DevCUDA 0))).
Proof. exact parse_dev_ok_iff. Qed.
Print Assumptions C16_results.
Theorem C16_errors : forall s, s <> "cpu"%string -> (forall r, s <> ("cuda" ++ r)%string) -> parse_dev s = Throw RuntimeError.
Proof. exact parse_dev_other. Qed.
Print Assumptions C16_errors.
Example C16_error_case : parse_dev "rocm:0" = Throw RuntimeError /\ parse_dev "cpu:0" = Throw RuntimeError.
Proof. split; reflexivity. Qed.

(** What may follow the colon: white space, a sign, digits; text behind the digits is ignored. *)
Definition white (c : ascii) : Prop := nat_of_ascii c = 32%nat \/ (9 <= nat_of_ascii c <= 13)%nat.
Definition is_digit (c : ascii) : Prop := (48 <= nat_of_ascii c <= 57)%nat.
Fixpoint text_of (cs : list ascii) (rest : string) : string := match cs with [] => rest | c :: r => String c (text_of r rest) end.
Inductive sign_mark := NoSign | Plus | Minus.
Definition marked (g : sign_mark) (s : string) : string := match g with NoSign => s | Plus => String "+" s | Minus => String "-" s end.
Definition signed_value (g : sign_mark) (v : Z) : Z := match g with Minus => - v | _ => v end.
Definition no_digit_first (s : string) : Prop := forall c r, s = String c r -> ~ is_digit c.
Lemma white_space c : white c -> is_space c = true.
Proof. unfold white, is_space. intros H. apply Bool.orb_true_iff. destruct H as [-> |H]; [now left|right]. apply andb_true_intro. split; apply Nat.leb_le; lia. Qed.
Lemma space_white c : is_space c = true -> white c.
Proof. unfold white, is_space. intros H. apply Bool.orb_true_iff in H as [H|H]; [left; now apply Nat.eqb_eq|right]. apply andb_prop in H as (H1 & H2). apply Nat.leb_le in H1, H2. lia. Qed.
Lemma digit_some c : is_digit c -> exists d, digit_of c = Some d /\ 0 <= d < 10 /\ digit_char d = c.
Proof.
  unfold is_digit, digit_of. intros H. replace ((48 <=? nat_of_ascii c)%nat && (nat_of_ascii c <=? 57)%nat)%bool with true by lia. eexists. split; [reflexivity|]. split; [lia|].
  unfold digit_char. replace (Z.to_nat (Z.of_nat (nat_of_ascii c) - 48 + 48)) with (nat_of_ascii c) by lia. apply ascii_nat_embedding.
Qed.
Lemma digit_none c : ~ is_digit c -> digit_of c = None.
Proof. unfold is_digit, digit_of. intros H. now replace ((48 <=? nat_of_ascii c)%nat && (nat_of_ascii c <=? 57)%nat)%bool with false by lia. Qed.
Lemma starts_spec s : starts_with_digit s = false <-> no_digit_first s.
Proof.
  split.
  - intros H c r -> D. destruct (digit_some c D) as (d & E & _). cbn in H. now rewrite E in H.
  - intros H. destruct s as [|c r]; [reflexivity|]. cbn. now rewrite (digit_none c (H c r eq_refl)).
Qed.
Lemma skip_text cs rest : Forall white cs -> skip_spaces (text_of cs rest) = skip_spaces rest.
Proof. intros H. induction H as [|c cs Hc H IH]; [reflexivity|]. cbn. now rewrite (white_space c Hc). Qed.
Lemma skip_split s : exists cs, Forall white cs /\ s = text_of cs (skip_spaces s).
Proof.
  induction s as [|c s (cs & H & E)]; [now exists []|]. cbn [skip_spaces]. destruct (is_space c) eqn:Ec; [|now exists []].
  exists (c :: cs). split; [constructor; [now apply space_white|exact H]|]. cbn [text_of]. now rewrite <- E.
Qed.
Lemma digits_split s : exists ds rest, Forall (fun d => 0 <= d < 10) ds /\ no_digit_first rest /\ s = digit_string ds rest.
Proof.
  induction s as [|c s (ds & rest & H & Hr & E)]; [exists [], EmptyString; repeat split; [constructor|intros ? ? [=]]|].
  destruct (digit_of c) as [d|] eqn:Ec.
  - assert (D : is_digit c). { unfold digit_of in Ec. destruct (_ && _)%bool eqn:B; [|discriminate]. unfold is_digit. lia. }
    destruct (digit_some c D) as (d' & E' & R & C). exists (d' :: ds), rest. split; [now constructor|]. split; [exact Hr|]. cbn [digit_string]. now rewrite C, <- E.
  - exists [], (String c s). split; [constructor|]. split; [|reflexivity]. intros c' r [= <- <-] D. destruct (digit_some c D) as (d & E' & _). congruence.
Qed.
Lemma decimal_nonneg ds : Forall (fun d => 0 <= d < 10) ds -> 0 <= decimal ds.
Proof.
  intros H. unfold decimal. assert (G : forall l a, Forall (fun d => 0 <= d < 10) l -> 0 <= a -> 0 <= fold_left (fun a d => a * 10 + d) l a).
  { induction l as [|x l IH]; intros a Hl Ha; cbn; auto. inversion Hl; subst. apply IH; auto. lia. }
  apply G; [exact H|lia].
Qed.
Definition unsign (s : string) : Z * string := match s with String "-"%char r => (-1, r) | String "+"%char r => (1, r) | _ => (1, s) end.
Lemma unsign_cases s : exists g r, s = marked g r /\ unsign s = ((if match g with Minus => true | _ => false end then -1 else 1), r) /\ (g = NoSign -> forall t, s <> String "-" t /\ s <> String "+" t).
Proof.
  destruct s as [|c r]; [exists NoSign, EmptyString; repeat split; discriminate|].
  destruct (ascii_dec c "-") as [-> |N1]; [exists Minus, r; repeat split; discriminate|]. destruct (ascii_dec c "+") as [-> |N2]; [exists Plus, r; repeat split; discriminate|].
  exists NoSign, (String c r). split; [reflexivity|]. split; [|intros _ t; split; congruence].
  destruct c as [[] [] [] [] [] [] [] []]; try reflexivity; congruence.
Qed.
Lemma unsign_digits d r : 0 <= d < 10 -> unsign (String (digit_char d) r) = (1, String (digit_char d) r).
Proof.
  intros Hd. assert (D : d = 0 \/ d = 1 \/ d = 2 \/ d = 3 \/ d = 4 \/ d = 5 \/ d = 6 \/ d = 7 \/ d = 8 \/ d = 9) by lia. clear Hd.
  repeat (destruct D as [-> |D]; [reflexivity|]). subst d. reflexivity.
Qed.
Theorem C16_number : forall cs g ds rest, Forall white cs -> ds <> [] -> Forall (fun d => 0 <= d < 10) ds -> no_digit_first rest ->
  let v := signed_value g (decimal ds) in
  parse_dev ("cuda:" ++ text_of cs (marked g (digit_string ds rest)))%string = if (- 2 ^ 31 <=? v) && (v <? 2 ^ 31) then Ok (Dev DevCUDA v) else Throw OutOfRange.
Proof.
  intros cs g ds rest Hc Hne Hd Hr v. cbn -[stoi decimal Z.pow].
  assert (E : stoi (text_of cs (marked g (digit_string ds rest))) = if (- 2 ^ 31 <=? v) && (v <? 2 ^ 31) then Ok v else Throw OutOfRange); [|rewrite E; now destruct (_ && _)].
  unfold stoi. rewrite skip_text by exact Hc. destruct ds as [|d ds]; [congruence|]. inversion Hd as [|? ? Hd1 Hd2]; subst.
  assert (S : skip_spaces (marked g (digit_string (d :: ds) rest)) = marked g (digit_string (d :: ds) rest)) by (destruct g; cbn; try reflexivity; now rewrite digit_char_not_space).
  rewrite S. change (match marked g _ with String "-"%char r => (-1, r) | String "+"%char r => (1, r) | _ => (1, marked g (digit_string (d :: ds) rest)) end) with (unsign (marked g (digit_string (d :: ds) rest))).
  assert (U : unsign (marked g (digit_string (d :: ds) rest)) = (match g with Minus => -1 | _ => 1 end, digit_string (d :: ds) rest)) by (destruct g; try reflexivity; now apply unsign_digits).
  rewrite U. cbn [starts_with_digit digit_string]. rewrite digit_of_char by exact Hd1. change (String (digit_char d) (digit_string ds rest)) with (digit_string (d :: ds) rest).
  rewrite scan_digit_string by (try assumption; now apply starts_spec). change (fold_left _ (d :: ds) 0) with (decimal (d :: ds)).
  assert (V : match g with Minus => -1 | _ => 1 end * decimal (d :: ds) = v) by (unfold v, signed_value; destruct g; lia). rewrite V.
  destruct ((- 2 ^ 31 <=? v) && (v <? 2 ^ 31)) eqn:B; destruct ((v <? - 2 ^ 31) || (2 ^ 31 - 1 <? v)) eqn:B'; try reflexivity; lia.
Qed.
Print Assumptions C16_number.
Theorem C16_no_number : forall t, (forall cs g ds rest, Forall white cs -> ds <> [] -> Forall (fun d => 0 <= d < 10) ds -> t <> text_of cs (marked g (digit_string ds rest))) ->
  parse_dev ("cuda:" ++ t)%string = Throw InvalidArgument.
Proof.
  intros t H. cbn -[stoi]. assert (E : stoi t = Throw InvalidArgument); [|now rewrite E]. unfold stoi.
  destruct (skip_split t) as (cs & Hc & Et). set (s1 := skip_spaces t) in *. change (match s1 with String "-"%char r => (-1, r) | String "+"%char r => (1, r) | _ => (1, s1) end) with (unsign s1).
  destruct (unsign_cases s1) as (g & r & E1 & -> & _). destruct (digits_split r) as (ds & rest & Hd & Hr & Er). destruct ds as [|d ds].
  - cbn [digit_string] in Er. subst r. replace (starts_with_digit rest) with false by (symmetry; now apply starts_spec). reflexivity.
  - exfalso. apply (H cs g (d :: ds) rest Hc ltac:(discriminate) Hd). congruence.
Qed.
Print Assumptions C16_no_number.
Example C16_number_case : ("cuda:" ++ text_of [" "%char; " "%char] (marked Plus (digit_string [1; 2] "th")))%string = "cuda:  +12th"%string /\ parse_dev "cuda:  +12th" = Ok (Dev DevCUDA 12) /\
  no_digit_first "th" /\ parse_dev "cuda:" = Throw InvalidArgument /\ parse_dev "cuda:x1" = Throw InvalidArgument /\ parse_dev "cuda:99999999999" = Throw OutOfRange.
Proof. repeat split; try reflexivity. intros c r [= <- <-]. unfold is_digit. cbn. lia. Qed.

(** Managed and host-pinned devices cannot be named at all: every such string silently becomes
    cuda:0, as does any other word starting with cuda. *)
Theorem C16_managed_host_refuted : forall r,
  parse_dev ("cudamanaged" ++ r)%string = Ok (Dev DevCUDA 0) /\ parse_dev ("cudahost" ++ r)%string = Ok (Dev DevCUDA 0).
Proof. exact parse_dev_shadowed. Qed.
Print Assumptions C16_managed_host_refuted.
Theorem C16_wrong_device_refuted : parse_dev "cudamanaged:3" = Ok (Dev DevCUDA 0) /\ parse_dev "cudax" = Ok (Dev DevCUDA 0) /\
  parse_dev "cuda:1x" = Ok (Dev DevCUDA 1) /\ parse_dev "cuda:-2" = Ok (Dev DevCUDA (-2)).
Proof. repeat split; reflexivity. Qed.
Print Assumptions C16_wrong_device_refuted.

(** C17 *)
Theorem C17_once : forall A C (gen : nat -> nat -> A) move (content : A -> C), (forall a d, content (move a d) = content a) ->
  forall ops w rs, drun gen move dempty ops = Ok (w, rs) ->
  forall g pol, nth_error (w_pols w) g = Some pol -> pol <> Lazy -> (count_occ Nat.eq_dec (w_runs w) g <= 1)%nat.
Proof. intros A C gen move content H. exact (deferred_once gen move content H). Qed.
Print Assumptions C17_once.

Theorem C17_reads : forall A C (gen : nat -> nat -> A) move (content : A -> C), (forall a d, content (move a d) = content a) ->
  forall ops w rs, drun gen move dempty ops = Ok (w, rs) ->
  forall h a, In (h, a) rs ->
    (match h_origin h with
     | FromGen g => exists k, (k < count_occ Nat.eq_dec (w_runs w) g)%nat /\ content a = content (gen g k) /\
                      (forall pol, nth_error (w_pols w) g = Some pol -> pol <> Lazy -> k = 0%nat)
     | FromArray b => content a = content b
     | FromNothing => False
     end) /\ (forall d, h_dev h = Some d -> exists raw, a = move raw d).
Proof. intros A C gen move content H. exact (deferred_reads gen move content H). Qed.
Print Assumptions C17_reads.

(** A history with two copies on different devices. *)
Example C17_case : exists w rs,
  drun (fun g k => (Z.of_nat g * 100 + Z.of_nat k, None)) (fun a d => (fst a, Some d)) dempty
    [DNewCallable Memoize; DCopy 0; DTo 1 (Dev DevCUDA 2); DRead 1; DRead 0; DNewCallable Eager; DRead 2; DRead 2] = Ok (w, rs) /\
  w_runs w = [0; 1]%nat /\ map (fun r => fst (snd r)) rs = [0; 0; 100; 100].
Proof. eexists _, _. split; [vm_compute; reflexivity|]. vm_compute. auto. Qed.

(** The default policy is lazy: n reads run the generator n times. *)
Theorem C17_default_executes_once_refuted : forall A (gen : nat -> nat -> A) move n,
  exists w rs, drun gen move dempty (DNewDefault :: repeat (DRead 0) n) = Ok (w, rs) /\
    count_occ Nat.eq_dec (w_runs w) 0%nat = n /\ map snd rs = map (gen 0%nat) (seq 0 n).
Proof. exact @deferred_default. Qed.
Print Assumptions C17_default_executes_once_refuted.
