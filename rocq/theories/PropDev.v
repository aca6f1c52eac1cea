(** C85, C86: moving arrays between devices; arrays borrowed from other frameworks. *)
From Verif Require Import DevModel NdProofs NdProofs2 NdMemFacts.
From Coq Require Import ZifyBool ZifyNat Lia.
Local Open Scope Z_scope.

(** ** C85 *)
(** The devices between which data can be moved, and whether the copy starts at the first element of the source view (from a GPU to the host) or at
    the first cell of its buffer (the others). *)
Inductive route (valid : Z -> bool) : dev -> dev -> bool -> Prop :=
| to_gpu i t j : on_gpu t = true -> valid j = true -> route valid (Dev Cpu i) (Dev t j) false
| to_pinned i j : route valid (Dev Cpu i) (Dev CudaHost j) false
| to_node i j : i <> j -> route valid (Dev Cpu i) (Dev Cpu j) false
| from_gpu t i j : on_gpu t = true -> route valid (Dev t i) (Dev Cpu j) true
| from_gpu_pinned t i j : on_gpu t = true -> route valid (Dev t i) (Dev CudaHost j) true
| to_managed t i j : on_gpu t = true -> i <> j -> valid j = true -> route valid (Dev t i) (Dev CudaManaged j) false.
Definition source_start (from_view : bool) (l : layout) : Z := if from_view then zsum (l_offsets l) else 0.

Lemma fold_add l a : fold_left Z.add l a = a + zsum l.
Proof. revert a. induction l as [|x l IH]; intros a; [unfold zsum; cbn [fold_left fold_right]; ring|]. change (zsum (x :: l)) with (x + zsum l). cbn [fold_left]. rewrite IH. ring. Qed.

Lemma route_copies cuda valid room src dst fv : cuda = true -> room dst = true -> route valid src dst fv -> forall V (l : layout) (m : list V),
  to_device cuda valid room src l m dst = (let! c := copy_cells m (source_start fv l) (numel l) in Ok (dense (l_shape l), filled (alloc_elems (l_shape l)) c)).
Proof.
  intros -> Hr R V l m. unfold to_device, source_start. rewrite fold_add, Z.add_0_l.
  assert (A : d_type dst <> OtherType -> alloc_ok true room dst = true) by (unfold alloc_ok; rewrite Hr; destruct (d_type dst); intros; [reflexivity..|congruence]).
  destruct R as [i t j Ht Hv|i j|i j Hij|t i j Ht|t i j Ht|t i j Ht Hij Hv]; rewrite A by (cbn; try destruct t; discriminate); cbn [negb andb d_type d_id]; try (destruct t; cbn in Ht; try discriminate); rewrite ?Hv; try reflexivity.
  - replace (i =? j) with false by lia. reflexivity.
  - replace (j =? i) with false by lia. reflexivity.
  - replace (j =? i) with false by lia. reflexivity.
Qed.

Lemma filled_full {V} n (l : list V) : zlen l = n -> filled n l = map Some l.
Proof. intros <-. unfold filled. replace (zlen l - zlen l) with 0 by lia. apply app_nil_r. Qed.
Lemma znth_map' {A B} (f : A -> B) (l : list A) i : znth (map f l) i = option_map f (znth l i).
Proof. unfold znth. destruct (i <? 0); [reflexivity|]. apply nth_error_map. Qed.
Lemma nth_error_first {A} (l : list A) k i : (i < k)%nat -> nth_error (firstn k l) i = nth_error l i.
Proof. revert k i. induction l as [|x l IH]; intros [|k] [|i] H; cbn; auto; try lia. apply IH. lia. Qed.
Lemma nth_error_skip {A} (l : list A) k i : nth_error (skipn k l) i = nth_error l (k + i).
Proof. revert k. induction l as [|x l IH]; intros [|k]; cbn; auto; [destruct i; reflexivity]. Qed.
Lemma zlen_map' {A B} (f : A -> B) l : zlen (map f l) = zlen l.
Proof. unfold zlen. now rewrite map_length. Qed.
Lemma znth_zrange n i : 0 <= i < n -> znth (zrange n) i = Some i.
Proof. intros H. unfold znth, zrange. replace (i <? 0) with false by lia. rewrite nth_error_map, (nth_error_nth' _ 0%nat) by (rewrite seq_length; lia). rewrite seq_nth by lia. cbn. f_equal. lia. Qed.
Lemma znth_app_r {A} (l k : list A) i : zlen l <= i -> znth (l ++ k) i = znth k (i - zlen l).
Proof. intros H. unfold zlen in *. unfold znth. replace (i <? 0) with false by lia. replace (i - Z.of_nat (length l) <? 0) with false by lia. rewrite nth_error_app2 by lia. f_equal. lia. Qed.
Lemma znth_window {V} (m : list V) s k i : 0 <= s -> 0 <= i < k -> znth (firstn (Z.to_nat k) (skipn (Z.to_nat s) m)) i = znth m (s + i).
Proof.
  intros Hs Hi. unfold znth. replace (i <? 0) with false by lia. replace (s + i <? 0) with false by lia.
  rewrite nth_error_first by lia. rewrite nth_error_skip. f_equal. lia.
Qed.
Lemma copy_cells_ok {V} (m : list V) s k : 0 <= s -> 0 <= k -> s + k <= zlen m -> copy_cells m s k = Ok (firstn (Z.to_nat k) (skipn (Z.to_nat s) m)).
Proof.
  intros Hs Hk Hl. unfold copy_cells. destruct (k =? 0) eqn:E; [replace k with 0 by lia; reflexivity|].
  replace (k <? 0) with false by lia. replace (s <? 0) with false by lia. replace (zlen m <? s + k) with false by lia. reflexivity.
Qed.
Lemma zlen_window {V} (m : list V) s k : 0 <= s -> 0 <= k -> s + k <= zlen m -> zlen (firstn (Z.to_nat k) (skipn (Z.to_nat s) m)) = k.
Proof. intros. unfold zlen in *. rewrite firstn_length, skipn_length. lia. Qed.
Lemma zprod_nonneg' sh : Forall (fun d => 0 <= d) sh -> 0 <= zprod sh.
Proof. induction 1; [rewrite zprod_nil; lia|]. rewrite zprod_cons. nia. Qed.

(** What arrives: as many cells as the view has elements, one after the other, whatever the strides of the view. *)
Theorem C85_moved_view : forall V valid room src dst fv (l : layout) (m : list V), route valid src dst fv -> room dst = true ->
  Forall (fun d => 0 <= d) (l_shape l) -> zprod (l_shape l) < 2 ^ 31 ->
  0 <= source_start fv l -> source_start fv l + zprod (l_shape l) <= zlen m ->
  exists m', to_device true valid room src l m dst = Ok (dense (l_shape l), m') /\
    elements m' (dense (l_shape l)) = map (fun n => Some (znth m (source_start fv l + n))) (zrange (zprod (l_shape l))).
Proof.
  intros V valid room src dst fv l m R Hr Hnn Hp Hs Hl. pose proof (zprod_nonneg' _ Hnn) as Hp0. set (s := source_start fv l) in *. set (k := zprod (l_shape l)) in *.
  rewrite (route_copies true valid room src dst fv eq_refl Hr R). unfold numel. rewrite numel_of_prod by lia. fold k. fold s.
  rewrite copy_cells_ok by lia. cbn [obind]. rewrite alloc_elems_prod. fold k. rewrite filled_full by (apply zlen_window; lia). eexists. split; [reflexivity|].
  rewrite elements_cells. cbn [dense l_shape]. rewrite dense_cells by exact Hnn. fold k. apply map_ext_in. intros n Hn. apply in_zrange in Hn.
  rewrite znth_map'. rewrite znth_window by lia. destruct (znth_some m (s + n)) as (v & ->); [lia|]. reflexivity.
Qed.
Print Assumptions C85_moved_view.
Example C85_moved_view_example : exists l m', slice1 (dense [3; 4]) 1 1 3 1 = Ok l /\
  to_device true (fun _ => true) (fun _ => true) (Dev Cpu 0) l (zrange 12) (Dev Cuda 0) = Ok (dense [3; 2], m') /\
  elements m' (dense [3; 2]) = map (fun x => Some (Some x)) [0; 1; 2; 3; 4; 5] /\ elements (zrange 12) l = map Some [1; 2; 5; 6; 9; 10].
Proof. do 2 eexists. split; [vm_compute; reflexivity|]. split; [vm_compute; reflexivity|]. split; vm_compute; reflexivity. Qed.

(** Whole arrays keep their elements along any sequence of moves. *)
Fixpoint to_all {V} (valid : Z -> bool) (room : dev -> bool) (a : array V) (ds : list dev) : outcome (array V) :=
  match ds with [] => Ok a | d :: ds' => let! a' := to true valid room a d in to_all valid room a' ds' end.
Fixpoint path (valid : Z -> bool) (room : dev -> bool) (s : dev) (ds : list dev) : Prop :=
  match ds with [] => True | d :: ds' => (s = d \/ room d = true /\ exists fv, route valid s d fv) /\ path valid room d ds' end.
Definition last_dev (s : dev) (ds : list dev) : dev := last ds s.
Lemma dev_eqb_ok a b : dev_eqb a b = true <-> a = b.
Proof.
  unfold dev_eqb. destruct a as [ta ia], b as [tb ib]. cbn. split.
  - intros H. apply andb_prop in H as (Ht & Hi). apply Z.eqb_eq in Hi as ->. destruct ta, tb; try discriminate; reflexivity.
  - intros E. injection E as -> ->. rewrite Z.eqb_refl. destruct tb; reflexivity.
Qed.
Lemma zsum_zero sh : zsum (map (fun _ : Z => 0) sh) = 0.
Proof. induction sh as [|d sh IH]; [reflexivity|]. change (zsum (map (fun _ => 0) (d :: sh))) with (0 + zsum (map (fun _ : Z => 0) sh)). lia. Qed.
Lemma to_whole V valid room (a : array V) sh d : a_lay a = dense sh -> Forall (fun d => 0 <= d) sh -> zprod sh < 2 ^ 31 -> zlen (a_mem a) = zprod sh ->
  a_dev a = d \/ room d = true /\ (exists fv, route valid (a_dev a) d fv) -> to true valid room a d = Ok (Array d (dense sh) (a_mem a)).
Proof.
  intros Hl Hnn Hp Hm Hd. unfold to. destruct (dev_eqb (a_dev a) d) eqn:E.
  - apply dev_eqb_ok in E. destruct a as [x y z]. cbn in *. subst. reflexivity.
  - destruct Hd as [Hd|(Hr & fv & R)]; [apply dev_eqb_ok in Hd; congruence|]. pose proof (zprod_nonneg' _ Hnn).
    rewrite (route_copies true valid room _ _ fv eq_refl Hr R). rewrite Hl. cbn [dense l_shape l_offsets].
    assert (Es : source_start fv (dense sh) = 0) by (unfold source_start; destruct fv; [apply zsum_zero|reflexivity]).
    rewrite Es. unfold numel. cbn [dense l_shape]. rewrite numel_of_prod by lia. rewrite copy_cells_ok by lia. cbn [obind]. rewrite alloc_elems_prod.
    rewrite filled_full by (apply zlen_window; lia). cbn [fst snd]. rewrite map_map, map_id. do 2 f_equal.
    cbn [Z.to_nat skipn]. apply firstn_all2. unfold zlen in Hm. lia.
Qed.
Theorem C85_whole_array : forall V valid room (a : array V) sh ds, a_lay a = dense sh -> Forall (fun d => 0 <= d) sh -> zprod sh < 2 ^ 31 -> zlen (a_mem a) = zprod sh ->
  path valid room (a_dev a) ds -> to_all valid room a ds = Ok (Array (last_dev (a_dev a) ds) (dense sh) (a_mem a)).
Proof.
  intros V valid room a sh ds Hl Hnn Hp Hm. revert a Hl Hm. induction ds as [|d ds IH]; intros a Hl Hm P.
  - destruct a as [x y z]. cbn in *. subst. reflexivity.
  - destruct P as (Hd & P). cbn [to_all]. rewrite (to_whole V valid room a sh d Hl Hnn Hp Hm Hd). cbn [obind].
    rewrite IH; auto. unfold last_dev. cbn [a_dev a_mem]. f_equal. f_equal. destruct ds as [|e ds]; [reflexivity|].
    cbn [last]. clear. revert d e. induction ds as [|x ds IH]; intros d e; [reflexivity|]. apply (IH d x).
Qed.
Print Assumptions C85_whole_array.
Example C85_whole_array_example : path (fun i => i =? 0) (fun _ => true) (Dev Cpu 0) [Dev Cuda 0; Dev Cuda 0; Dev CudaHost 0] /\
  to_all (fun i => i =? 0) (fun _ => true) (Array (Dev Cpu 0) (dense [2; 2]) [Some 5; Some 6; Some 7; Some 8]) [Dev Cuda 0; Dev Cuda 0; Dev CudaHost 0]
    = Ok (Array (Dev CudaHost 0) (dense [2; 2]) [Some 5; Some 6; Some 7; Some 8]).
Proof.
  split; [|vm_compute; reflexivity]. cbn [path]. split; [right; split; [reflexivity|]; exists false; now apply to_gpu|].
  split; [left; reflexivity|]. split; [right; split; [reflexivity|]; exists true; now apply from_gpu_pinned|exact I].
Qed.

(** Consecutive rows of an array on a GPU arrive at the host as they are. *)
Theorem C85_rows_from_gpu : forall V valid room t i dst (m : list V) d rest s e l, on_gpu t = true -> route valid (Dev t i) dst true -> room dst = true ->
  Forall (fun d => 0 <= d) (d :: rest) -> zprod (d :: rest) < 2 ^ 31 -> zlen m = zprod (d :: rest) -> 0 <= s <= e -> e <= d ->
  slice1 (dense (d :: rest)) 0 s e 1 = Ok l ->
  exists m', to_device true valid room (Dev t i) l m dst = Ok (dense (l_shape l), m') /\ elements m' (dense (l_shape l)) = map Some (elements m l).
Proof.
  intros V valid room t i dst m d rest s e l Ht R Hr Hnn Hp Hm Hs He El.
  assert (Hd : 0 <= d) by (inversion Hnn; auto). assert (Hrest : Forall (fun d => 0 <= d) rest) by (inversion Hnn; auto). pose proof (zprod_nonneg' _ Hrest) as Hr0.
  destruct (l_strides (dense (d :: rest))) as [|s0 ss] eqn:Es.
  { pose proof (dense_wf (d :: rest)) as (W & _). rewrite Es in W. discriminate. }
  assert (Hss : exists r, rev (row_major_loop (rev (d :: rest)) 1) = r /\ r = s0 :: ss /\ forall x, rev (row_major_loop (rev (x :: rest)) 1) = r).
  { exists (s0 :: ss). split; [exact Es|]. split; [reflexivity|]. intros x. rewrite <- Es. cbn [dense l_strides rev]. clear.
    f_equal. generalize 1 at 1 2. generalize (rev rest). intros l. induction l as [|y l IH]; intros z; [reflexivity|]. cbn. now rewrite IH. }
  destruct Hss as (r & Er & -> & Hsame).
  assert (Hs0 : s0 = zprod rest).
  { clear - Er Hrest. assert (G : forall l z, rev (row_major_loop (l ++ [d]) z) = z * zprod l :: rev (row_major_loop l z)).
    { induction l as [|y l IH]; intros z; cbn [row_major_loop app rev]; [rewrite zprod_nil; now rewrite Z.mul_1_r|]. rewrite IH. cbn [app]. rewrite zprod_cons. f_equal. ring. }
    cbn [rev] in Er. rewrite G in Er. injection Er as E _. rewrite <- E, zprod_rev. ring. }
  assert (EL : l = Layout ((e - s) :: rest) (s0 :: ss) (s * s0 :: map (fun _ => 0) rest)).
  { revert El. unfold slice1, size_axis, ndim. cbn [dense l_shape l_strides l_offsets]. rewrite Er.
    assert (0 <? zlen (d :: rest) = true) as -> by (unfold zlen; cbn [length]; lia). unfold zget. cbn [znth].
    replace (znth (d :: rest) 0) with (Some d) by reflexivity. cbn [obind]. replace (s <? 0) with false by lia. cbn [negb andb]. replace (d <? s) with false by lia.
    replace (e <? 0) with false by lia. assert ((if d <? e then d else e) = e) as -> by (destruct (d <? e) eqn:X; lia). replace (e <? s) with false by lia.
    replace (1 =? 0) with false by lia. replace (znth (s0 :: ss) 0) with (Some s0) by reflexivity. cbn [Z.to_nat upd map]. intros X. injection X as <-.
    rewrite Z.quot_1_r, Z.mul_1_r, Z.add_0_l. reflexivity. }
  assert (Esum : source_start true l = s * s0).
  { subst l. cbn [source_start l_offsets]. change (zsum (s * s0 :: map (fun _ => 0) rest)) with (s * s0 + zsum (map (fun _ : Z => 0) rest)). rewrite zsum_zero. lia. }
  rewrite zprod_cons in Hp, Hm. assert (Esh : l_shape l = (e - s) :: rest) by (subst l; reflexivity).
  destruct (C85_moved_view V valid room (Dev t i) dst true l m R Hr) as (m' & E & Hel).
  - rewrite Esh. constructor; [lia|exact Hrest].
  - rewrite Esh, zprod_cons. nia.
  - rewrite Esum. nia.
  - rewrite Esum, Esh, zprod_cons, Hm, Hs0. nia.
  - exists m'. split; [exact E|]. rewrite Hel, Esum. rewrite elements_cells, Esh, map_map, map_map.
    assert (Ed : zrange (zprod ((e - s) :: rest)) = map (cell (dense ((e - s) :: rest))) (all_indices ((e - s) :: rest))) by (symmetry; apply dense_cells; constructor; [lia|exact Hrest]).
    rewrite Ed, map_map. apply map_ext_in. intros idx Hidx. do 2 f_equal. apply in_all_indices in Hidx. subst l. unfold cell. cbn [dense l_offsets l_strides].
    rewrite Hsame. inversion Hidx as [|x y xs ys Hx Hxs]; subst. cbn [map cell_loop]. ring.
Qed.
Print Assumptions C85_rows_from_gpu.
Example C85_rows_from_gpu_example : exists l m', slice1 (dense [3; 2]) 0 1 3 1 = Ok l /\
  to_device true (fun _ => true) (fun _ => true) (Dev Cuda 0) l (zrange 6) (Dev Cpu 0) = Ok (dense [2; 2], m') /\ m' = [Some 2; Some 3; Some 4; Some 5].
Proof. do 2 eexists. split; [vm_compute; reflexivity|]. split; vm_compute; reflexivity. Qed.

(** A slice that does not start at the beginning of a host array arrives as the beginning of that array, for every size and window. *)
Theorem C85_host_slice_refuted : forall valid room i t j n s e, on_gpu t = true -> valid j = true -> room (Dev t j) = true -> 0 < s < e -> e <= n -> n < 2 ^ 31 ->
  exists l m', slice1 (dense [n]) 0 s e 1 = Ok l /\ to_device true valid room (Dev Cpu i) l (zrange n) (Dev t j) = Ok (dense [e - s], m') /\
    elements (zrange n) l = map (fun k => Some (s + k)) (zrange (e - s)) /\ elements m' (dense [e - s]) = map (fun k => Some (Some k)) (zrange (e - s)).
Proof.
  intros valid room i t j n s e Ht Hv Hr Hse Hen Hn. exists (Layout [e - s] [1] [s]).
  assert (El : slice1 (dense [n]) 0 s e 1 = Ok (Layout [e - s] [1] [s])).
  { unfold slice1, size_axis, ndim. cbn [dense l_shape l_strides l_offsets]. change (0 <? zlen [n]) with true. unfold zget. change (znth [n] 0) with (Some n). cbn [obind].
    replace (s <? 0) with false by lia. replace (n <? s) with false by lia. cbn [negb andb]. replace (e <? 0) with false by lia.
    assert ((if n <? e then n else e) = e) as -> by (destruct (n <? e) eqn:X; lia). replace (e <? s) with false by lia. change (1 =? 0) with false.
    change (znth (rev (row_major_loop (rev [n]) 1)) 0) with (Some 1). cbn [Z.to_nat upd map]. rewrite Z.quot_1_r. rewrite Z.mul_1_r. reflexivity. }
  assert (P : zprod [e - s] = e - s) by (rewrite zprod_cons, zprod_nil; lia).
  destruct (C85_moved_view Z valid room (Dev Cpu i) (Dev t j) false (Layout [e - s] [1] [s]) (zrange n)) as (m' & E & Hel); cbn [source_start l_shape]; auto.
  - now apply to_gpu.
  - constructor; [lia|constructor].
  - lia.
  - lia.
  - rewrite P, zrange_length. lia.
  - exists m'. split; [exact El|]. split; [exact E|]. cbn [source_start l_shape] in Hel. rewrite Hel, P. split.
    + rewrite elements_cells. cbn [l_shape]. rewrite map_map.
      assert (G : forall l, flat_map (fun i => map (cons i) [[]]) l = map (fun i : Z => [i]) l) by (induction l as [|x l IH]; [reflexivity|]; cbn in *; now rewrite IH).
      replace (all_indices [e - s]) with (map (fun i : Z => [i]) (zrange (e - s))) by (symmetry; apply (G (zrange (e - s)))). rewrite map_map. apply map_ext_in. intros k Hk. apply in_zrange in Hk. unfold cell. cbn [l_offsets l_strides cell_loop].
      rewrite znth_zrange by lia. f_equal. ring.
    + apply map_ext_in. intros k Hk. apply in_zrange in Hk. cbn [source_start]. rewrite znth_zrange by lia. reflexivity.
Qed.
Print Assumptions C85_host_slice_refuted.
Example C85_host_slice_example : 0 < 2 < 4 /\ 4 <= 5 /\ on_gpu Cuda = true. Proof. repeat split; lia. Qed.

(** Columns of an array on a GPU: the second row is taken from the wrong place, for every size and window. *)
Theorem C85_columns_refuted : forall valid room t i j R C s e, on_gpu t = true -> room (Dev Cpu j) = true -> 2 <= R -> 0 <= s < e -> e <= C -> e - s < C -> R * C < 2 ^ 31 ->
  exists l m', slice1 (dense [R; C]) 1 s e 1 = Ok l /\ to_device true valid room (Dev t i) l (zrange (R * C)) (Dev Cpu j) = Ok (dense [R; e - s], m') /\
    elt (zrange (R * C)) l [1; 0] = Some (C + s) /\ elt m' (dense [R; e - s]) [1; 0] = Some (Some e).
Proof.
  intros valid room t i j R C s e Ht Hr HR Hse HeC Hlt Hn. exists (Layout [R; e - s] [C; 1] [0; s]).
  assert (El : slice1 (dense [R; C]) 1 s e 1 = Ok (Layout [R; e - s] [C; 1] [0; s])).
  { unfold slice1, size_axis, ndim. cbn [dense l_shape l_strides l_offsets]. change (1 <? zlen [R; C]) with true. unfold zget. change (znth [R; C] 1) with (Some C). cbn [obind].
    replace (s <? 0) with false by lia. replace (C <? s) with false by lia. cbn [negb andb]. replace (e <? 0) with false by lia.
    assert ((if C <? e then C else e) = e) as -> by (destruct (C <? e) eqn:X; lia). replace (e <? s) with false by lia. change (1 =? 0) with false.
    change (znth (rev (row_major_loop (rev [R; C]) 1)) 1) with (Some 1). change (Z.to_nat 1) with 1%nat. cbn [upd map rev row_major_loop app]. rewrite Z.quot_1_r, !Z.mul_1_r, Z.mul_1_l, Z.add_0_l. reflexivity. }
  assert (P : zprod [R; e - s] = R * (e - s)) by (rewrite !zprod_cons, zprod_nil; lia).
  assert (S : source_start true (Layout [R; e - s] [C; 1] [0; s]) = s) by (cbn [source_start l_offsets]; unfold zsum; cbn [fold_right]; lia).
  destruct (C85_moved_view Z valid room (Dev t i) (Dev Cpu j) true (Layout [R; e - s] [C; 1] [0; s]) (zrange (R * C))) as (m' & E & Hel); rewrite ?S; cbn [l_shape]; auto.
  - now apply from_gpu.
  - constructor; [lia|]. constructor; [lia|constructor].
  - rewrite P. nia.
  - lia.
  - rewrite P, zrange_length. nia.
  - exists m'. split; [exact El|]. split; [exact E|]. split.
    + unfold elt, cell. cbn [l_offsets l_strides cell_loop]. rewrite znth_zrange by nia. f_equal. ring.
    + unfold elt. rewrite elements_cells in Hel. cbn [l_shape dense] in Hel. rewrite dense_cells in Hel by (constructor; [lia|constructor; [lia|constructor]]).
      rewrite S, P in Hel. assert (Ec : cell (dense [R; e - s]) [1; 0] = e - s) by (unfold cell; cbn [dense l_offsets l_strides map rev row_major_loop app cell_loop]; ring).
      rewrite Ec. assert (Hx : In (e - s) (zrange (R * (e - s)))) by (apply in_zrange; nia).
      assert (Hq := Hel). rewrite map_ext_in_iff in Hq. specialize (Hq (e - s) Hx). rewrite Hq, znth_zrange by nia. do 2 f_equal. lia.
Qed.
Print Assumptions C85_columns_refuted.
Example C85_columns_example : 2 <= 3 /\ 0 <= 1 < 2 /\ 2 - 1 < 4 /\ 3 * 4 < 2 ^ 31. Proof. repeat split; lia. Qed.

(** A move from one GPU to the plain memory of another (or from managed memory) copies nothing: every element of the result is uninitialised. *)
Theorem C85_between_gpus_refuted : forall V valid room t i j (a : array V), on_gpu t = true -> a_dev a = Dev t i -> (t, i) <> (Cuda, j) -> room (Dev Cuda j) = true ->
  exists a', to true valid room a (Dev Cuda j) = Ok a' /\ a_dev a' = Dev Cuda j /\ Forall (fun c => c = None) (a_mem a').
Proof.
  intros V valid room t i j a Ht Ha Hne Hr. unfold to. rewrite Ha. assert (dev_eqb (Dev t i) (Dev Cuda j) = false) as ->.
  { destruct (dev_eqb _ _) eqn:E; [|reflexivity]. apply dev_eqb_ok in E. congruence. }
  unfold to_device, alloc_ok. cbn [d_type]. rewrite Hr. cbn [negb andb]. destruct t; cbn in Ht; try discriminate; cbn [obind fst snd]; eexists; (split; [reflexivity|]; split; [reflexivity|]);
    cbn [a_mem]; apply Forall_map; unfold filled; cbn [map app]; apply Forall_map, Forall_forall; reflexivity.
Qed.
Print Assumptions C85_between_gpus_refuted.
Example C85_between_gpus_example : (CudaManaged, 0) <> (Cuda, 0) /\ (Cuda, 0) <> (Cuda, 1). Proof. split; discriminate. Qed.

(** An array in pinned host memory cannot be moved anywhere. *)
Theorem C85_from_pinned_refuted : forall V cuda valid room i dst (a : array V), a_dev a = Dev CudaHost i -> dst <> Dev CudaHost i -> to cuda valid room a dst = Throw RuntimeError.
Proof.
  intros V cuda valid room i dst a Ha Hne. unfold to. rewrite Ha. assert (dev_eqb (Dev CudaHost i) dst = false) as ->.
  { destruct (dev_eqb _ _) eqn:E; [|reflexivity]. apply dev_eqb_ok in E. congruence. }
  unfold to_device. destruct (negb (alloc_ok cuda room dst)); [reflexivity|]. destruct (negb cuda && _); reflexivity.
Qed.
Print Assumptions C85_from_pinned_refuted.
Example C85_from_pinned_example : Dev Cpu 0 <> Dev CudaHost 0. Proof. discriminate. Qed.

(** A build without CUDA moves data between CPU devices only, and reports every other move. *)
Theorem C85_without_cuda : forall V valid room (a : array V) dst,
  (exists t i, a_dev a = Dev t i /\ is_cuda t = true) \/ is_cuda (d_type dst) = true -> a_dev a <> dst -> to false valid room a dst = Throw RuntimeError.
Proof.
  intros V valid room a dst H Hne. unfold to. assert (dev_eqb (a_dev a) dst = false) as ->.
  { destruct (dev_eqb _ _) eqn:E; [|reflexivity]. apply dev_eqb_ok in E. congruence. }
  unfold to_device. destruct (negb (alloc_ok false room dst)); [reflexivity|]. cbn [negb andb].
  assert (is_cuda (d_type (a_dev a)) || is_cuda (d_type dst) = true) as ->; [|reflexivity].
  destruct H as [(t & i & E & H)|H]; [rewrite E; cbn [d_type]; now rewrite H|rewrite H; apply orb_true_r].
Qed.
Print Assumptions C85_without_cuda.
Example C85_without_cuda_example : is_cuda (d_type (Dev Cuda 0)) = true /\ Dev Cpu 0 <> Dev Cuda 0. Proof. split; [reflexivity|discriminate]. Qed.

(** An invalid CUDA device is refused. *)
Theorem C85_invalid_device : forall V cuda valid room i t j (a : array V), a_dev a = Dev Cpu i -> on_gpu t = true -> valid j = false -> to cuda valid room a (Dev t j) = Throw RuntimeError.
Proof.
  intros V cuda valid room i t j a Ha Ht Hv. unfold to. rewrite Ha. assert (dev_eqb (Dev Cpu i) (Dev t j) = false) as -> by (destruct t; cbn in *; try discriminate; reflexivity).
  unfold to_device. destruct (negb (alloc_ok cuda room _)); [reflexivity|]. destruct (negb cuda && _); [reflexivity|]. cbn [d_type d_id]. rewrite Hv. destruct t; cbn in Ht; try discriminate; reflexivity.
Qed.
Print Assumptions C85_invalid_device.
Example C85_invalid_device_example : (fun i => i =? 0) 3 = false /\ on_gpu CudaManaged = true. Proof. split; reflexivity. Qed.

(** Arrays of 2^32 + k elements: only the first k are moved; 2^31 elements up to 2^32: undefined. *)
Theorem C85_large_refuted : forall V valid room src dst fv n (m : list V), route valid src dst fv -> room dst = true -> zlen m = n ->
  (2 ^ 31 <= n < 2 ^ 32 -> to_device true valid room src (dense [n]) m dst = UB) /\
  (forall k, n = 2 ^ 32 + k -> 0 <= k < 2 ^ 31 -> exists m', to_device true valid room src (dense [n]) m dst = Ok (dense [n], m') /\
     forall c, k <= c < n -> znth m' c = Some None).
Proof.
  intros V valid room src dst fv n m R Hr Hm. rewrite (route_copies true valid room src dst fv eq_refl Hr R).
  assert (Es : source_start fv (dense [n]) = 0) by (destruct fv; reflexivity). rewrite Es. unfold numel. cbn [dense l_shape]. rewrite numel_of_int32 by discriminate.
  rewrite zprod_cons, zprod_nil, Z.mul_1_r. split.
  - intros Hn. assert (E : to_int32 n = n - 2 ^ 32).
    { unfold to_int32. replace (n + 2 ^ 31) with (n - 2 ^ 31 + 1 * 2 ^ 32) by lia. rewrite Z.mod_add by lia. rewrite Z.mod_small by lia. lia. }
    rewrite E. unfold copy_cells. replace (n - 2 ^ 32 =? 0) with false by lia. replace (n - 2 ^ 32 <? 0) with true by lia. reflexivity.
  - intros k -> Hk. assert (E : to_int32 (2 ^ 32 + k) = k).
    { unfold to_int32. replace (2 ^ 32 + k + 2 ^ 31) with (k + 2 ^ 31 + 1 * 2 ^ 32) by lia. rewrite Z.mod_add by lia. rewrite Z.mod_small by lia. lia. }
    rewrite E. rewrite copy_cells_ok by lia. cbn [obind]. eexists. split; [reflexivity|]. intros c Hc.
    rewrite alloc_elems_prod, zprod_cons, zprod_nil, Z.mul_1_r. unfold filled. rewrite zlen_window by lia.
    assert (L : zlen (map Some (firstn (Z.to_nat k) (skipn (Z.to_nat 0) m))) = k) by (rewrite zlen_map'; apply zlen_window; lia).
    rewrite znth_app_r by lia. rewrite L. rewrite znth_map'. rewrite znth_zrange by lia. reflexivity.
Qed.
Print Assumptions C85_large_refuted.
Example C85_large_example : zlen (map (fun _ => 0) (zrange (2 ^ 32 + 3))) = 2 ^ 32 + 3.
Proof. rewrite zlen_map', zrange_length. reflexivity. Qed.

(** The value of a one-element slice of a host array is the first cell of the whole array, for every position of the slice. *)
Theorem C85_scalar_slice_refuted : forall cuda valid room n s, 0 < s < n -> exists l, slice1 (dense [n]) 0 s (s + 1) 1 = Ok l /\
  elements (zrange n) l = [Some s] /\ scalarize0 cuda valid room (Array (Dev Cpu 0) l (map Some (zrange n))) = Ok (Some 0).
Proof.
  intros cuda valid room n s Hs. exists (Layout [1] [1] [s]). split.
  - unfold slice1, size_axis, ndim. cbn [dense l_shape l_strides l_offsets]. change (0 <? zlen [n]) with true. unfold zget. change (znth [n] 0) with (Some n). cbn [obind].
    replace (s <? 0) with false by lia. replace (n <? s) with false by lia. cbn [negb andb]. replace (s + 1 <? 0) with false by lia.
    assert ((if n <? s + 1 then n else s + 1) = s + 1) as -> by (destruct (n <? s + 1) eqn:X; lia). replace (s + 1 <? s) with false by lia. change (1 =? 0) with false.
    change (znth (rev (row_major_loop (rev [n]) 1)) 0) with (Some 1). cbn [Z.to_nat upd map]. rewrite Z.quot_1_r. replace (s + 1 - s) with 1 by lia. rewrite Z.mul_1_r. reflexivity.
  - split; [|unfold scalarize0, to; cbn [a_lay a_dev a_mem obind]; change (1 <? numel (Layout [1] [1] [s])) with false; change (dev_eqb (Dev Cpu 0) (Dev Cpu 0)) with true; cbn [obind a_mem]; unfold load, zget; rewrite znth_map', znth_zrange by lia; reflexivity].
    rewrite elements_cells. cbn [l_shape]. change (all_indices [1]) with [[0]]. cbn [map]. unfold cell. cbn [l_offsets l_strides cell_loop].
    rewrite znth_zrange by lia. do 2 f_equal. lia.
Qed.
Print Assumptions C85_scalar_slice_refuted.
Example C85_scalar_slice_example : 0 < 2 < 4. Proof. lia. Qed.

(** An operation on two arrays runs on their common device, and is refused if they have none. *)
Theorem C85_kernel_device : forall code a b, (a <> b -> dispatch code a b = Throw RuntimeError) /\
  forall k, dispatch code a b = Ok k -> a = b /\ (k = OnGpu <-> on_gpu (d_type b) = true).
Proof.
  intros code a b. unfold dispatch. destruct (dev_eqb a b) eqn:E.
  - apply dev_eqb_ok in E as ->. split; [congruence|]. intros k.
    destruct (d_type b), code; intros H; try discriminate; injection H as <-; (split; [reflexivity|]); cbn; split; congruence.
  - split; [reflexivity|discriminate].
Qed.
Print Assumptions C85_kernel_device.
Example C85_kernel_device_example : dispatch true (Dev Cuda 0) (Dev Cuda 0) = Ok OnGpu /\ Dev Cuda 0 <> Dev CudaManaged 0. Proof. split; [reflexivity|discriminate]. Qed.
(** [abs] of one argument uses the CPU kernel on GPU memory. *)
Theorem C85_abs_refuted : forall room t i, on_gpu t = true -> room (Dev t i) = true ->
  dispatch_abs true room (Dev t i) = Ok OnCpu /\ dispatch_unary true room true (Dev t i) = Ok OnGpu.
Proof. intros room t i Ht Hr. unfold dispatch_abs, dispatch_unary, dispatch, alloc_ok, dev_eqb. cbn [d_type d_id]. rewrite Hr, Z.eqb_refl. destruct t; cbn in *; try discriminate; auto. Qed.
Print Assumptions C85_abs_refuted.
Example C85_abs_example : on_gpu Cuda = true. Proof. reflexivity. Qed.

(** ** C86 *)
(** Where the value of a variable comes from, by the program alone (last operation first): the k-th array made here, or an imported one, and
    whether an assignment happened on the way. *)
Inductive origin V := FromMake (k : nat) (l : layout) (c : list V) | FromForeign (f : nat) (assigned : bool).
Arguments FromMake {V}. Arguments FromForeign {V}.
Definition mark {V} (o : origin V) : origin V := match o with FromForeign f _ => FromForeign f true | x => x end.
Fixpoint makes {V} (p : list (hop V)) : nat := match p with [] => O | Make _ _ _ :: p => S (makes p) | _ :: p => makes p end.
Fixpoint origin_of {V} (rp : list (hop V)) (v : nat) : option (origin V) :=
  match rp with
  | [] => None
  | Make w l c :: p => if Nat.eqb v w then Some (FromMake (makes p) l c) else origin_of p v
  | Import w f :: p => if Nat.eqb v w then Some (FromForeign f false) else origin_of p v
  | Copy w u :: p => if Nat.eqb v w then origin_of p u else origin_of p v
  | Assign w u :: p => if Nat.eqb v w then if Nat.eqb w u then origin_of p v else option_map mark (origin_of p u) else origin_of p v
  | Drop w :: p => if Nat.eqb v w then None else origin_of p v
  | Release _ :: p => origin_of p v
  end.
Definition released {V} (rp : list (hop V)) (f : nat) : Prop := In (Release f) rp.
(** A program (last operation first) that constructs each variable once at a time, uses only live ones, and imports only tensors that still exist. *)
Definition fits {V} (rp : list (hop V)) (o : hop V) : Prop :=
  match o with
  | Make v _ _ => origin_of rp v = None
  | Import v f => origin_of rp v = None /\ ~ released rp f
  | Copy v w => origin_of rp v = None /\ origin_of rp w <> None
  | Assign v w => origin_of rp v <> None /\ origin_of rp w <> None
  | Drop v => origin_of rp v <> None
  | Release _ => True
  end.
Fixpoint scoped {V} (rp : list (hop V)) : Prop := match rp with [] => True | o :: p => fits p o /\ scoped p end.

(** *** Reference counts *)
Definition counted (owner : nat -> option nat) (r : nat -> nat) : Prop :=
  forall b, exists L, NoDup L /\ (forall v, In v L <-> owner v = Some b) /\ r b = length L.
Definition one (o : option nat) (b : nat) : nat := match o with Some c => if Nat.eqb c b then 1%nat else O | None => O end.
Lemma own_dec (o : option nat) b : {o = Some b} + {o <> Some b}.
Proof. decide equality. apply Nat.eq_dec. Defined.
Lemma incr_at o r b : incr o r b = (r b + one o b)%nat.
Proof. destruct o as [c|]; cbn; [|lia]. unfold put. rewrite (Nat.eqb_sym b c). destruct (Nat.eqb c b) eqn:E; [apply Nat.eqb_eq in E as ->|]; lia. Qed.
Lemma decr_at o r : (forall b, o = Some b -> r b <> O) -> exists r', decr o r = Ok r' /\ forall b, (r' b + one o b)%nat = r b.
Proof.
  destruct o as [c|]; cbn; intros H; [|exists r; split; [reflexivity|intros; lia]]. specialize (H c eq_refl). destruct (r c) as [|k] eqn:E; [congruence|].
  exists (put r c k). split; [reflexivity|]. intros b. unfold put. rewrite (Nat.eqb_sym b c). destruct (Nat.eqb c b) eqn:Eb; [apply Nat.eqb_eq in Eb as ->|]; lia.
Qed.
Lemma remove_length v L : NoDup L -> In v L -> length L = S (length (remove Nat.eq_dec v L)).
Proof.
  induction L as [|a L IH]; intros N H; [destruct H|]. inversion_clear N. cbn [remove]. destruct (Nat.eq_dec v a) as [->|Hne].
  - rewrite notin_remove by assumption. reflexivity.
  - destruct H as [->|H]; [congruence|]. cbn. now rewrite <- IH.
Qed.
Lemma remove_nodup v L : NoDup L -> NoDup (remove Nat.eq_dec v L).
Proof.
  induction L as [|a L IH]; intros N; [constructor|]. inversion_clear N. cbn [remove]. destruct (Nat.eq_dec v a); [auto|].
  constructor; [|auto]. intros X. apply in_remove in X. tauto.
Qed.
Lemma counted_set owner r v o : counted owner r -> exists r', decr (owner v) (incr o r) = Ok r' /\ counted (put owner v o) r'.
Proof.
  intros C. destruct (decr_at (owner v) (incr o r)) as (r' & E & Hr).
  { intros b Hb. rewrite incr_at. destruct (C b) as (L & _ & HL & ->). apply HL in Hb. destruct L; [destruct Hb|cbn; lia]. }
  exists r'. split; [exact E|]. intros b. specialize (Hr b). rewrite incr_at in Hr. destruct (C b) as (L & N & HL & Hb). unfold put.
  assert (D : forall x, one x b = if own_dec x b then 1%nat else O).
  { intros [c|]; unfold one; [|destruct (own_dec None b); [discriminate|reflexivity]].
    destruct (own_dec (Some c) b) as [X|X]; [injection X as ->; now rewrite Nat.eqb_refl|]. destruct (Nat.eqb c b) eqn:Y; [apply Nat.eqb_eq in Y; congruence|reflexivity]. }
  rewrite !D in Hr. destruct (own_dec (owner v) b) as [Hv|Hv], (own_dec o b) as [Ho|Ho].
  - exists L. split; [exact N|]. split; [|lia]. intros w. destruct (Nat.eqb w v) eqn:Ew; [apply Nat.eqb_eq in Ew as ->; rewrite HL; tauto|apply HL].
  - exists (remove Nat.eq_dec v L). split; [now apply remove_nodup|]. split.
    + intros w. destruct (Nat.eqb w v) eqn:Ew; [apply Nat.eqb_eq in Ew as ->; split; [intros X; now apply remove_In in X|tauto]|].
      rewrite <- HL. apply Nat.eqb_neq in Ew. split; [intros X; apply in_remove in X; tauto|intros X; now apply in_in_remove].
    + assert (In v L) by now apply HL. pose proof (remove_length v L N H). lia.
  - exists (v :: L). split; [constructor; [rewrite HL; exact Hv|exact N]|]. split; [|cbn; lia]. intros w. cbn [In].
    destruct (Nat.eqb w v) eqn:Ew; [apply Nat.eqb_eq in Ew as ->; tauto|]. apply Nat.eqb_neq in Ew. rewrite HL. intuition congruence.
  - exists L. split; [exact N|]. split; [|lia]. intros w. destruct (Nat.eqb w v) eqn:Ew; [apply Nat.eqb_eq in Ew as ->; rewrite HL; tauto|apply HL].
Qed.
Lemma counted_ext o1 o2 r : (forall v, o1 v = o2 v) -> counted o1 r -> counted o2 r.
Proof. intros H C b. destruct (C b) as (L & N & HL & Hb). exists L. split; [exact N|]. split; [|exact Hb]. intros v. rewrite <- H. apply HL. Qed.

Section Hist.
  Context {V : Type}.
  Variable fs : nat -> foreign V.
  Definition good_t (s : hstate (V := V)) (o : option (origin V)) (t : option tensor) : Prop :=
    match o, t with
    | None, None => True
    | Some (FromMake b l c), Some t => nth_error (s_blocks s) b = Some c /\ t_data t = Some (Local b) /\ t_own t = Some b /\ t_vec t = l /\ t_ptr t = OwnVec
    | Some (FromForeign f a), Some t => t_own t = None /\ t_data t = (if a then None else Some (Foreign f)) /\ t_vec t = to_dlpack (f_lay (fs f)) /\ (t_ptr t = OwnVec \/ t_ptr t = ForeignVec f)
    | _, _ => False
    end.
  Definition owner (vs : nat -> option tensor) (v : nat) : option nat := match vs v with Some t => t_own t | None => None end.
  Definition hinv (rp : list (hop V)) (s : hstate) : Prop :=
    (forall v, good_t s (origin_of rp v) (s_vars s v)) /\ (forall f, s_gone s f = true <-> released rp f) /\
    length (s_blocks s) = makes rp /\ counted (owner (s_vars s)) (s_refs s).
  Lemma good_more s s' o t : (exists x, s_blocks s' = s_blocks s ++ x) -> good_t s o t -> good_t s' o t.
  Proof.
    intros (x & Hx). unfold good_t. destruct o as [[b l c|f a]|], t as [t|]; auto. intros (Hb & R). split; [|exact R].
    rewrite Hx, nth_error_app1; [exact Hb|]. apply nth_error_Some. congruence.
  Qed.
  Lemma owner_put vs v t w : owner (put vs v t) w = put (owner vs) v (match t with Some t => t_own t | None => None end) w.
  Proof. unfold owner, put. destruct (Nat.eqb w v); reflexivity. Qed.
  Lemma live s rp v : hinv rp s -> (s_vars s v = None <-> origin_of rp v = None).
  Proof. intros (I1 & _). specialize (I1 v). destruct (origin_of rp v) as [[]|], (s_vars s v); cbn in I1; split; intros; try contradiction; congruence. Qed.

  (** A step that fits keeps the invariant. *)
  Lemma hstep_fits rp s o : hinv rp s -> fits rp o -> exists s', hstep fs s o = Ok s' /\ hinv (o :: rp) s'.
  Proof.
    intros I F. pose proof (fun v => live s rp v I) as Lv. destruct I as (I1 & I2 & I3 & I4).
    assert (Gone : forall s' : hstate (V := V), (forall f, o <> Release f) -> s_gone s' = s_gone s -> forall f, s_gone s' f = true <-> released (o :: rp) f).
    { intros s' Hn Hg f. rewrite Hg, I2. unfold released. split; [now right|]. intros [H|H]; [exfalso; exact (Hn f H)|exact H]. }
    assert (Same : forall (s' : hstate (V := V)) u, s_blocks s' = s_blocks s -> good_t s' (origin_of rp u) (s_vars s u)) by (intros s' u Hb; apply (good_more s); [exists []; now rewrite app_nil_r|apply I1]).
    destruct o as [v l c|v f|v w|v w|v|f]; cbn [hstep fits] in *.
    - rewrite (proj2 (Lv v) F). eexists. split; [reflexivity|]. split; [|split; [apply Gone; [discriminate|reflexivity]|split]].
      + intros u. cbn [origin_of s_vars]. unfold put. destruct (Nat.eqb u v) eqn:Eu.
        * cbn. rewrite <- I3, nth_error_app2, Nat.sub_diag by lia. repeat split.
        * eapply good_more; [|apply I1]. exists [c]. reflexivity.
      + cbn. rewrite app_length, I3. cbn. lia.
      + cbn [s_vars s_refs]. destruct (counted_set (owner (s_vars s)) (s_refs s) v (Some (length (s_blocks s))) I4) as (r' & E & C).
        assert (owner (s_vars s) v = None) as Ho by (unfold owner; now rewrite (proj2 (Lv v) F)). rewrite Ho in E. cbn [decr incr] in E. injection E as <-.
        assert (Z0 : s_refs s (length (s_blocks s)) = O).
        { destruct (I4 (length (s_blocks s))) as (L & _ & HL & ->). destruct L as [|u L]; [reflexivity|]. exfalso. assert (X : owner (s_vars s) u = Some (length (s_blocks s))) by (apply HL; now left).
          unfold owner in X. specialize (I1 u). destruct (origin_of rp u) as [[b l' c'|f a]|], (s_vars s u) as [t|]; cbn in I1; try contradiction; try discriminate.
          - destruct I1 as (H1 & _ & H2 & _). rewrite H2 in X. injection X as ->. assert (length (s_blocks s) < length (s_blocks s))%nat by (apply nth_error_Some; congruence). lia.
          - destruct I1 as (H1 & _). congruence. }
        rewrite Z0 in C. eapply counted_ext; [|exact C]. intros u. now rewrite owner_put.
    - destruct F as (F1 & F2). rewrite (proj2 (Lv v) F1). destruct (s_gone s f) eqn:Eg; [exfalso; apply F2, I2; exact Eg|]. eexists. split; [reflexivity|].
      split; [|split; [apply Gone; [discriminate|reflexivity]|split; [exact I3|]]].
      + intros u. cbn [origin_of s_vars]. unfold put. destruct (Nat.eqb u v); [cbn; auto|]. now apply Same.
      + cbn [s_vars s_refs]. eapply counted_ext; [|exact I4]. intros u. rewrite owner_put. unfold put. destruct (Nat.eqb u v) eqn:Eu; [|reflexivity].
        apply Nat.eqb_eq in Eu as ->. unfold owner. now rewrite (proj2 (Lv v) F1).
    - destruct F as (F1 & F2). rewrite (proj2 (Lv v) F1). destruct (s_vars s w) as [t|] eqn:Ew; [|exfalso; apply F2, Lv; exact Ew]. eexists. split; [reflexivity|].
      split; [|split; [apply Gone; [discriminate|reflexivity]|split; [exact I3|]]].
      + intros u. cbn [origin_of s_vars]. unfold put. destruct (Nat.eqb u v); [|now apply Same]. pose proof (I1 w) as Hw. rewrite Ew in Hw.
        destruct (origin_of rp w) as [[b l c|f a]|]; cbn in Hw |- *; [tauto|tauto|contradiction].
      + cbn [s_vars s_refs]. destruct (counted_set (owner (s_vars s)) (s_refs s) v (t_own t) I4) as (r' & E & C).
        assert (owner (s_vars s) v = None) as Ho by (unfold owner; now rewrite (proj2 (Lv v) F1)). rewrite Ho in E. cbn [decr] in E. injection E as <-.
        eapply counted_ext; [|exact C]. intros u. now rewrite owner_put.
    - destruct F as (F1 & F2). destruct (s_vars s v) as [old|] eqn:Ev; [|exfalso; apply F1, Lv; exact Ev]. destruct (s_vars s w) as [t|] eqn:Ew; [|exfalso; apply F2, Lv; exact Ew].
      destruct (Nat.eqb v w) eqn:Evw.
      + eexists. split; [reflexivity|]. split; [|split; [apply Gone; [discriminate|reflexivity]|split; [exact I3|exact I4]]].
        intros u. cbn [origin_of]. rewrite Evw. destruct (Nat.eqb u v); apply I1.
      + destruct (counted_set (owner (s_vars s)) (s_refs s) v (t_own t) I4) as (r' & E & C). assert (owner (s_vars s) v = t_own old) as Ho by (unfold owner; now rewrite Ev).
        rewrite Ho in E. rewrite E. cbn [obind]. eexists. split; [reflexivity|]. split; [|split; [apply Gone; [discriminate|reflexivity]|split; [exact I3|]]].
        * intros u. cbn [origin_of s_vars]. unfold put. rewrite Evw. destruct (Nat.eqb u v); [|now apply Same]. pose proof (I1 w) as Hw. rewrite Ew in Hw.
          destruct (origin_of rp w) as [[b l c|f a]|]; cbn in Hw |- *; [|destruct Hw as (H1 & _ & H3 & _); rewrite H1; auto|contradiction].
          destruct Hw as (H1 & H2 & H3 & H4 & _). rewrite H3. auto.
        * cbn [s_vars s_refs]. eapply counted_ext; [|exact C]. intros u. now rewrite owner_put.
    - destruct (s_vars s v) as [old|] eqn:Ev; [|exfalso; apply F, Lv; exact Ev]. destruct (counted_set (owner (s_vars s)) (s_refs s) v None I4) as (r' & E & C).
      assert (owner (s_vars s) v = t_own old) as Ho by (unfold owner; now rewrite Ev). rewrite Ho in E. cbn [incr] in E. rewrite E. cbn [obind]. eexists. split; [reflexivity|].
      split; [|split; [apply Gone; [discriminate|reflexivity]|split; [exact I3|]]].
      + intros u. cbn [origin_of s_vars]. unfold put. destruct (Nat.eqb u v); [exact I|now apply Same].
      + cbn [s_vars s_refs]. eapply counted_ext; [|exact C]. intros u. now rewrite owner_put.
    - eexists. split; [reflexivity|]. split; [intros u; cbn [origin_of s_vars]; now apply Same|]. split; [|split; [exact I3|exact I4]].
      intros g. cbn [s_gone]. unfold released. destruct (Nat.eqb g f) eqn:Eg.
      + apply Nat.eqb_eq in Eg as ->. split; [now left|reflexivity].
      + rewrite I2. split; [now right|]. intros [H|H]; [injection H as ->; rewrite Nat.eqb_refl in Eg; discriminate|exact H].
  Qed.
  Lemma hstep_fits_only rp s o s' : hinv rp s -> hstep fs s o = Ok s' -> fits rp o.
  Proof.
    intros I E. pose proof (fun v => live s rp v I) as Lv. destruct I as (_ & I2 & _). destruct o as [v l c|v f|v w|v w|v|f]; cbn [hstep fits] in *.
    - destruct (s_vars s v) eqn:Ev; [discriminate|]. now apply Lv.
    - destruct (s_vars s v) eqn:Ev; [discriminate|]. destruct (s_gone s f) eqn:Eg; [discriminate|]. split; [now apply Lv|]. rewrite <- I2. congruence.
    - destruct (s_vars s v) eqn:Ev; [discriminate|]. destruct (s_vars s w) eqn:Ew; [|discriminate]. split; [now apply Lv|]. rewrite <- Lv. congruence.
    - destruct (s_vars s v) eqn:Ev; [|discriminate]. destruct (s_vars s w) eqn:Ew; [|discriminate]. rewrite <- !Lv. split; congruence.
    - destruct (s_vars s v) eqn:Ev; [|discriminate]. rewrite <- Lv. congruence.
    - exact I.
  Qed.
  Lemma hrun_inv p : forall rp s, hinv rp s -> scoped rp ->
    (forall s', hrun fs s p = Ok s' -> hinv (rev p ++ rp) s' /\ scoped (rev p ++ rp)) /\ (scoped (rev p ++ rp) -> exists s', hrun fs s p = Ok s').
  Proof.
    induction p as [|o p IH]; intros rp s Hi Hs; cbn [hrun rev app]; [split; [intros s' E; injection E as <-; auto|eauto]|].
    rewrite <- app_assoc. cbn [app]. split.
    - intros s' E. destruct (hstep fs s o) as [s1| |] eqn:E1; cbn [obind] in E; try discriminate. pose proof (hstep_fits_only _ _ _ _ Hi E1) as F.
      destruct (hstep_fits rp s o Hi F) as (s2 & E2 & Hi2). assert (s2 = s1) as -> by congruence. apply (proj1 (IH (o :: rp) s1 Hi2 (conj F Hs))). exact E.
    - intros S. assert (F : fits rp o).
      { clear -S. induction (rev p) as [|x q IHq]; cbn in S; [apply S|apply IHq, S]. }
      destruct (hstep_fits rp s o Hi F) as (s1 & E1 & Hi1). rewrite E1. cbn [obind]. apply (proj2 (IH (o :: rp) s1 Hi1 (conj F Hs))). exact S.
  Qed.
  Lemma hstart_inv : hinv [] hstart.
  Proof.
    split; [intros v; exact I|]. split; [intros f; cbn; split; [discriminate|intros []]|]. split; [reflexivity|]. intros b. exists []. split; [constructor|]. split; [|reflexivity].
    intros v. cbn. split; [intros []|discriminate].
  Qed.
  Lemma hrun_start p s : hrun fs hstart p = Ok s -> hinv (rev p) s.
  Proof. intros E. rewrite <- (app_nil_r (rev p)). now apply (proj1 (hrun_inv p [] hstart hstart_inv I)). Qed.
End Hist.

(** Every program that respects lifetimes runs: no count is decremented below zero, no buffer is freed twice; and only such programs run. *)
Theorem C86_runs : forall V (fs : nat -> foreign V) p, (exists s, hrun fs hstart p = Ok s) <-> scoped (rev p).
Proof.
  intros V fs p. destruct (hrun_inv fs p [] hstart (hstart_inv fs) I) as (A & B). rewrite app_nil_r in *. split; [intros (s & E); apply (A s E)|exact B].
Qed.
Print Assumptions C86_runs.
Example C86_runs_example : scoped (rev [Make 0 (dense [2]) [4; 5]; Copy 1 0; Import 2 7; Assign 0 2; Release 7; Drop 1; Copy 1 0; Drop 2]).
Proof. cbn. intuition discriminate. Qed.

(** A buffer is freed exactly when no variable holds a value that stems from its creation: no leak, no early release. *)
Theorem C86_freed : forall V (fs : nat -> foreign V) p s k, hrun fs hstart p = Ok s -> (k < makes p)%nat ->
  (s_refs s k = O <-> forall v l c, origin_of (rev p) v <> Some (FromMake k l c)).
Proof.
  intros V fs p s k E Hk. destruct (hrun_start fs p s E) as (I1 & _ & _ & I4). destruct (I4 k) as (L & _ & HL & ->). split.
  - intros Z0 v l c Ho. specialize (I1 v). rewrite Ho in I1. assert (X : In v L). { apply HL. unfold owner. destruct (s_vars s v); cbn in I1; [|contradiction]. tauto. }
    destruct L; [destruct X|discriminate].
  - intros H. destruct L as [|v L]; [reflexivity|]. exfalso. assert (X : owner (s_vars s) v = Some k) by (apply HL; now left). unfold owner in X. specialize (I1 v). specialize (H v).
    destruct (origin_of (rev p) v) as [[b l c|f a]|], (s_vars s v) as [t|]; cbn in I1; try contradiction; try discriminate.
    + destruct I1 as (_ & _ & H1 & _). rewrite H1 in X. injection X as ->. now apply (H l c).
    + destruct I1 as (H1 & _). congruence.
Qed.
Print Assumptions C86_freed.
Example C86_freed_example : exists s, hrun (V := Z) (fun _ => ForeignT (dense [1]) 0 [0]) hstart
    [Make 0 (dense [2]) [4; 5]; Make 1 (dense [1]) [9]; Copy 2 0; Assign 1 2; Drop 0; Drop 2] = Ok s /\ s_refs s 1%nat = O /\ s_refs s 0%nat = 1%nat.
Proof. eexists. split; [reflexivity|]. split; reflexivity. Qed.

(** Arrays made here: whatever is copied, assigned, dropped or released, a variable whose value stems from a creation reads the elements given at
    that creation, from a buffer that is still allocated. *)
Theorem C86_own_arrays : forall V (fs : nat -> foreign V) p s v k l c idx, hrun fs hstart p = Ok s -> origin_of (rev p) v = Some (FromMake k l c) ->
  hread fs s v idx = load c (cell l idx).
Proof.
  intros V fs p s v k l c idx E Ho. destruct (hrun_start fs p s E) as (I1 & _ & _ & I4). pose proof (I1 v) as J. rewrite Ho in J. unfold hread.
  destruct (s_vars s v) as [t|] eqn:Ev; cbn in J; [|contradiction]. destruct J as (H1 & H2 & H3 & H4 & H5). unfold vectors. rewrite H5, H2, H4. cbn [obind]. rewrite H1.
  destruct (I4 k) as (L & _ & HL & Hr). assert (X : In v L) by (apply HL; unfold owner; now rewrite Ev). rewrite Hr. destruct L; [destruct X|reflexivity].
Qed.
Print Assumptions C86_own_arrays.
Example C86_own_arrays_example : exists s, hrun (V := Z) (fun _ => ForeignT (dense [1]) 0 [0]) hstart
    [Make 0 (dense [2]) [4; 5]; Make 1 (dense [1]) [9]; Copy 2 0; Assign 1 2; Drop 0; Drop 2] = Ok s /\
  origin_of (rev [Make 0 (dense [2]) [4; 5]; Make 1 (dense [1]) [9]; Copy 2 0; Assign 1 2; Drop 0; Drop 2]) 1 = Some (FromMake 0 (dense [2]) [4; 5]) /\
  hread (fun _ => ForeignT (dense [1]) 0 [0]) s 1 [1] = Ok 5.
Proof. eexists. split; [reflexivity|]. split; reflexivity. Qed.

(** Borrowed arrays: readable, through copies too, exactly while no assignment happened on the way and the other framework keeps its tensor. *)
Theorem C86_borrowed_arrays : forall V (fs : nat -> foreign V) p s v f a idx, hrun fs hstart p = Ok s -> origin_of (rev p) v = Some (FromForeign f a) ->
  (a = false -> ~ In (Release f) p -> hread fs s v idx = load (f_cells (fs f)) (cell (to_dlpack (f_lay (fs f))) idx)) /\
  (a = true \/ In (Release f) p -> hread fs s v idx = UB).
Proof.
  intros V fs p s v f a idx E Ho. destruct (hrun_start fs p s E) as (I1 & I2 & _). specialize (I1 v). rewrite Ho in I1. unfold hread.
  destruct (s_vars s v) as [t|]; cbn in I1; [|contradiction]. destruct I1 as (H1 & H2 & H3 & H4).
  assert (Hg : s_gone s f = true <-> In (Release f) p) by (rewrite I2; unfold released; rewrite <- in_rev; reflexivity). unfold vectors. rewrite H2. split.
  - intros -> Hn. assert (s_gone s f = false) as Eg by (destruct (s_gone s f); [exfalso; apply Hn, Hg; reflexivity|reflexivity]).
    destruct H4 as [-> | ->]; rewrite ?Eg, ?H3; cbn [obind]; rewrite ?Eg; reflexivity.
  - intros [->|Hr]; [destruct H4 as [-> | ->]; [reflexivity|]; destruct (s_gone s f); reflexivity|]. apply Hg in Hr.
    destruct H4 as [-> | ->]; rewrite ?Hr; cbn [obind]; destruct a; rewrite ?Hr; reflexivity.
Qed.
Print Assumptions C86_borrowed_arrays.
Example C86_borrowed_arrays_example : exists s, hrun (V := Z) (fun _ => ForeignT (dense [3]) 0 [7; 8; 9]) hstart [Import 0 5; Copy 1 0; Drop 0] = Ok s /\
  hread (fun _ => ForeignT (dense [3]) 0 [7; 8; 9]) s 1 [2] = Ok 9.
Proof. eexists. split; reflexivity. Qed.

(** Converting a deferred array that holds a borrowed one (ndarray_deferred.cpp 38-57) assigns it to a local variable, and write_to_file
    (ops/ops.cpp 31-35) assigns [x = x.to("cpu")]: both lose the data. *)
Theorem C86_deferred_refuted : forall V (fs : nat -> foreign V) f idx s,
  hrun fs hstart [Import 0 f; Copy 1 0; Make 2 (dense [0]) []; Assign 2 1; Copy 3 2] = Ok s -> hread fs s 0 idx = load (f_cells (fs f)) (cell (to_dlpack (f_lay (fs f))) idx) /\ hread fs s 3 idx = UB.
Proof.
  intros V fs f idx s E. split.
  - refine (proj1 (C86_borrowed_arrays V fs _ s 0 f false idx E eq_refl) eq_refl _). cbn. intuition discriminate.
  - refine (proj2 (C86_borrowed_arrays V fs _ s 3 f true idx E eq_refl) _). auto.
Qed.
Print Assumptions C86_deferred_refuted.
Theorem C86_write_refuted : forall V (fs : nat -> foreign V) f idx s, hrun fs hstart [Import 0 f; Copy 1 0; Copy 2 1; Assign 1 2] = Ok s -> hread fs s 1 idx = UB.
Proof. intros V fs f idx s E. refine (proj2 (C86_borrowed_arrays V fs _ s 1 f true idx E eq_refl) _). auto. Qed.
Print Assumptions C86_write_refuted.
Example C86_deferred_example : exists s, hrun (V := Z) (fun _ => ForeignT (dense [3]) 0 [7; 8; 9]) hstart [Import 0 5; Copy 1 0; Make 2 (dense [0]) []; Assign 2 1; Copy 3 2] = Ok s.
Proof. eexists. reflexivity. Qed.

(** The byte offset of a borrowed tensor is ignored: element [idx] is read at its cell, not [f_byte] cells further. *)
Theorem C86_byte_offset_refuted : forall n k, 0 < k -> 0 < n -> exists (fs : nat -> foreign Z) s,
  f_byte (fs 0%nat) = k /\ zlen (f_cells (fs 0%nat)) = k + n /\ hrun fs hstart [Import 0 0] = Ok s /\
  forall i, 0 <= i < n -> znth (f_cells (fs 0%nat)) (f_byte (fs 0%nat) + cell (f_lay (fs 0%nat)) [i]) = Some (k + i) /\ hread fs s 0 [i] = Ok i.
Proof.
  intros n k Hk Hn. exists (fun _ => ForeignT (dense [n]) k (zrange (k + n))). eexists. cbn [f_byte f_cells f_lay]. split; [reflexivity|].
  split; [rewrite zrange_length; lia|]. split; [reflexivity|]. intros i Hi.
  assert (Ec : cell (dense [n]) [i] = i) by (unfold cell; cbn [dense l_offsets l_strides map rev row_major_loop app cell_loop]; ring).
  split; [rewrite Ec; apply znth_zrange; lia|]. unfold hread. cbn [s_vars put]. unfold put. cbn [Nat.eqb t_data t_ptr]. unfold vectors. cbn [t_ptr s_gone hstart obind f_lay f_cells].
  rewrite to_dlpack_dense, Ec. unfold load, zget. now rewrite znth_zrange by lia.
Qed.
Print Assumptions C86_byte_offset_refuted.
Example C86_byte_offset_example : 0 < 4 /\ 0 < 10. Proof. lia. Qed.
