(** Property theorems of the array library (C01-C08, C12, C13, C15, C59-C63). *)
From Verif Require Import NdProofs2.
Local Open Scope Z_scope.

(** C01: cells of a new array.  In row-major order the cells are 0, 1, ..., n-1. *)
Theorem C01_new_array_cells : forall dims, Forall (fun d => 0 <= d) dims ->
  alloc_elems dims = zprod dims /\
  map (cell (dense dims)) (all_indices dims) = zrange (zprod dims) /\
  (forall idx, in_range dims idx -> 0 <= cell (dense dims) idx < alloc_elems dims) /\
  (forall i j, in_range dims i -> in_range dims j -> cell (dense dims) i = cell (dense dims) j -> i = j) /\
  (forall c, 0 <= c < alloc_elems dims -> exists idx, in_range dims idx /\ cell (dense dims) idx = c).
Proof.
  intros dims H. rewrite alloc_elems_prod.
  exact (conj eq_refl (conj (dense_cells dims H) (conj (dense_inside dims)
          (conj (dense_separate dims) (fun c => dense_onto dims c H))))).
Qed.
Print Assumptions C01_new_array_cells.
Example C01_case : Forall (fun d => 0 <= d) [2; 3; 5] /\ in_range [2; 3; 5] [1; 2; 3]
  /\ cell (dense [2; 3; 5]) [1; 2; 3] = 28.
Proof. repeat split; repeat constructor; lia. Qed.

(** C02: a slice is an exact window (one dimension). *)
Theorem C02_slice_window : forall a dim start stop stride sz,
  wf a -> znth (l_shape a) dim = Some sz -> 0 <= sz -> 0 <= start -> 0 <= stop -> 0 < stride ->
  (sz < start /\ slice1 a dim start stop stride = Throw OutOfRange) \/
  (start <= sz /\ Z.min stop sz < start /\ slice1 a dim start stop stride = Throw RuntimeError) \/
  (start <= Z.min stop sz /\ exists v, slice1 a dim start stop stride = Ok v /\ wf v /\
     l_shape v = upd (l_shape a) (Z.to_nat dim) (fun _ => (Z.min stop sz - start) / stride) /\
     forall idx, in_range (l_shape v) idx ->
       in_range (l_shape a) (upd idx (Z.to_nat dim) (fun i => start + i * stride)) /\
       cell v idx = cell a (upd idx (Z.to_nat dim) (fun i => start + i * stride))).
Proof.
  intros a dim start stop stride sz Hw Hsz H0 H1 H2 H3.
  destruct (slice1_cases a dim start stop stride sz Hw Hsz H0 H1 H2 H3)
    as [L|[M|(R & st & _ & E)]]; [left; exact L|right; left; exact M|right; right].
  split; [exact R|]. eexists; split; [exact E|].
  exact (proj2 (slice1_window a dim start stop stride sz _ Hw Hsz H0 H1 H2 H3 E)).
Qed.
Print Assumptions C02_slice_window.
Example C02_case : wf (dense [4; 10]) /\ znth (l_shape (dense [4; 10])) 1 = Some 10 /\
  (exists v, slice1 (dense [4; 10]) 1 2 9 3 = Ok v /\ l_shape v = [4; 2] /\ cell v [1; 1] = 15).
Proof. split; [apply dense_wf|]. split; [reflexivity|]. eexists. split; [vm_compute; reflexivity|]. vm_compute. auto. Qed.

(** C02: slicing a slice is the slice of the composed bounds. *)
Theorem C02_slice_of_slice : forall a dim s1 e1 t1 s2 e2 t2 sz v w,
  wf a -> znth (l_shape a) dim = Some sz -> 0 <= sz ->
  0 <= s1 -> 0 <= e1 -> 0 < t1 -> 0 <= s2 -> 0 <= e2 -> 0 < t2 ->
  slice1 a dim s1 e1 t1 = Ok v -> slice1 v dim s2 e2 t2 = Ok w ->
  slice1 a dim (s1 + s2 * t1) (s1 + Z.min e2 ((Z.min e1 sz - s1) / t1) * t1) (t1 * t2) = Ok w.
Proof. exact slice_compose. Qed.
Print Assumptions C02_slice_of_slice.
Example C02_compose_case : exists v w, slice1 (dense [3; 20]) 1 2 18 2 = Ok v /\ slice1 v 1 1 7 3 = Ok w /\ l_shape w = [3; 2].
Proof. do 2 eexists. split; [vm_compute; reflexivity|]. split; [vm_compute; reflexivity|]. vm_compute. auto. Qed.

(** C02: views made by any number of slices of a new array stay inside its buffer and never alias. *)
Theorem C02_slices_stay_inside : forall dims specs v,
  Forall (fun d => 0 <= d) dims ->
  Forall (fun s => 0 <= sp_start s /\ 0 <= sp_end s /\ 0 < sp_stride s) specs ->
  slice_many (dense dims) specs = Ok v ->
  (forall idx, in_range (l_shape v) idx -> 0 <= cell v idx < zprod dims) /\
  (forall i j, in_range (l_shape v) i -> in_range (l_shape v) j -> cell v i = cell v j -> i = j).
Proof.
  intros dims specs v Hd Hs E.
  exact (proj2 (proj2 (slice_many_good specs (dense dims) v (zprod dims) Hs (dense_good dims Hd) E))).
Qed.
Print Assumptions C02_slices_stay_inside.
Example C02_many_case : exists v, slice_many (dense [4; 10; 6]) [SliceSpec 1 2 9 3; SliceSpec 0 1 3 1; SliceSpec 1 1 2 1] = Ok v
  /\ l_shape v = [2; 1; 6].
Proof. eexists. split; [vm_compute; reflexivity|]. vm_compute. auto. Qed.

(** C03 is false: a start of -k selects the k+1 elements beginning one before the last k. *)
Theorem C03_negative_start_refuted : forall a dim k sz,
  wf a -> znth (l_shape a) dim = Some sz -> 1 <= k <= sz ->
  exists v, slice1 a dim (- k) sz 1 = Ok v /\
    l_shape v = upd (l_shape a) (Z.to_nat dim) (fun _ => k + 1) /\
    forall idx, in_range (l_shape v) idx ->
      cell v idx = cell a (upd idx (Z.to_nat dim) (fun i => sz - k - 1 + i)).
Proof. exact slice_negative. Qed.
Print Assumptions C03_negative_start_refuted.
Example C03_case : exists v, slice1 (dense [2; 8]) 1 (-8) 8 1 = Ok v /\ l_shape v = [2; 9] /\ cell v [0; 0] = -1.
Proof. eexists. split; [vm_compute; reflexivity|]. vm_compute. auto. Qed.

(** C04: unsqueeze then squeeze is the identity. *)
Theorem C04_squeeze_unsqueeze : forall a axis, wf a -> 0 <= axis <= ndim a ->
  exists b, unsqueeze a axis = Ok b /\ squeeze b axis = Ok a.
Proof. exact squeeze_unsqueeze. Qed.
Print Assumptions C04_squeeze_unsqueeze.
Example C04_case : wf (dense [3; 4]) /\ 0 <= 1 <= ndim (dense [3; 4]).
Proof. split; [apply dense_wf|vm_compute; split; discriminate]. Qed.

Theorem C04_unsqueeze_elements : forall V (m : mem V) a axis b,
  wf a -> unsqueeze a axis = Ok b -> elements m b = elements m a.
Proof. exact @unsqueeze_elements. Qed.
Print Assumptions C04_unsqueeze_elements.
Example C04_unsqueeze_case : exists b, unsqueeze (dense [3; 4]) 2 = Ok b /\ l_shape b = [3; 4; 1].
Proof. eexists. split; [vm_compute; reflexivity|]. vm_compute. auto. Qed.

(** C04: squeeze keeps the elements when the removed axis has no slice offset ... *)
Theorem C04_squeeze_elements : forall V (m : mem V) a axis b,
  wf a -> squeeze a axis = Ok b ->
  znth (l_offsets a) (if axis <? 0 then ndim a + axis else axis) = Some 0 ->
  elements m b = elements m a.
Proof.
  intros V m a axis b Hw E E0. destruct (squeeze_elements m a axis b Hw E) as (off & Eo & ->).
  assert (off = 0) by congruence. subst off.
  unfold elements, elt. apply map_ext. intros idx. rewrite Z.sub_0_r. reflexivity.
Qed.
Print Assumptions C04_squeeze_elements.
Example C04_squeeze_case : exists b, squeeze (dense [3; 1; 4]) 1 = Ok b /\ znth (l_offsets (dense [3; 1; 4])) 1 = Some 0.
Proof. eexists. split; [vm_compute; reflexivity|]. vm_compute. auto. Qed.

(** ... and otherwise it shows other elements: row 2 of a 3x4 array squeezes to row 0. *)
Theorem C04_squeeze_of_slice_refuted : exists a v b, slice1 (dense [3; 4]) 0 2 3 1 = Ok v /\ squeeze v 0 = Ok b /\
  a = zrange 12 /\ elements a v = map Some [8; 9; 10; 11] /\ elements a b = map Some [0; 1; 2; 3].
Proof. do 3 eexists. split; [vm_compute; reflexivity|]. split; [vm_compute; reflexivity|]. split; [reflexivity|]. vm_compute. auto. Qed.
Print Assumptions C04_squeeze_of_slice_refuted.

Theorem C04_reshape_from_1d : forall V (m : mem V) n off new b,
  Forall (fun d => 0 <= d) new -> 0 <= n < 2 ^ 31 -> zprod new < 2 ^ 31 ->
  reshape (Layout [n] [1] [off]) new = Ok b ->
  l_shape b = new /\ elements m b = elements m (Layout [n] [1] [off]).
Proof. exact @reshape_from_1d. Qed.
Print Assumptions C04_reshape_from_1d.
Example C04_reshape1_case : exists b, reshape (Layout [12] [1] [5]) [2; 2; 3] = Ok b.
Proof. eexists. vm_compute. reflexivity. Qed.

Theorem C04_reshape_flatten : forall V (m : mem V) dims n b,
  Forall (fun d => 0 <= d) dims -> zprod dims < 2 ^ 31 -> (2 <= length dims)%nat -> 0 <= n < 2 ^ 31 ->
  reshape (dense dims) [n] = Ok b -> l_shape b = [n] /\ elements m b = elements m (dense dims).
Proof. exact @reshape_flatten. Qed.
Print Assumptions C04_reshape_flatten.
Example C04_flatten_case : exists b, reshape (dense [2; 3; 4]) [24] = Ok b.
Proof. eexists. vm_compute. reflexivity. Qed.

(** Other reshapes change the elements: a 2x6 array reshaped to 2x2x3. *)
Theorem C04_reshape_refuted : exists b, reshape (dense [2; 6]) [2; 2; 3] = Ok b /\
  elements (zrange 12) (dense [2; 6]) = map Some (zrange 12) /\
  elements (zrange 12) b = map Some [0; 1; 2; 1; 2; 3; 2; 3; 4; 3; 4; 5].
Proof. eexists. split; [vm_compute; reflexivity|]. vm_compute. auto. Qed.
Print Assumptions C04_reshape_refuted.

(** C05: the unrolled binary kernel on arbitrary views (same rank, or fewer axes where the walk is
    well defined). *)
Theorem C05_binary_kernel : forall A B V (op : A -> B -> V) lo la lb (mo : mem V) (ma : mem A) (mb : mem B),
  wf lo -> wf la -> wf lb ->
  Forall (fun d => 0 <= d) (l_shape lo) -> zprod (l_shape lo) < 2 ^ 31 -> l_shape lo <> [] ->
  aligned (l_shape la) (l_shape lo) -> aligned (l_shape lb) (l_shape lo) ->
  (length (l_shape la) = length (l_shape lb) -> compat_same_rank (l_shape la) (l_shape lb) = true) ->
  inside lo (zlen mo) -> separate lo -> inside la (zlen ma) -> inside lb (zlen mb) ->
  exists mo', binary_op op lo la lb mo ma mb = Ok mo' /\ zlen mo' = zlen mo /\
    (forall idx, in_range (l_shape lo) idx ->
       exists x y, elt ma la (bidx (l_shape la) idx) = Some x /\ elt mb lb (bidx (l_shape lb) idx) = Some y /\
                   elt mo' lo idx = Some (op x y)) /\
    (forall c, outside_view lo c -> znth mo' c = znth mo c).
Proof.
  intros A B V op lo la lb mo ma mb H1 H2 H3 H4 H5.
  exact (binary_op_correct op lo la lb mo ma mb H1 H2 H3 (conj H4 H5)).
Qed.
Print Assumptions C05_binary_kernel.
Example C05_case : aligned [3; 1] [3; 17] /\ aligned [17] [3; 17] /\
  binary_op Z.add (dense [3; 17]) (dense [3; 1]) (dense [17]) (repeat 0 51) [100; 200; 300] (zrange 17)
  = Ok (flat_map (fun i => map (fun j => 100 * (i + 1) + j) (zrange 17)) (zrange 3)).
Proof.
  split; [exists [], [3; 17]; split; [reflexivity|]; split; [repeat (constructor; auto)|auto]|].
  split; [|vm_compute; reflexivity].
  exists [3], [17]. split; [reflexivity|]. split; [repeat (constructor; auto)|right].
  exists 17, []. cbn. intuition lia.
Qed.

(** C05: [a + b] and [a / b] on shapes with positive dimensions. *)
Theorem C05_add_divide : forall A B V (op : A -> B -> V) junk la lb (ma : mem A) (mb : mem B) s,
  wf la -> wf lb -> Forall (fun d => 0 < d) (l_shape la) -> Forall (fun d => 0 < d) (l_shape lb) ->
  expand_shapes (l_shape la) (l_shape lb) = Ok s -> s <> [] -> zprod s < 2 ^ 31 ->
  walkable (l_shape la) s -> walkable (l_shape lb) s ->
  inside la (zlen ma) -> inside lb (zlen mb) ->
  exists m, expand_op op junk la lb ma mb = Ok (dense s, m) /\ zlen m = zprod s /\
    forall idx, in_range s idx ->
      exists x y, elt ma la (bidx (l_shape la) idx) = Some x /\ elt mb lb (bidx (l_shape lb) idx) = Some y /\
                  elt m (dense s) idx = Some (op x y).
Proof. exact @expand_op_correct. Qed.
Print Assumptions C05_add_divide.
Example C05_add_case : expand_shapes [4; 1] [1; 9] = Ok [4; 9] /\ walkable [4; 1] [4; 9] /\ walkable [1; 9] [4; 9].
Proof. repeat split; left; reflexivity. Qed.

(** C05: [a - b], [a * b] and the comparisons when b stretches to the shape of a. *)
Theorem C05_subtract_multiply_compare : forall A B V (op : A -> B -> V) junk la lb (ma : mem A) (mb : mem B) lead tail,
  wf la -> wf lb -> Forall (fun d => 0 <= d) (l_shape la) -> zprod (l_shape la) < 2 ^ 31 -> l_shape la <> [] ->
  l_shape la = lead ++ tail -> stretches (l_shape lb) tail -> walkable (l_shape lb) (l_shape la) ->
  inside la (zlen ma) -> inside lb (zlen mb) ->
  exists m, left_shape_op op junk la lb ma mb = Ok (dense (l_shape la), m) /\ zlen m = zprod (l_shape la) /\
    forall idx, in_range (l_shape la) idx ->
      exists x y, elt ma la idx = Some x /\ elt mb lb (bidx (l_shape lb) idx) = Some y /\
                  elt m (dense (l_shape la)) idx = Some (op x y).
Proof.
  intros A B V op junk la lb ma mb lead tail H1 H2 H3 H4.
  exact (left_shape_op_correct op junk la lb ma mb lead tail H1 H2 (conj H3 H4)).
Qed.
Print Assumptions C05_subtract_multiply_compare.
Example C05_sub_case : stretches [1; 9] [4; 9] /\
  left_shape_op Z.sub (fun _ => 0) (dense [2; 9]) (dense [1; 9]) (repeat 10 18) (zrange 9)
  = Ok (dense [2; 9], flat_map (fun _ => map (fun j => 10 - j) (zrange 9)) (zrange 2)).
Proof. split; [repeat (constructor; auto)|vm_compute; reflexivity]. Qed.

(** C06 *)
Theorem C06_expand_shapes : forall a b,
  (broadcastable a b ->
     exists s, expand_shapes a b = Ok s /\ length s = Nat.max (length a) (length b) /\
       forall k, (k < Nat.max (length a) (length b))%nat ->
         axis_from_end s k = Z.max (axis_from_end a k) (axis_from_end b k)) /\
  (expand_shapes a b = Throw InvalidArgument <-> ~ broadcastable a b) /\
  expand_shapes a b = expand_shapes b a /\
  expand_shapes a a = Ok a.
Proof.
  intros a b.
  exact (conj (expand_shapes_ok a b) (conj (expand_shapes_throw_iff a b)
          (conj (expand_shapes_comm a b) (expand_shapes_self a)))).
Qed.
Print Assumptions C06_expand_shapes.
Example C06_case : broadcastable [5; 1; 3] [4; 3] /\ ~ broadcastable [2; 3] [4; 3] /\
  expand_shapes [5; 1; 3] [4; 3] = Ok [5; 4; 3].
Proof.
  split; [intros [|[|[|[|k]]]]; cbn; auto|]. split; [|reflexivity].
  intros H. destruct (H 1%nat) as [E|[E|E]]; vm_compute in E; discriminate.
Qed.

(** C07: array-scalar operations and fill. *)
Theorem C07_array_scalar : forall A S V (op : A -> S -> V) junk la (ma : mem A) (b : S),
  wf la -> Forall (fun d => 0 <= d) (l_shape la) -> zprod (l_shape la) < 2 ^ 31 -> inside la (zlen ma) ->
  exists m, array_scalar_op op junk la ma b = Ok (dense (l_shape la), m) /\ zlen m = zprod (l_shape la) /\
    forall idx, in_range (l_shape la) idx ->
      exists x, elt ma la idx = Some x /\ elt m (dense (l_shape la)) idx = Some (op x b).
Proof.
  intros A S V op junk la ma b H1 H2 H3. exact (array_scalar_op_correct op junk la ma b H1 (conj H2 H3)).
Qed.
Print Assumptions C07_array_scalar.
Example C07_case : exists v, slice1 (dense [3; 4]) 1 1 4 2 = Ok v /\ wf v /\ inside v 12 /\
  array_scalar_op Z.mul (fun _ => 0) v (zrange 12) 2 = Ok (dense [3; 1], [2; 10; 18]).
Proof.
  eexists. split; [vm_compute; reflexivity|].
  assert (good_view 12 (Layout [3; 1] [4; 2] [0; 1])).
  { change 12 with (zprod [3; 4]). apply (slice_many_good [SliceSpec 1 1 4 2] (dense [3; 4])).
    - repeat constructor; cbn; lia.
    - apply dense_good. repeat constructor; lia.
    - vm_compute. reflexivity. }
  split; [apply H|]. split; [apply H|]. vm_compute. reflexivity.
Qed.

Theorem C07_fill : forall V lo (mo : mem V) (v : V),
  wf lo -> Forall (fun d => 0 <= d) (l_shape lo) -> zprod (l_shape lo) < 2 ^ 31 ->
  inside lo (zlen mo) -> separate lo ->
  exists mo', fill lo mo v = Ok mo' /\ zlen mo' = zlen mo /\
    (forall idx, in_range (l_shape lo) idx -> elt mo' lo idx = Some v) /\
    (forall c, outside_view lo c -> znth mo' c = znth mo c).
Proof. intros V lo mo v H1 H2 H3. exact (fill_correct lo mo v H1 (conj H2 H3)). Qed.
Print Assumptions C07_fill.
Example C07_fill_case : exists v, slice1 (dense [2; 4]) 1 1 3 1 = Ok v /\
  fill v (zrange 8) 77 = Ok [0; 77; 77; 3; 4; 77; 77; 7].
Proof. eexists. split; [vm_compute; reflexivity|]. vm_compute. auto. Qed.

(** C08: copying into a view of the same shape. *)
Theorem C08_copy_into_slice : forall A V (cast : A -> V) dst src (md : mem V) (ms : mem A),
  wf dst -> wf src -> Forall (fun d => 0 <= d) (l_shape dst) -> zprod (l_shape dst) < 2 ^ 31 ->
  l_shape src = l_shape dst -> inside dst (zlen md) -> separate dst -> inside src (zlen ms) ->
  exists md', assign_slice cast dst src md ms = Ok md' /\ zlen md' = zlen md /\
    (forall idx, in_range (l_shape dst) idx -> exists x, elt ms src idx = Some x /\ elt md' dst idx = Some (cast x)) /\
    (forall c, outside_view dst c -> znth md' c = znth md c).
Proof.
  intros A V cast dst src md ms H1 H2 H3 H4. exact (assign_slice_correct cast dst src md ms H1 H2 (conj H3 H4)).
Qed.
Print Assumptions C08_copy_into_slice.
Example C08_case : exists v w, slice1 (dense [2; 4]) 1 1 3 1 = Ok v /\ slice1 (dense [2; 2]) 0 0 2 1 = Ok w /\
  assign_slice (fun x : Z => x) v w (zrange 8) [10; 11; 12; 13] = Ok [0; 10; 11; 3; 4; 12; 13; 7].
Proof. do 2 eexists. split; [vm_compute; reflexivity|]. split; [vm_compute; reflexivity|]. vm_compute. auto. Qed.

(** C12 is false: scalar - array gives a_i - scalar, scalar / array gives a_i * scalar. *)
Theorem C12_scalar_left_refuted : forall A (sub mul : A -> A -> A) junk la (ma : mem A) (s : A),
  wf la -> Forall (fun d => 0 <= d) (l_shape la) -> zprod (l_shape la) < 2 ^ 31 -> inside la (zlen ma) ->
  (exists m, scalar_minus_array sub junk s la ma = Ok (dense (l_shape la), m) /\
     forall idx, in_range (l_shape la) idx ->
       exists x, elt ma la idx = Some x /\ elt m (dense (l_shape la)) idx = Some (sub x s)) /\
  (exists m, scalar_div_array mul junk s la ma = Ok (dense (l_shape la), m) /\
     forall idx, in_range (l_shape la) idx ->
       exists x, elt ma la idx = Some x /\ elt m (dense (l_shape la)) idx = Some (mul x s)).
Proof.
  intros A sub mul junk la ma s H1 H2 H3 H4.
  destruct (array_scalar_op_correct sub junk la ma s H1 (conj H2 H3) H4) as (m1 & E1 & _ & S1).
  destruct (array_scalar_op_correct mul junk la ma s H1 (conj H2 H3) H4) as (m2 & E2 & _ & S2).
  exact (conj (ex_intro _ m1 (conj E1 S1)) (ex_intro _ m2 (conj E2 S2))).
Qed.
Print Assumptions C12_scalar_left_refuted.
Example C12_case : scalar_minus_array Z.sub (fun _ => 0) 10 (dense [3]) [1; 2; 3] = Ok (dense [3], [-9; -8; -7])
  /\ scalar_div_array Z.mul (fun _ => 0) 12 (dense [3]) [1; 2; 3] = Ok (dense [3], [12; 24; 36]).
Proof. vm_compute. auto. Qed.

(** C13 is false: scalar cmp array evaluates a_i cmp scalar, the same as array cmp scalar. *)
Theorem C13_scalar_left_comparison_refuted : forall A (cmp : A -> A -> bool) junk la (ma : mem A) (s : A),
  wf la -> Forall (fun d => 0 <= d) (l_shape la) -> zprod (l_shape la) < 2 ^ 31 -> inside la (zlen ma) ->
  scalar_cmp_array cmp junk s la ma = array_cmp_scalar cmp junk la ma s /\
  exists m, scalar_cmp_array cmp junk s la ma = Ok (dense (l_shape la), m) /\
     forall idx, in_range (l_shape la) idx ->
       exists x, elt ma la idx = Some x /\ elt m (dense (l_shape la)) idx = Some (cmp x s).
Proof.
  intros A cmp junk la ma s H1 H2 H3 H4. split; [reflexivity|].
  destruct (array_scalar_op_correct cmp junk la ma s H1 (conj H2 H3) H4) as (m1 & E1 & _ & S1).
  exact (ex_intro _ m1 (conj E1 S1)).
Qed.
Print Assumptions C13_scalar_left_comparison_refuted.
Example C13_case : scalar_cmp_array Z.gtb (fun _ => false) 2 (dense [3]) [1; 2; 3] = Ok (dense [3], [false; false; true]).
Proof. vm_compute. reflexivity. Qed.

(** C15: numel is the product, truncated to a signed 32-bit integer. *)
Theorem C15_numel : forall dims, dims <> [] ->
  numel (dense dims) = to_int32 (zprod dims) /\
  (0 <= zprod dims < 2 ^ 31 -> numel (dense dims) = zprod dims).
Proof. intros dims H. exact (conj (numel_dense dims H) (numel_of_prod dims)). Qed.
Print Assumptions C15_numel.
Theorem C15_numel_large_refuted : exists dims, Forall (fun d => 0 < d) dims /\
  zprod dims = 2 ^ 32 /\ numel (dense dims) = 0 /\ fill (dense dims) ([] : mem Z) 1 = Ok [].
Proof. exists [65536; 65536]. repeat split; repeat constructor; vm_compute; reflexivity. Qed.
Print Assumptions C15_numel_large_refuted.
Example C15_case : numel (dense [3; 4; 5]) = 60 /\ numel (dense [32768; 65536]) = - 2 ^ 31.
Proof. vm_compute. auto. Qed.

(** C59: a DLPack export shows the buffer from its first cell, not from the view's offset. *)
Theorem C59_dlpack_whole_array : forall dims, to_dlpack (dense dims) = dense dims.
Proof. exact to_dlpack_dense. Qed.
Print Assumptions C59_dlpack_whole_array.
Theorem C59_dlpack_slice_refuted : forall a idx, wf a -> in_range (l_shape a) idx ->
  cell (to_dlpack a) idx = cell a idx - zsum (l_offsets a).
Proof. intros a idx Hw Hr. rewrite (to_dlpack_shift a idx Hw Hr). ring. Qed.
Print Assumptions C59_dlpack_slice_refuted.
Example C59_case : exists v, slice1 (dense [3; 4]) 0 1 3 1 = Ok v /\
  elements (zrange 12) v = map Some [4; 5; 6; 7; 8; 9; 10; 11] /\
  elements (zrange 12) (to_dlpack v) = map Some [0; 1; 2; 3; 4; 5; 6; 7].
Proof. eexists. split; [vm_compute; reflexivity|]. vm_compute. auto. Qed.

(** C60: writing a view to a file writes its elements in row-major order; reading whole elements
    back returns them, and a file that is not a whole number of elements overruns the buffer. *)
Theorem C60_write_to_file : forall V (m : mem V) l,
  wf l -> Forall (fun d => 0 <= d) (l_shape l) -> zprod (l_shape l) < 2 ^ 31 -> inside l (zlen m) ->
  exists vs, write_to_file l m = Ok vs /\ map Some vs = elements m l.
Proof. intros V m l H1 H2 H3. exact (write_to_file_correct m l H1 (conj H2 H3)). Qed.
Print Assumptions C60_write_to_file.
Example C60_case : exists v, slice1 (dense [2; 4]) 1 1 3 1 = Ok v /\ write_to_file v (zrange 8) = Ok [1; 2; 5; 6].
Proof. eexists. split; [vm_compute; reflexivity|]. vm_compute. auto. Qed.
Theorem C60_read_back : forall k (elems : list (list Z)), 0 < k -> Forall (fun e => zlen e = k) elems ->
  read_from_file k (concat elems) = Ok elems.
Proof. exact read_of_chunks. Qed.
Print Assumptions C60_read_back.
Example C60_read_case : Forall (fun e => zlen e = 4) [[1;2;3;4];[5;6;7;8]] /\ read_from_file 4 [1;2;3;4;5;6;7;8] = Ok [[1;2;3;4];[5;6;7;8]].
Proof. split; [repeat constructor|vm_compute; reflexivity]. Qed.
Theorem C60_truncated_file_refuted : forall k bytes, 0 < k -> zlen bytes mod k <> 0 -> read_from_file k bytes = UB.
Proof. exact read_truncated. Qed.
Print Assumptions C60_truncated_file_refuted.
Example C60_trunc_case : zlen [1;2;3;4;5] mod 4 <> 0.
Proof. vm_compute. discriminate. Qed.

(** C61: a strided slice keeps floor((end-start)/stride) elements; the usual count is the ceiling,
    so the last element start + q*stride < end is dropped whenever the stride does not divide. *)
Theorem C61_strided_count_refuted : forall a dim start stop stride sz v,
  wf a -> znth (l_shape a) dim = Some sz -> 0 <= start -> start <= stop <= sz -> 0 < stride ->
  slice1 a dim start stop stride = Ok v -> (stop - start) mod stride <> 0 ->
  l_shape v = upd (l_shape a) (Z.to_nat dim) (fun _ => (stop - start) / stride) /\
  start + (stop - start) / stride * stride < stop.
Proof.
  intros a dim start stop stride sz v Hw Hsz H0 H1 H2 E Hm.
  assert (A1 : 0 <= sz) by lia. assert (A2 : 0 <= stop) by lia.
  pose proof (slice1_window a dim start stop stride sz v Hw Hsz A1 H0 A2 H2 E) as (_ & _ & -> & _).
  rewrite Z.min_l by lia. split; [reflexivity|].
  pose proof (Z_div_mod_eq_full (stop - start) stride). pose proof (Z.mod_pos_bound (stop - start) stride H2). nia.
Qed.
Print Assumptions C61_strided_count_refuted.
Example C61_case : exists v, slice1 (dense [10]) 0 0 10 3 = Ok v /\ l_shape v = [3].
Proof. eexists. split; [vm_compute; reflexivity|]. vm_compute. auto. Qed.

(** C62: operands of lower rank whose axes match the leading axes make the kernel read past its
    shape vector. *)
Theorem C62_square_plus_vector_refuted : forall A V (op : A -> A -> V) junk n (ma mb : mem A),
  1 <= n -> broadcastable [n; n] [n] /\ expand_op op junk (dense [n; n]) (dense [n]) ma mb = UB.
Proof.
  intros A V op junk n ma mb H. split; [|exact (expand_op_prefix_ub op junk n ma mb H)].
  intros [|[|[|k]]]; cbn; auto.
Qed.
Print Assumptions C62_square_plus_vector_refuted.

(** C62: subtraction, multiplication and comparisons never broadcast to a larger right operand. *)
Theorem C62_left_shape_refuted : forall A B V (op : A -> B -> V) junk la lb (ma : mem A) (mb : mem B) r,
  left_shape_op op junk la lb ma mb = Ok r -> l_shape (fst r) = l_shape la.
Proof. exact @left_shape_op_shape. Qed.
Print Assumptions C62_left_shape_refuted.
Example C62_case : broadcastable [1; 4] [2; 4] /\
  left_shape_op Z.sub (fun _ => 0) (dense [1; 4]) (dense [2; 4]) [9; 9; 9; 9] (zrange 8) = Ok (dense [1; 4], [9; 8; 7; 6]).
Proof. split; [intros [|[|[|k]]]; cbn; auto|vm_compute; reflexivity]. Qed.

(** C63: a copy between views of the same rank never reports a shape mismatch. *)
Theorem C63_copy_mismatch_refuted : forall A V (cast : A -> V) dst src (md : mem V) (ms : mem A) e,
  ndim src = ndim dst -> assign_slice cast dst src md ms <> Throw e.
Proof. exact @assign_slice_never_throws. Qed.
Print Assumptions C63_copy_mismatch_refuted.
Example C63_case : ndim (dense [2; 3]) = ndim (dense [2; 2]) /\
  assign_slice (fun x : Z => x) (dense [2; 2]) (dense [2; 3]) [0; 0; 0; 0] (zrange 6) <> Throw RuntimeError.
Proof. split; [reflexivity|vm_compute; discriminate]. Qed.
