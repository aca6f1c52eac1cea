(** Model of the GPU element-wise kernels: /repo/bland/bland/ops/cuda/elementwise_binary_op_cuda.cuh, elementwise_scalar_op_cuda.cuh,
    elementwise_unary_op.cuh and the fill kernel of ops_cuda.cu.  Definitions only. *)
From Verif Require Export GredModel.
Local Open Scope Z_scope.

Definition to_uint32 (z : Z) : Z := z mod 2 ^ 32.

(** ** Index arithmetic: uint32_t multi-index, uint32_t linear index *)
(** elementwise_binary_op_cuda.cuh 47-56 (the same text in elementwise_scalar_op_cuda.cuh 52-61, elementwise_unary_op.cuh 50-59): the
    quotient is an int64_t stored in the uint32_t increment. *)
Fixpoint bump32 (shape raxes : list Z) (inc : Z) (idx : list Z) : list Z :=
  match raxes with
  | [] => idx
  | d :: rest =>
    let i := to_uint32 (getz idx d + inc) in
    if i <? getz shape d then setz idx d i
    else bump32 shape rest (to_uint32 (Z.quot i (getz shape d))) (setz idx d (to_uint32 (Z.rem i (getz shape d))))
  end.
(** 35-40: uint32_t += uint32_t * int64_t. *)
Fixpoint lin32 (acc : Z) (idx strides : list Z) : Z :=
  match idx, strides with i :: idx', s :: strides' => lin32 (to_uint32 (acc + i * s)) idx' strides' | _, _ => acc end.
(** 86-94: [std::accumulate(..., 0)] adds in int; the other wrappers start from 0LL. *)
Definition int_sum (l : list Z) : Z := fold_left (fun acc o => to_int32 (acc + o)) l 0.

(** 34-57: the multi-indices a thread visits.  [numel] is below 2^31, so the uint32_t counter does not wrap. *)
Fixpoint visits (n : nat) (sh : list Z) (grid : Z) (idx : list Z) : list (list Z) :=
  match n with O => [] | S n' => idx :: visits n' sh grid (bump32 sh (rev (zrange (zlen sh))) grid idx) end.
(** 24-32: 512 threads per block. *)
Definition my_visits (sh : list Z) (numel blocks b t : Z) : list (list Z) :=
  let w := b * 512 + t in
  visits (iterations w numel (blocks * 512)) sh (blocks * 512) (unflat sh (rev (zrange (zlen sh))) w (map (fun _ => 0) sh)).

(** ** Memory *)
(** The buffers of a, b and the output, and the shared arrays of the blocks (fill). *)
Inductive eaddr := EA (i : Z) | EB (i : Z) | EO (i : Z) | ESh (b i : Z) | EBad.
Definition eaddr_eqb (x y : eaddr) : bool :=
  match x, y with
  | EA i, EA j | EB i, EB j | EO i, EO j => i =? j
  | ESh b i, ESh c j => (b =? c) && (i =? j)
  | EBad, EBad => true
  | _, _ => false
  end.

Section Elementwise.
  Context {A B V : Type}.
  Inductive evalue := XA (x : A) | XB (y : B) | XO (v : V) | XZ (z : Z).
  Definition eprog := bprog eaddr evalue.
  Definition estuck : eprog := BRd EBad (fun _ => BRet).
  Definition emem0 (ma : mem A) (mb : mem B) (mo : mem V) (blocks shared : Z) (junk : Z -> Z -> Z) : gpumem (A := eaddr) (V := evalue) :=
    fun a => match a with
    | EA i => option_map XA (znth ma i)
    | EB i => option_map XB (znth mb i)
    | EO i => option_map XO (znth mo i)
    | ESh b i => if (0 <=? b) && (b <? blocks) && (0 <=? i) && (i <? shared) then Some (XZ (junk b i)) else None
    | EBad => None
    end.

  (** Grids of the three wrappers: 512 threads and at most 32 blocks.  numel() is an int value. *)
  Definition el_blocks (numel : Z) : Z := Z.min 32 (Z.quot (numel + 511) 512).
  Definition el_grid (numel : Z) (thread : Z -> Z -> eprog) : list (list eprog) :=
    map (fun b => map (thread b) (zrange 512)) (zrange (el_blocks numel)).

  (** elementwise_binary_op_cuda.cuh 34-57. *)
  Fixpoint bin_items (op : A -> B -> V) (oo oa ob : Z) (so sa sb : list Z) (is : list (list Z)) : eprog :=
    match is with
    | [] => BRet
    | i :: is' =>
      BRd (EA (oa + lin32 0 i sa)) (fun va => BRd (EB (ob + lin32 0 i sb)) (fun vb =>
        match va, vb with
        | XA x, XB y => BWr (EO (oo + lin32 0 i so)) (XO (op x y)) (bin_items op oo oa ob so sa sb is')
        | _, _ => estuck
        end))
    end.
  (** The wrapper 68-127.  nd_index holds four dimensions (17, 28). *)
  Definition binary_gpu (op : A -> B -> V) (lo la lb : layout) : outcome (list (list eprog)) :=
    if (ndim la =? ndim lb) && negb (compat_same_rank (l_shape la) (l_shape lb)) then Throw RuntimeError else
    let! _ := bcast_shape (l_shape la) (l_shape lo) in
    let! _ := bcast_shape (l_shape lb) (l_shape lo) in
    let! sa := bcast_strides (l_shape la) (l_strides la) (l_shape lo) in
    let! sb := bcast_strides (l_shape lb) (l_strides lb) (l_shape lo) in
    if (0 <? numel lo) && (4 <? ndim lo) then UB else
    Ok (el_grid (numel lo) (fun b t =>
      bin_items op (int_sum (l_offsets lo)) (int_sum (l_offsets la)) (int_sum (l_offsets lb)) (l_strides lo) sa sb
        (my_visits (l_shape lo) (numel lo) (el_blocks (numel lo)) b t))).

  (** elementwise_scalar_op_cuda.cuh 44-62, elementwise_unary_op.cuh 37-60: [f] is the operation with its scalar. *)
  Fixpoint un_items (f : A -> V) (oo oa : Z) (so sa : list Z) (is : list (list Z)) : eprog :=
    match is with
    | [] => BRet
    | i :: is' =>
      BRd (EA (oa + lin32 0 i sa)) (fun va =>
        match va with
        | XA x => BWr (EO (oo + lin32 0 i so)) (XO (f x)) (un_items f oo oa so sa is')
        | _ => estuck
        end)
    end.
  (** The wrappers elementwise_scalar_op_cuda.cuh 69-118 and elementwise_unary_op.cuh 67-120 do the same.  The unary one does not
      compare shapes, unlike the CPU's. *)
  Definition unary_gpu (f : A -> V) (lo la : layout) : outcome (list (list eprog)) :=
    let! sa := bcast_strides (l_shape la) (l_strides la) (l_shape lo) in
    let! _ := bcast_shape (l_shape la) (l_shape lo) in
    if (0 <? numel lo) && (4 <? ndim lo) then UB else
    Ok (el_grid (numel lo) (fun b t =>
      un_items f (zsum (l_offsets lo)) (zsum (l_offsets la)) (l_strides lo) sa
        (my_visits (l_shape lo) (numel lo) (el_blocks (numel lo)) b t))).

  (** ** fill, ops_cuda.cu 42-105 *)
  (** 49-56: thread t loads shape and stride of axis t into shared memory. *)
  Definition fill_load (sh st : list Z) (b t : Z) (k : eprog) : eprog :=
    if t <? zlen sh then BWr (ESh b t) (XZ (getz sh t)) (BWr (ESh b (zlen sh + t)) (XZ (getz st t)) (BBar k)) else BBar k.
  (** Reads [n] shared integers from [i] on. *)
  Fixpoint shared_ints (b i : Z) (n : nat) (k : list Z -> eprog) : eprog :=
    match n with
    | O => k []
    | S n' => BRd (ESh b i) (fun v => match v with XZ z => shared_ints b (i + 1) n' (fun zs => k (z :: zs)) | _ => estuck end)
    end.
  (** 61-66, int64_t throughout. *)
  Fixpoint fill_items (v : V) (oo : Z) (sh st : list Z) (n : nat) (w grid : Z) : eprog :=
    match n with
    | O => BRet
    | S n' => BWr (EO (oo + lin (unflat sh (rev (zrange (zlen sh))) w (map (fun _ => 0) sh)) st)) (XO v) (fill_items v oo sh st n' (w + grid) grid)
    end.
  (** 256 threads and at most 256 blocks; a thread rereads the shared arrays for every element, here once: nothing writes them after
      the barrier. *)
  Definition fill_blocks (numel : Z) : Z := Z.min 256 (Z.quot (numel + 255) 256).
  Definition fill_thread (v : V) (oo : Z) (sh st : list Z) (numel : Z) (b t : Z) : eprog :=
    let grid := fill_blocks numel * 256 in let w := b * 256 + t in
    fill_load sh st b t
      (shared_ints b 0 (length sh) (fun sh' => shared_ints b (zlen sh) (length sh) (fun st' =>
        fill_items v oo sh' st' (iterations w numel grid) w grid))).
  Definition fill_gpu (lo : layout) (v : V) : outcome (list (list eprog)) :=
    if (0 <? numel lo) && (4 <? ndim lo) then UB else
    Ok (map (fun b => map (fill_thread v (zsum (l_offsets lo)) (l_shape lo) (l_strides lo) (numel lo) b) (zrange 256))
            (zrange (fill_blocks (numel lo)))).
End Elementwise.
Arguments evalue : clear implicits.
Arguments eprog : clear implicits.

(** ** What users call *)
(** add and the other arithmetic on two arrays, arithmetic_cuda.cu 22-69: all four broadcast, unlike on the CPU. *)
Definition expand_gpu {A B V} (op : A -> B -> V) (la lb : layout) : outcome (layout * list (list (eprog A B V))) :=
  let! sh := expand_shapes (l_shape la) (l_shape lb) in
  let! g := binary_gpu op (dense sh) la lb in
  Ok (dense sh, g).
(** Comparisons of two arrays, comparison_cuda.cu 27-30: the shape of the left operand. *)
Definition left_shape_gpu {A B V} (op : A -> B -> V) (la lb : layout) : outcome (layout * list (list (eprog A B V))) :=
  let! g := binary_gpu op (dense (l_shape la)) la lb in Ok (dense (l_shape la), g).
(** Array and scalar, arithmetic_scalar_cuda.cu 21-25, comparison_cuda.cu 23-26, and scalar and array, comparison_cuda.cu 20-22: in both
    the array's element is the first operand. *)
Definition array_scalar_gpu {A S V} (op : A -> S -> V) (la : layout) (b : S) : outcome (layout * list (list (eprog A unit V))) :=
  let! g := unary_gpu (fun x => op x b) (dense (l_shape la)) la in Ok (dense (l_shape la), g).
Definition scalar_cmp_array_gpu {A S V} (cmp : A -> S -> V) (lhs : S) (la : layout) : outcome (layout * list (list (eprog A unit V))) :=
  array_scalar_gpu cmp la lhs.
(** Copying into a slice on the device, ops_cuda.cu 17-19. *)
Definition copy_gpu {A V} (cast : A -> V) (dst src : layout) : outcome (list (list (eprog A unit V))) := unary_gpu cast dst src.
