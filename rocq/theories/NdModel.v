(** Model of the bland n-dimensional array: layouts, views, element-wise kernels.
    All paths are relative to /repo/bland/bland.  Definitions only, no proofs. *)
From Verif Require Export Base.
Local Open Scope Z_scope.

(** [ndarray::_tensor] without its buffer: shape, strides, _offsets
    (include/bland/detail/bland_tensor_internals.hpp 30-50).  Lists are indexed by axis. *)
Record layout := Layout { l_shape : list Z; l_strides : list Z; l_offsets : list Z }.

Definition ndim (l : layout) : Z := zlen (l_shape l).

(** A buffer is the list of its cells; access outside is undefined behaviour. *)
Definition mem (V : Type) := list V.
Definition load {V} (m : mem V) (i : Z) : outcome V := zget m i.
Definition store {V} (m : mem V) (i : Z) (v : V) : outcome (mem V) :=
  if (0 <=? i) && (i <? zlen m) then Ok (upd m (Z.to_nat i) (fun _ => v)) else UB.

(** Stride loop of the constructor, ndarray.cpp 131-140 and bland_tensor_internals.cpp 62-67
    (walks the dims from the last to the first, so the argument is the reversed shape). *)
Fixpoint row_major_loop (rdims : list Z) (stride : Z) : list Z :=
  match rdims with
  | [] => []
  | d :: t => stride :: row_major_loop t (stride * d)
  end.

(** A newly constructed array, ndarray.cpp 131-140; offsets are zeroed at
    bland_tensor_internals.cpp 56. *)
Definition dense (dims : list Z) : layout :=
  Layout dims (rev (row_major_loop (rev dims) 1)) (map (fun _ => 0) dims).

(** [ndarray::numel] ndarray.cpp 207-210: std::accumulate with an [int] initial value, so the
    running product is truncated to 32 bits at every step. *)
Definition numel_of (shape : list Z) : Z := fold_left (fun acc d => to_int32 (acc * d)) shape 1.
Definition numel (l : layout) : Z := numel_of (l_shape l).

(** Allocation size: bland_tensor_internals.cpp 77 (64-bit initial value). *)
Definition alloc_elems (dims : list Z) : Z := fold_left Z.mul dims 1.

(** [ndarray::size] ndarray.cpp 183-189: only the upper bound is checked. *)
Definition size_axis (l : layout) (axis : Z) : outcome Z :=
  if axis <? ndim l then zget (l_shape l) axis else Throw InvalidArgument.

(** Index sum of [ndarray::scalarize(nd_index)] ndarray.cpp 245-248, also the reading index used
    by pretty_print and the reductions. *)
Fixpoint cell_loop (offs idx strides : list Z) : Z :=
  match offs, idx, strides with
  | o :: offs', i :: idx', s :: strides' => (o + i * s) + cell_loop offs' idx' strides'
  | _, _, _ => 0
  end.
Definition cell (l : layout) (idx : list Z) : Z := cell_loop (l_offsets l) idx (l_strides l).

(** [ndarray::scalarize(nd_index)] ndarray.cpp 238-251. *)
Definition scalarize {V} (m : mem V) (l : layout) (idx : list Z) : outcome V :=
  if zlen idx =? ndim l then load m (cell l idx) else Throw RuntimeError.

(** [bland::slice], one dimension: ops/ops.cpp 164-195.  [end] is spelled [stop].
    Division truncates; a zero stride divides by zero. *)
Definition slice1 (a : layout) (dim start stop stride : Z) : outcome layout :=
  let! sz := size_axis a dim in
  if (negb (start <? 0)) && (sz <? start) then Throw OutOfRange else
  let start' := if start <? 0 then sz + start - 1 else start in
  let stop' := if stop <? 0 then sz + stop - 1
               else if sz <? stop then sz else stop in
  if stop' <? start' then Throw RuntimeError else
  if stride =? 0 then UB else
  match znth (l_strides a) dim with
  | None => UB
  | Some st =>
    let d := Z.to_nat dim in
    Ok (Layout (upd (l_shape a) d (fun _ => Z.quot (stop' - start') stride))
               (upd (l_strides a) d (fun s => s * stride))
               (upd (l_offsets a) d (fun o => o + start' * st)))
  end.

(** [slice_spec] include/bland/ops/ops.hpp 40-64. *)
Record slice_spec := SliceSpec { sp_dim : Z; sp_start : Z; sp_end : Z; sp_stride : Z }.

(** Variadic [bland::slice] ops/ops.cpp 197-221: the specs are applied left to right. *)
Fixpoint slice_many (a : layout) (specs : list slice_spec) : outcome layout :=
  match specs with
  | [] => Ok a
  | s :: rest =>
    let! a' := slice1 a (sp_dim s) (sp_start s) (sp_end s) (sp_stride s) in
    slice_many a' rest
  end.

(** Removes / inserts list position [n] (the copy loops of squeeze and unsqueeze). *)
Fixpoint remove_at {A} (l : list A) (n : nat) : list A :=
  match l, n with
  | [], _ => []
  | _ :: t, O => t
  | x :: t, S n' => x :: remove_at t n'
  end.
Fixpoint insert_at {A} (l : list A) (n : nat) (v : A) : list A :=
  match n, l with
  | O, _ => v :: l
  | S n', x :: t => x :: insert_at t n' v
  | S n', [] => []
  end.

(** [ndarray::squeeze] ndarray.cpp 635-680.  The offset of the removed axis is dropped with it
    (line 667-671). *)
Definition squeeze (a : layout) (axis : Z) : outcome layout :=
  let ax := if axis <? 0 then ndim a + axis else axis in
  if ax <? 0 then Throw RuntimeError else
  if ndim a - 1 <? ax then Throw RuntimeError else
  let! d := zget (l_shape a) ax in
  if negb (d =? 1) then Throw RuntimeError else
  let n := Z.to_nat ax in
  Ok (Layout (remove_at (l_shape a) n) (remove_at (l_strides a) n) (remove_at (l_offsets a) n)).

(** [ndarray::unsqueeze] ndarray.cpp 682-706: for an axis outside [0, ndim] the loop never inserts
    and reads shape[ndim]. *)
Definition unsqueeze (a : layout) (axis : Z) : outcome layout :=
  if (axis <? 0) || (ndim a <? axis) then UB else
  let n := Z.to_nat axis in
  Ok (Layout (insert_at (l_shape a) n 1) (insert_at (l_strides a) n 0) (insert_at (l_offsets a) n 0)).

(** Stride loop of [ndarray::reshape] ndarray.cpp 613-622, over the reversed new shape; [rold] is
    the reversed list of the old strides of axes 1.. (axis 0 is never used: old_stride_axis > 0). *)
Fixpoint reshape_strides (rnew : list Z) (rold : list Z) (acc : Z) : list Z :=
  match rnew with
  | [] => []
  | d :: rnew' =>
    match rold with
    | s :: rold' => s :: reshape_strides rnew' rold' (acc * s)
    | [] => acc :: reshape_strides rnew' [] (acc * d)
    end
  end.

(** [ndarray::reshape] ndarray.cpp 587-633.  [new_offsets.back()] of an empty shape is UB.
    For ndim 0 arrays old_stride_axis starts at -1, so no old stride is used. *)
Definition reshape (a : layout) (new_shape : list Z) : outcome layout :=
  if negb (numel_of new_shape =? numel a) then Throw RuntimeError else
  if zlen new_shape =? ndim a then Throw RuntimeError else
  match rev new_shape with
  | [] => UB
  | _ :: _ =>
    Ok (Layout new_shape
               (rev (reshape_strides (rev new_shape) (rev (tl (l_strides a))) 1))
               (repeat 0 (length new_shape - 1) ++ [zsum (l_offsets a)]))
  end.

(** ** Broadcast helpers, internal/include/internal/shape_helpers.cpp *)

(** [expand_shapes_to_broadcast] 10-28, loop over reversed shapes (i counts from the last axis);
    [pad1] is the conditional [i < shape.size() ? ... : 1] of lines 15-16. *)
Definition pad1 (r : list Z) (n : nat) : list Z := r ++ repeat 1 (n - length r).
Fixpoint expand_loop (ra rb : list Z) : outcome (list Z) :=
  match ra, rb with
  | a :: ra', b :: rb' =>
    if negb (a =? b) && negb (a =? 1) && negb (b =? 1) then Throw InvalidArgument
    else let! r := expand_loop ra' rb' in Ok (Z.max a b :: r)
  | _, _ => Ok []
  end.
Definition expand_shapes (a b : list Z) : outcome (list Z) :=
  let n := Nat.max (length a) (length b) in
  let! r := expand_loop (pad1 (rev a) n) (pad1 (rev b) n) in Ok (rev r).

Fixpoint zip_with {A B C} (f : A -> B -> C) (l : list A) (m : list B) : list C :=
  match l, m with
  | x :: l', y :: m' => f x y :: zip_with f l' m'
  | _, _ => []
  end.

(** [compute_broadcast_strides] 44-56: right aligned; a negative [offset] writes before the
    vector. *)
Definition bcast_strides (shape strides out_shape : list Z) : outcome (list Z) :=
  if (length shape <=? length out_shape)%nat
  then Ok (repeat 0 (length out_shape - length shape)
           ++ zip_with (fun d s => if d =? 1 then 0 else s) shape strides)
  else UB.

(** [compute_broadcast_shape] 58-72: left aligned; reads shape[input_shape_index] at every output
    axis, so it runs past the input shape once all its axes matched. *)
Fixpoint bcast_shape (shape out_shape : list Z) : outcome (list Z) :=
  match out_shape with
  | [] => Ok []
  | o :: out' =>
    match shape with
    | [] => UB
    | s :: shape' =>
      if (s =? o) || (s =? 1)
      then let! r := bcast_shape shape' out' in Ok (o :: r)
      else let! r := bcast_shape shape out' in Ok (1 :: r)
    end
  end.

(** ** Odometer loops.  All per-axis lists are reversed (last axis first), because the loops run
    [for (int i = ndim-1; i >= 0; --i)]. *)

(** One increment of the index in [elementwise_scalar_op] (ops/cpu/elementwise_scalar_op.hpp 44-56)
    and [elementwise_unary_op] (ops/cpu/elementwise_unary_op.hpp 61-71): the two loops are the same
    text up to names.  Arguments: out_shape, a_shape, a_strides, out_strides, nd_index,
    a_linear_index, out_linear_index. *)
Fixpoint odo2 (osh ash ast ost idx : list Z) (ai oi : Z) : list Z * Z * Z :=
  match osh, ash, ast, ost, idx with
  | d :: osh', ad :: ash', sa :: ast', so :: ost', i :: idx' =>
    if negb (i + 1 =? d) then ((i + 1) :: idx', ai + sa, oi + so)
    else let '(idx'', ai', oi') :=
           odo2 osh' ash' ast' ost' idx' (ai - (ad - 1) * sa) (oi - (d - 1) * so) in
         (0 :: idx'', ai', oi')
  | _, _, _, _, _ => (idx, ai, oi)
  end.

(** Main loop of the same kernels; the result is the sequence of (out cell, input cell) accesses. *)
Fixpoint loop2 (n : nat) (osh ash ast ost idx : list Z) (ai oi : Z) : list (Z * Z) :=
  match n with
  | O => []
  | S n' =>
    (oi, ai) ::
    let '(idx', ai', oi') := odo2 osh ash ast ost idx ai oi in
    loop2 n' osh ash ast ost idx' ai' oi'
  end.

(** Executes the accesses: out[o] = f(a[i]).  Simplification: input and output are different
    buffers (every caller allocates a new output, or copies between different arrays). *)
Fixpoint run2 {A V} (f : A -> V) (ma : mem A) (mo : mem V) (trace : list (Z * Z)) : outcome (mem V) :=
  match trace with
  | [] => Ok mo
  | (o, i) :: rest =>
    let! x := load ma i in
    let! mo' := store mo o (f x) in
    run2 f ma mo' rest
  end.

(** [elementwise_scalar_op] ops/cpu/elementwise_scalar_op.hpp 20-60.  With fewer axes in [a] than
    in [out] the loop reads past a's strides: UB. *)
Definition scalar_op {A V} (f : A -> V) (lo la : layout) (mo : mem V) (ma : mem A) : outcome (mem V) :=
  if (length (l_shape la) <? length (l_shape lo))%nat then UB else
  run2 f ma mo
    (loop2 (Z.to_nat (numel lo)) (rev (l_shape lo)) (rev (l_shape la)) (rev (l_strides la))
           (rev (l_strides lo)) (rev (map (fun _ => 0) (l_shape lo)))
           (zsum (l_offsets la)) (zsum (l_offsets lo))).

(** [elementwise_unary_op] ops/cpu/elementwise_unary_op.hpp 25-75.  Line 37 overwrites a_shape
    before line 38 uses it. *)
Definition unary_op {A V} (f : A -> V) (lo la : layout) (mo : mem V) (ma : mem A) : outcome (mem V) :=
  let! ash := bcast_shape (l_shape la) (l_shape lo) in
  let! ast := bcast_strides ash (l_strides la) (l_shape lo) in
  if ndim la =? ndim lo then
    if forallb (fun p => (fst p =? snd p) || (fst p =? 1)) (combine ash (l_shape lo)) then
      run2 f ma mo
        (loop2 (Z.to_nat (numel lo)) (rev (l_shape lo)) (rev ash) (rev ast) (rev (l_strides lo))
               (rev (map (fun _ => 0) (l_shape lo)))
               (zsum (l_offsets la)) (zsum (l_offsets lo)))
    else Throw RuntimeError
  else Throw RuntimeError.

(** [ndarray_slice::operator=] ndarray_slice.cpp 55-63 -> copy(rhs, *this) -> ops_cpu.cpp 74-76 with
    elementwise_copy_op (arithmetic_cpu_impl.hpp 53-56; the cast between types is [f]). *)
Definition assign_slice {A V} (cast : A -> V) (dst src : layout) (md : mem V) (ms : mem A) :=
  unary_op cast dst src md ms.

(** One increment in [assignment_op] (ops/cpu/assignment_op.hpp 33-43) and in write_to_file
    (ops/cpu/ops_cpu.cpp 44-52). *)
Fixpoint odo1 (osh ost idx : list Z) (oi : Z) : list Z * Z :=
  match osh, ost, idx with
  | d :: osh', so :: ost', i :: idx' =>
    if negb (i + 1 =? d) then ((i + 1) :: idx', oi + so)
    else let '(idx'', oi') := odo1 osh' ost' idx' (oi - (d - 1) * so) in (0 :: idx'', oi')
  | _, _, _ => (idx, oi)
  end.
Fixpoint loop1 (n : nat) (osh ost idx : list Z) (oi : Z) : list Z :=
  match n with
  | O => []
  | S n' => oi :: let '(idx', oi') := odo1 osh ost idx oi in loop1 n' osh ost idx' oi'
  end.
Definition view_trace (l : layout) : list Z :=
  loop1 (Z.to_nat (numel l)) (rev (l_shape l)) (rev (l_strides l))
        (rev (map (fun _ => 0) (l_shape l))) (zsum (l_offsets l)).

(** [fill] -> [assignment_op] ops/cpu/assignment_op.hpp 14-47. *)
Fixpoint run_fill {V} (v : V) (mo : mem V) (trace : list Z) : outcome (mem V) :=
  match trace with
  | [] => Ok mo
  | o :: rest => let! mo' := store mo o v in run_fill v mo' rest
  end.
Definition fill {V} (lo : layout) (mo : mem V) (v : V) : outcome (mem V) :=
  run_fill v mo (view_trace lo).

(** [write_to_file] ops/cpu/ops_cpu.cpp 19-55: the values in the order they are written
    (each as the bytes of one float). *)
Fixpoint run_read {V} (m : mem V) (trace : list Z) : outcome (list V) :=
  match trace with
  | [] => Ok []
  | i :: rest => let! x := load m i in let! r := run_read m rest in Ok (x :: r)
  end.
Definition write_to_file {V} (l : layout) (m : mem V) : outcome (list V) := run_read m (view_trace l).

(** ** Unrolled element-wise binary operation, ops/cpu/elementwise_binary_op.hpp 21-111 *)

(** Index update 84-107.  [first] is the test [dim == unroll_dim]. *)
Fixpoint bin_advance (first : bool) (u : Z) (osh ash bsh ast bst ost idx : list Z) (ai bi oi : Z)
  : list Z * Z * Z * Z :=
  match osh, ash, bsh, ast, bst, ost, idx with
  | d :: osh', ad :: ash', bd :: bsh', sa :: ast', sb :: bst', so :: ost', i :: idx' =>
    let inc := if first then u else 1 in
    let i' := i + inc in
    let ai' := ai + inc * sa in
    let bi' := bi + inc * sb in
    let oi' := oi + inc * so in
    if i' <? d then (i' :: idx', ai', bi', oi')
    else let '(idx'', ai'', bi'', oi'') :=
           bin_advance false u osh' ash' bsh' ast' bst' ost' idx'
                       (ai' - ad * sa) (bi' - bd * sb) (oi' - d * so) in
         (0 :: idx'', ai'', bi'', oi'')
  | _, _, _, _, _, _, _ => (idx, ai, bi, oi)
  end.

(** Main loop 55-108; [None] means out of fuel.  Accesses are (out, a, b) cells.  The eight
    statements 60-75 and the loop 78-81 are both [chunk] with the respective unroll_size. *)
Definition chunk (u : Z) (so sa sb oi ai bi : Z) : list (Z * Z * Z) :=
  map (fun j => (oi + j * so, ai + j * sa, bi + j * sb)) (zrange u).

Fixpoint bin_loop (fuel : nat) (n total : Z) (osh ash bsh ast bst ost idx : list Z) (ai bi oi : Z)
  : option (list (Z * Z * Z)) :=
  if n <? total then
    match fuel with
    | O => None
    | S fuel' =>
      match osh, ast, bst, ost, idx with
      | d :: _, sa :: _, sb :: _, so :: _, i :: _ =>
        let items_left := (d - 1) - i in
        let u := if 8 <=? items_left then 8 else 1 + items_left in
        let '(idx', ai', bi', oi') := bin_advance true u osh ash bsh ast bst ost idx ai bi oi in
        match bin_loop fuel' (n + u) total osh ash bsh ast bst ost idx' ai' bi' oi' with
        | None => None
        | Some rest => Some (chunk u so sa sb oi ai bi ++ rest)
        end
      | _, _, _, _, _ => None
      end
    end
  else Some [].

Fixpoint run3 {A B V} (op : A -> B -> V) (ma : mem A) (mb : mem B) (mo : mem V)
         (trace : list (Z * Z * Z)) : outcome (mem V) :=
  match trace with
  | [] => Ok mo
  | (o, i, j) :: rest =>
    let! x := load ma i in
    let! y := load mb j in
    let! mo' := store mo o (op x y) in
    run3 op ma mb mo' rest
  end.

(** Same-rank compatibility check of the wrapper, 126-134. *)
Definition compat_same_rank (sa sb : list Z) : bool :=
  forallb (fun p => (fst p =? snd p) || (fst p =? 1) || (snd p =? 1)) (combine sa sb).

(** [elementwise_binary_op_impl_wrapper::call] 117-137 followed by [elementwise_binary_op] 21-111.
    A zero-dimensional output makes [unroll_dim] -1 (line 48-52): UB. *)
Definition binary_op {A B V} (op : A -> B -> V) (lo la lb : layout)
           (mo : mem V) (ma : mem A) (mb : mem B) : outcome (mem V) :=
  if (ndim la =? ndim lb) && negb (compat_same_rank (l_shape la) (l_shape lb))
  then Throw RuntimeError else
  let! ast := bcast_strides (l_shape la) (l_strides la) (l_shape lo) in
  let! bst := bcast_strides (l_shape lb) (l_strides lb) (l_shape lo) in
  let! ash := bcast_shape (l_shape la) (l_shape lo) in
  let! bsh := bcast_shape (l_shape lb) (l_shape lo) in
  match l_shape lo with
  | [] => UB
  | _ :: _ =>
    match bin_loop (Z.to_nat (numel lo)) 0 (numel lo) (rev (l_shape lo)) (rev ash) (rev bsh)
                   (rev ast) (rev bst) (rev (l_strides lo))
                   (rev (map (fun _ => 0) (l_shape lo)))
                   (zsum (l_offsets la)) (zsum (l_offsets lb)) (zsum (l_offsets lo)) with
    | None => UB
    | Some trace => run3 op ma mb mo trace
    end
  end.

(** Fresh output buffer; its cells are uninitialised, [junk] gives their contents. *)
Definition fresh {V} (junk : Z -> V) (dims : list Z) : mem V := map junk (zrange (alloc_elems dims)).

(** [add_cpu]/[divide_cpu] on two arrays, ops/cpu/arithmetic_cpu.cpp 22-27, 57-62: the output has
    the broadcast shape. *)
Definition expand_op {A B V} (op : A -> B -> V) (junk : Z -> V) (la lb : layout) (ma : mem A) (mb : mem B)
  : outcome (layout * mem V) :=
  let! sh := expand_shapes (l_shape la) (l_shape lb) in
  let! m := binary_op op (dense sh) la lb (fresh junk sh) ma mb in
  Ok (dense sh, m).

(** [subtract_cpu]/[multiply_cpu] 35-39, 46-50 and the array-array comparisons and logical_and
    (ops/cpu/comparison_cpu.cpp 26-30 etc.): the output has the shape of the left operand. *)
Definition left_shape_op {A B V} (op : A -> B -> V) (junk : Z -> V) (la lb : layout) (ma : mem A) (mb : mem B)
  : outcome (layout * mem V) :=
  let! m := binary_op op (dense (l_shape la)) la lb (fresh junk (l_shape la)) ma mb in
  Ok (dense (l_shape la), m).

(** Array-scalar operations, ops/cpu/arithmetic_scalar_cpu.cpp 20-24 etc.: the output has the shape
    of the array, element = op(a_i, b). *)
Definition array_scalar_op {A S V} (op : A -> S -> V) (junk : Z -> V) (la : layout) (ma : mem A) (b : S)
  : outcome (layout * mem V) :=
  let! m := scalar_op (fun x => op x b) (dense (l_shape la)) la (fresh junk (l_shape la)) ma in
  Ok (dense (l_shape la), m).

(** ** Operators with the scalar on the left *)

(** [operator+(T, ndarray)] ndarray.cpp 440-444: rhs + lhs. *)
Definition scalar_plus_array {A} (add : A -> A -> A) junk (lhs : A) la ma :=
  array_scalar_op add junk la ma lhs.
(** [operator-(T, ndarray)] ndarray.cpp 480-484: rhs - lhs. *)
Definition scalar_minus_array {A} (sub : A -> A -> A) junk (lhs : A) la ma :=
  array_scalar_op sub junk la ma lhs.
(** [operator/(T, ndarray)] ndarray.cpp 570-574: rhs * lhs. *)
Definition scalar_div_array {A} (mul : A -> A -> A) junk (lhs : A) la ma :=
  array_scalar_op mul junk la ma lhs.

(** [greater_than], [greater_than_equal_to], [less_than], [less_than_equal_to] of
    ops/cpu/comparison_cpu.cpp with an arithmetic left operand (20-22, 67-69, 111-113, 155-157):
    the kernel is called with (rhs, lhs) and the same comparison functor. *)
Definition scalar_cmp_array {A} (cmp : A -> A -> bool) junk (lhs : A) la ma :=
  array_scalar_op cmp junk la ma lhs.
(** The same functions with an arithmetic right operand (23-25, 70-72, 114-116, 158-160). *)
Definition array_cmp_scalar {A} (cmp : A -> A -> bool) junk la ma (rhs : A) :=
  array_scalar_op cmp junk la ma rhs.

(** ** Export to other frameworks, [to_dlpack] bland_tensor_internals.cpp 196-231: the exported
    DLTensor has the shape and strides, the data pointer of the whole buffer and byte_offset 0; the
    per-axis offsets have no counterpart in the DLPack struct and are lost (the copy announced at
    199-211 is not made). *)
Definition to_dlpack (a : layout) : layout :=
  Layout (l_shape a) (l_strides a) (map (fun _ => 0) (l_shape a)).

(** [bland::cpu::read_from_file] ops/cpu/ops_cpu.cpp 57-72 at the level of bytes: a buffer of
    (len / size) elements is allocated and len bytes are read into it.  Result: the bytes of the
    elements. *)
Definition read_from_file (elem_size : Z) (bytes : list Z) : outcome (list (list Z)) :=
  if elem_size <=? 0 then UB else
  let n := Z.quot (zlen bytes) elem_size in
  if n * elem_size <? zlen bytes then UB (* writes past the allocation *)
  else Ok (map (fun i => firstn (Z.to_nat elem_size) (skipn (Z.to_nat (i * elem_size)) bytes)) (zrange n)).
