(** Element types: which types the kernels accept, how operands are converted, and what is stored.  Paths are relative to /repo/bland/bland.
    Values of integer types are integers, values of float are Flocq binary32.  Definitions only. *)
From Verif Require Export RedModel.
From Verif Require Export DriftFloat.
Local Open Scope Z_scope.

(** ** Types and values *)
Inductive ty := F32 | I32 | I64 | U8 | U32.
(** DLDataType: code (kDLInt 0, kDLUInt 1, kDLFloat 2, others) and bits; lanes are ignored, as in the dispatchers. *)
Record dtype := DType { d_code : Z; d_bits : Z }.
(** [dispatch], [dispatch_nd_sc], [dispatch_scalar], [dispatch_summary] internal/include/internal/dispatcher.hpp 61-206, 475-572, 582-633, 953-1000:
    the types instantiated.  [wide]: [dispatch_new], [dispatch_new4], [dispatch_new2] 643-815, 1006-1108 also accept 64-bit integers. *)
Definition elem_ty (wide : bool) (d : dtype) : outcome ty :=
  if d_code d =? 2 then if d_bits d =? 32 then Ok F32 else Throw RuntimeError
  else if d_code d =? 0 then if d_bits d =? 32 then Ok I32 else if wide && (d_bits d =? 64) then Ok I64 else Throw RuntimeError
  else if d_code d =? 1 then if d_bits d =? 8 then Ok U8 else if d_bits d =? 32 then Ok U32 else Throw RuntimeError
  else Throw RuntimeError.
Definition u8_dtype := DType 1 8.
Inductive elem := NF (x : f32) | NZ (z : Z).

Definition signed (t : ty) : bool := match t with I32 | I64 => true | _ => false end.
Definition bits (t : ty) : Z := match t with U8 => 8 | I64 => 64 | _ => 32 end.
Definition lo_of (t : ty) : Z := if signed t then - 2 ^ (bits t - 1) else 0.
Definition hi_of (t : ty) : Z := if signed t then 2 ^ (bits t - 1) else 2 ^ bits t.
Definition fits (t : ty) (z : Z) : bool := (lo_of t <=? z) && (z <? hi_of t).
(** Conversion to an integer type: modular (also to a signed type, which C++17 leaves to the implementation and every supported compiler defines so). *)
Definition wrap (t : ty) (z : Z) : Z := if signed t then (z + 2 ^ (bits t - 1)) mod 2 ^ bits t - 2 ^ (bits t - 1) else z mod 2 ^ bits t.

(** Truncation of a floating-point value; none for infinities and NaN. *)
Definition trunc_Z {p q} (x : binary_float p q) : option Z :=
  match x with
  | B754_zero _ => Some 0
  | B754_infinity _ | B754_nan => None
  | B754_finite s m e _ => Some (cond_Zopp s (if 0 <=? e then Zpos m * 2 ^ e else Zpos m / 2 ^ (- e)))
  end.
(** [static_cast<t>(v)]: a float that does not fit after truncation is undefined. *)
Definition cast (t : ty) (v : elem) : outcome elem :=
  match t, v with
  | F32, NF x => Ok (NF x)
  | F32, NZ z => Ok (NF (f32_of_Z z))
  | _, NZ z => Ok (NZ (wrap t z))
  | _, NF x => match trunc_Z x with Some z => if fits t z then Ok (NZ z) else UB | None => UB end
  end.

(** ** Arithmetic: integral promotion and the usual arithmetic conversions, then the operation in the common type *)
Definition common (a b : ty) : ty :=
  match a, b with F32, _ | _, F32 => F32 | I64, _ | _, I64 => I64 | U32, _ | _, U32 => U32 | _, _ => I32 end.
Inductive aop := OpAdd | OpSub | OpMul | OpDiv.
Definition fop (o : aop) (x y : f32) : f32 :=
  match o with OpAdd => Bplus mode_NE x y | OpSub => Bminus mode_NE x y | OpMul => Bmult mode_NE x y | OpDiv => Bdiv mode_NE x y end.
Definition zop (o : aop) (x y : Z) : Z := match o with OpAdd => x + y | OpSub => x - y | OpMul => x * y | OpDiv => Z.quot x y end.
Definition in_type (t : ty) (o : aop) (x y : elem) : outcome elem :=
  match x, y with
  | NF a, NF b => Ok (NF (fop o a b))
  | NZ a, NZ b =>
    if (match o with OpDiv => true | _ => false end) && (b =? 0) then UB else
    let r := zop o a b in if signed t then if fits t r then Ok (NZ r) else UB else Ok (NZ (wrap t r))
  | _, _ => UB
  end.
(** elementwise_*_op_ts::call ops/cpu/arithmetic_cpu_impl.hpp 12-50: [static_cast<Out>(a op b)]. *)
Definition arith (out ta tb : ty) (o : aop) (x y : elem) : outcome elem :=
  let c := common ta tb in
  let! a := cast c x in let! b := cast c y in let! r := in_type c o a b in cast out r.

(** ** Comparisons, ops/cpu/comparison_cpu_impl.hpp 9-55 *)
Inductive relop := RGt | RGe | RLt | RLe | REq.
Definition holds (r : relop) (c : option comparison) : bool :=
  match r, c with
  | RGt, Some Gt | RGe, Some Gt | RGe, Some Eq | RLt, Some Lt | RLe, Some Lt | RLe, Some Eq | REq, Some Eq => true
  | _, _ => false
  end.
Definition compare (ta tb : ty) (r : relop) (x y : elem) : outcome elem :=
  let c := common ta tb in
  let! a := cast c x in let! b := cast c y in
  match a, b with
  | NF u, NF v => Ok (NZ (if holds r (Bcompare u v) then 1 else 0))
  | NZ u, NZ v => Ok (NZ (if holds r (Some (Z.compare u v)) then 1 else 0))
  | _, _ => UB
  end.
(** logical_and_impl 45-55: throws on floats, otherwise the low eight bits of the bitwise and. *)
Definition logical_and (ta tb : ty) (x y : elem) : outcome elem :=
  match ta, tb with
  | F32, _ | _, F32 => Throw RuntimeError
  | _, _ => let c := common ta tb in
    let! a := cast c x in let! b := cast c y in
    match a, b with NZ u, NZ v => cast U8 (NZ (wrap c (Z.land u v))) | _, _ => UB end
  end.

(** ** Array operations *)
Record tarr := TArr { x_dt : dtype; x_lay : layout; x_mem : mem elem }.
(** The results of the elements in the order of the loop: the first that is undefined or throws ends it. *)
Fixpoint collect (m : list (outcome elem)) : outcome (list elem) :=
  match m with [] => Ok [] | v :: r => let! x := v in let! l := collect r in Ok (x :: l) end.
Definition finish_op (d : dtype) (r : outcome (layout * mem (outcome elem))) : outcome tarr :=
  let! lm := r in let! m := collect (snd lm) in Ok (TArr d (fst lm) m).
Section Ops.
  Variable junk : Z -> elem.
  Definition junk' (k : Z) : outcome elem := Ok (junk k).
  (** add_cpu, divide_cpu ops/cpu/arithmetic_cpu.cpp 22-27, 57-62: broadcast shape, type of the left operand; dispatch on out, a, b. *)
  Definition expand_arith (o : aop) (a b : tarr) : outcome tarr :=
    let! _ := expand_shapes (l_shape (x_lay a)) (l_shape (x_lay b)) in
    let! ta := elem_ty false (x_dt a) in let! tb := elem_ty false (x_dt b) in
    finish_op (x_dt a) (expand_op (arith ta ta tb o) junk' (x_lay a) (x_lay b) (x_mem a) (x_mem b)).
  (** subtract_cpu, multiply_cpu 35-39, 46-50: shape and type of the left operand. *)
  Definition left_arith (o : aop) (a b : tarr) : outcome tarr :=
    let! ta := elem_ty false (x_dt a) in let! tb := elem_ty false (x_dt b) in
    finish_op (x_dt a) (left_shape_op (arith ta ta tb o) junk' (x_lay a) (x_lay b) (x_mem a) (x_mem b)).
  Definition array_arith (o : aop) : tarr -> tarr -> outcome tarr := match o with OpAdd | OpDiv => expand_arith o | OpSub | OpMul => left_arith o end.
  (** Array with scalar, ops/cpu/arithmetic_scalar_cpu.cpp 20-46; the scalar types are float, uint8_t, uint32_t and int32_t. *)
  Definition scalar_arith (o : aop) (a : tarr) (tb : ty) (y : elem) : outcome tarr :=
    let! ta := elem_ty false (x_dt a) in
    finish_op (x_dt a) (array_scalar_op (arith ta ta tb o) junk' (x_lay a) (x_mem a) y).
  (** Comparisons and logical_and, ops/cpu/comparison_cpu.cpp 17-31 and the same text for the others: uint8 results in the shape of the left operand. *)
  Definition array_flags (f : ty -> ty -> elem -> elem -> outcome elem) (a b : tarr) : outcome tarr :=
    let! ta := elem_ty false (x_dt a) in let! tb := elem_ty false (x_dt b) in
    finish_op u8_dtype (left_shape_op (f ta tb) junk' (x_lay a) (x_lay b) (x_mem a) (x_mem b)).
  Definition scalar_flags (f : ty -> ty -> elem -> elem -> outcome elem) (a : tarr) (tb : ty) (y : elem) : outcome tarr :=
    let! ta := elem_ty false (x_dt a) in
    finish_op u8_dtype (array_scalar_op (f ta tb) junk' (x_lay a) (x_mem a) y).
End Ops.
