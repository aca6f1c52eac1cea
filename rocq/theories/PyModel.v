(** The Python bindings of the array library, /repo/bland/python/pybland.hpp, on the CPU: arrays of other frameworks, Python numbers and the
    choice of an overload.  The kernels are those of TypeModel.  Definitions only.
    nanobind is modelled by what it documents: the overloads of a name are tried in the order of their definition, first without, then with
    implicit conversions; without conversions a C++ integer accepts a Python int in its range and a C++ float a Python float that it represents
    exactly, with conversions a C++ float accepts every Python float and every Python int that has a double, rounded twice; a Python number is no
    array.  Only exact Python ints and floats are modelled, not bool or the scalar types of other frameworks. *)
From Verif Require Export TypeModel.
Local Open Scope Z_scope.

(** ** Arrays *)
(** An array of another framework: element type, shape, strides in elements, and its memory with the position of its first element. *)
Record parray := PArray { p_dtype : dtype; p_shape : list Z; p_strides : list Z; p_first : Z; p_cells : mem elem }.
(** [nb_to_bland] 306-326: the data pointer, shape and strides are handed over; offsets are zero.  The position of the first element, to which the
    data pointer points, appears here as an offset of the first axis. *)
Definition to_bland (a : parray) : tarr :=
  TArr (p_dtype a) (Layout (p_shape a) (p_strides a) (match p_shape a with [] => [] | _ :: r => p_first a :: map (fun _ => 0) r end)) (p_cells a).

(** ** Numbers *)
Inductive pynum := PyInt (z : Z) | PyFloat (x : f64).
(** A float that a double represents exactly. *)
Definition same64 (x y : f64) : bool :=
  match x, y with B754_nan, B754_nan => true | _, _ => match Bcompare x y with Some Eq => true | _ => false end end.
Definition load_strict (t : ty) (n : pynum) : option elem :=
  match t, n with
  | F32, PyFloat x => if same64 (widen (narrow x)) x then Some (NF (narrow x)) else None
  | F32, PyInt _ => None
  | _, PyInt z => if fits t z then Some (NZ z) else None
  | _, PyFloat _ => None
  end.
Definition load_convert (t : ty) (n : pynum) : option elem :=
  match t, n with
  | F32, PyFloat x => Some (NF (narrow x))
  | F32, PyInt z => if is_finite (f64_of_Z z) then Some (NF (narrow (f64_of_Z z))) else None
  | _, PyInt z => if fits t z then Some (NZ z) else None
  | _, PyFloat _ => None
  end.
Fixpoint first_match (load : ty -> pynum -> option elem) (ts : list ty) (n : pynum) : option (ty * elem) :=
  match ts with [] => None | t :: r => match load t n with Some v => Some (t, v) | None => first_match load r n end end.
Definition choose (ts : list ty) (n : pynum) : option (ty * elem) :=
  match first_match load_strict ts n with Some p => Some p | None => first_match load_convert ts n end.

(** ** Functions *)
(** The scalar overloads in the order of their definition: add 92-112, subtract 113-136, multiply 139-171, divide 174-176. *)
Definition arith_overloads (o : aop) : list ty :=
  match o with OpAdd | OpSub => [F32; I32] | OpMul => [U8; U32; I32; F32] | OpDiv => [] end.
(** less_than 178-195, greater_than 197-214. *)
Definition compare_overloads : list ty := [U8; U32; F32].
(** A TypeError raised by nanobind, or what the library function does. *)
Inductive pyresult := TypeError | Ran (r : outcome tarr).

Section Py.
  Variable junk : Z -> elem.
  Definition py_arith (o : aop) (a : parray) (n : pynum) : pyresult :=
    match choose (arith_overloads o) n with None => TypeError | Some (t, v) => Ran (scalar_arith junk o (to_bland a) t v) end.
  Definition py_arith2 (o : aop) (a b : parray) : pyresult := Ran (array_arith junk o (to_bland a) (to_bland b)).
  Definition py_less_than (a : parray) (n : pynum) : pyresult :=
    match choose compare_overloads n with None => TypeError | Some (t, v) => Ran (scalar_flags junk (fun ta tb => compare ta tb RLt) (to_bland a) t v) end.
  Definition py_greater_than (a : parray) (n : pynum) : pyresult :=
    match choose compare_overloads n with None => TypeError | Some (t, v) => Ran (scalar_flags junk (fun ta tb => compare ta tb RGt) (to_bland a) t v) end.
  (** [slice] 272-277: the slice of the array is copied (copy, ops/ops.cpp 47-50 and ops/cpu/ops_cpu.cpp 74-76). *)
  Definition py_slice (a : parray) (dim start stop stride : Z) : pyresult :=
    Ran (let b := to_bland a in
         let! l := slice1 (x_lay b) dim start stop stride in
         let! _ := elem_ty true (x_dt b) in
         let! m := assign_slice (fun x => x) (dense (l_shape l)) l (fresh junk (l_shape l)) (x_mem b) in
         Ok (TArr (x_dt b) (dense (l_shape l)) m)).
End Py.
