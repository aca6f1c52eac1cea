(** Reductions of integer arrays: accumulators, divisions and casts in the element type.  Paths are relative to /repo/bland/bland.
    The loops are those of RedModel; the result has the element type of the array (ops/statistical.cpp 24-38 and alike).  Definitions only. *)
From Verif Require Export TypeModel.
Local Open Scope Z_scope.

(** Operations of type [t] after integral promotion. *)
Definition promoted (t : ty) (o : aop) (x y : elem) : outcome elem := in_type (common t t) o x y.
(** [total += x], [mean += x]: the sum in the promoted type, cast back. *)
Definition accumulate (t : ty) (s : outcome elem) (x : elem) : outcome elem :=
  let! a := s in let! r := promoted t OpAdd a x in cast t r.
(** [accumulator_type scale = 1.0 / static_cast<accumulator_type>(n)], ops/cpu/statistical_cpu.cpp 58, 283, 409, for an integer type:
    the quotient 1.0/k truncates to that of the integers, and 1.0/0 does not fit. *)
Definition scale_of (t : ty) (n : Z) : outcome elem := let k := wrap t n in if k =? 0 then UB else Ok (NZ (Z.quot 1 k)).
(** [std::sqrt] of an integer: converted to double, rounded root (NaN below zero), cast. *)
Definition root (t : ty) (v : elem) : outcome elem :=
  match v with
  | NZ z => match trunc_Z (Bsqrt mode_NE (f64_of_Z z)) with Some r => if fits t r then Ok (NZ r) else UB | None => UB end
  | NF _ => UB
  end.
Definition finish_red (d : dtype) (r : outcome (layout * mem (outcome elem))) : outcome tarr := finish_op d r.

Section Reds.
  Variable junk : Z -> elem.
  Variable a : tarr.
  Variable axes : list Z.
  Notation zero := (Ok (NZ 0) : outcome elem).
  (** sum ops/cpu/statistical_cpu.cpp 919-1013. *)
  Definition int_sum : outcome tarr :=
    let! t := elem_ty true (x_dt a) in
    finish_red (x_dt a) (nd_mean zero (accumulate t) (fun s _ => s) (junk' junk) (x_lay a) (x_mem a) axes).
  (** mean 25-120, 241-243: [scale] is computed and not used; the total is divided as int64. *)
  Definition mean_value (t : ty) (s : outcome elem) (n : Z) : outcome elem :=
    let! _ := scale_of t (n - 1) in let! x := s in let! r := in_type I64 OpDiv x (NZ n) in cast t r.
  Definition int_mean : outcome tarr :=
    let! t := elem_ty true (x_dt a) in
    finish_red (x_dt a) (nd_mean zero (accumulate t) (mean_value t) (junk' junk) (x_lay a) (x_mem a) axes).
  (** masked_mean 122-239, 246-248: divided by the number of elements not masked.
      The elements are computed as outcomes, so that an exception for one result is reported even where another is undefined. *)
  Definition masked_value (t : ty) (s : outcome elem) (n : Z) : outcome elem :=
    let! x := s in let! r := in_type I64 OpDiv x (NZ n) in cast t r.
  Definition int_masked_mean (lm : layout) (mask : mem Z) : outcome tarr :=
    let! t := elem_ty true (x_dt a) in
    finish_red (x_dt a) (nd_masked zero (accumulate t) (masked_value t) (junk' junk) (x_lay a) (x_mem a) lm mask axes).
  (** max 1064-1161; only integers occur. *)
  Definition greater (x y : elem) : bool := match x, y with NZ u, NZ v => v <? u | NZ _, NF _ => true | NF _, _ => false end.
  Definition int_max : outcome tarr :=
    let! t := elem_ty true (x_dt a) in
    let! lm := nd_max (NZ (lo_of t)) greater junk (x_lay a) (x_mem a) axes in Ok (TArr (x_dt a) (fst lm) (snd lm)).
  (** stddev 250-357: [accum_x += x * scale], [accum_x2 += T(x) * x * scale], then sqrt(max(0, T(accum_x2 - accum_x*accum_x))). *)
  Definition scaled (t : ty) (n : Z) (s : outcome elem) (x : elem) : outcome elem :=
    let! v := s in let! k := scale_of t n in let! p := promoted t OpMul x k in let! q := promoted t OpAdd v p in cast t q.
  Definition scaled_square (t : ty) (n : Z) (s : outcome elem) (x : elem) : outcome elem :=
    let! v := s in let! k := scale_of t n in
    let! p := promoted t OpMul x x in let! p' := promoted t OpMul p k in let! q := promoted t OpAdd v p' in cast t q.
  Definition above_zero (v : elem) : elem := match v with NZ z => NZ (Z.max 0 z) | NF _ => v end.
  Definition stddev_value (t : ty) (n : Z) (s1 s2 : outcome elem) : outcome elem :=
    let! _ := scale_of t n in let! x := s1 in let! x2 := s2 in
    let! p := promoted t OpMul x x in let! q := promoted t OpSub x2 p in let! d := cast t q in root t (above_zero d).
  Definition reduced_count (l : layout) : Z := zprod (map (getz (l_shape l)) (match axes with [] => zrange (ndim l) | _ => axes end)).
  Definition int_stddev : outcome tarr :=
    let! t := elem_ty true (x_dt a) in let n := reduced_count (x_lay a) in
    finish_red (x_dt a) (nd_stddev zero (scaled t n) (scaled_square t n) (stddev_value t n) (junk' junk) (x_lay a) (x_mem a) axes).
  (** masked_stddev 359-492: sums of x and x*x in the element type, divided as int64; [scale] is computed and not used. *)
  Definition accumulate2 (t : ty) (s : outcome (elem * elem)) (x : elem) : outcome (elem * elem) :=
    let! v := s in let! s1 := accumulate t (Ok (fst v)) x in
    let! p := promoted t OpMul x x in let! q := promoted t OpAdd (snd v) p in let! s2 := cast t q in Ok (s1, s2).
  Definition masked_dev_value (t : ty) (n0 : Z) (s : outcome (elem * elem)) (n : Z) : outcome elem :=
    let! _ := scale_of t n0 in let! v := s in
    let! mu := in_type I64 OpDiv (fst v) (NZ n) in let! q := in_type I64 OpDiv (snd v) (NZ n) in
    let! m2 := in_type I64 OpMul mu mu in let! d := in_type I64 OpSub q m2 in root t d.
  Definition int_masked_stddev (lm : layout) (mask : mem Z) : outcome tarr :=
    let! t := elem_ty true (x_dt a) in
    finish_red (x_dt a) (nd_masked (Ok (NZ 0, NZ 0)) (accumulate2 t) (masked_dev_value t (reduced_count (x_lay a))) (junk' junk) (x_lay a) (x_mem a) lm mask axes).
  (** mean with a float array for the results: the accumulator is a double (53-56), the quotient is cast to float. *)
  Definition add_double (s : f64) (x : elem) : f64 := match x with NZ z => Bplus mode_NE s (f64_of_Z z) | NF v => Bplus mode_NE s (widen v) end.
  Definition quotient_float (s : f64) (n : Z) : elem := NF (narrow (Bdiv mode_NE s (f64_of_Z n))).
  Definition mean_into_float : outcome tarr :=
    let! _ := elem_ty true (x_dt a) in
    let! lm := nd_mean (B754_zero false : f64) add_double quotient_float junk (x_lay a) (x_mem a) axes in Ok (TArr (DType 2 32) (fst lm) (snd lm)).
End Reds.
