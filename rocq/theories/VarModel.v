(** Variances of float arrays.  Paths are relative to /repo/bland/bland/ops.  Definitions only. *)
From Verif Require Export FsumModel NdModel.
From Flocq Require Import Core BinarySingleNaN.
Local Open Scope Z_scope.

(** elementwise_square_op, cpu/arithmetic_cpu_impl.hpp 59-61, for floats. *)
Definition square32 (x : f32) : f32 := Bmult mode_NE x x.
(** [square(a)] ops.cpp 302-305: the result is a new array of the shape of [a]. *)
Definition float_square (junk : Z -> f32) (l : layout) (m : mem f32) : outcome (layout * mem f32) :=
  let! r := unary_op square32 (dense (l_shape l)) l (fresh junk (l_shape l)) m in Ok (dense (l_shape l), r).
(** [var(a, out, axes)] statistical.cpp 326-329 and [masked_var] 335-338: what [out] holds at the end, and the result.
    [out] is a dense array of the shape of the result, of any contents [out0].  [junk] are the contents of new memory. *)
Definition float_var_into (out0 junk : Z -> f32) (l : layout) (m : mem f32) (axes : list Z) : outcome (mem f32 * (layout * mem f32)) :=
  let! s := float_stddev out0 l m axes in let! r := float_square junk (fst s) (snd s) in Ok (snd s, r).
Definition float_masked_var_into (out0 junk : Z -> f32) (l : layout) (m : mem f32) (axes : list Z) (lm : layout) (mask : mem Z) : outcome (mem f32 * (layout * mem f32)) :=
  let! s := float_masked_stddev out0 l m axes lm mask in let! r := float_square junk (fst s) (snd s) in Ok (snd s, r).
(** [var(a, axes)] 330-333, [masked_var(a, mask, axes)] 339-342. *)
Definition float_var (junk1 junk2 : Z -> f32) (l : layout) (m : mem f32) (axes : list Z) : outcome (layout * mem f32) :=
  let! s := float_stddev junk1 l m axes in float_square junk2 (fst s) (snd s).
Definition float_masked_var (junk1 junk2 : Z -> f32) (l : layout) (m : mem f32) (axes : list Z) (lm : layout) (mask : mem Z) : outcome (layout * mem f32) :=
  let! s := float_masked_stddev junk1 l m axes lm mask in float_square junk2 (fst s) (snd s).
