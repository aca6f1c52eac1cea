(** /repo/bliss/rfi/rfi.cpp 17-41, [flag_hot_pixels] of a float array on the CPU.  The statistics are those of FsumModel, bit-exact.  Definitions only. *)
From Verif Require Export MagModel.
From Flocq Require Import BinarySingleNaN.
Local Open Scope Z_scope.

(** [(mean + stddev * 5).scalarize<float>()] 31: both statistics are arrays of one element. *)
Definition hot_threshold (junkf : Z -> f32) (mean stddev : arr f32) : outcome f32 :=
  let! five := array_scalar_op (fun x s => Bmult mode_NE x (f32_of_Z s)) junkf (fst stddev) (snd stddev) 5 in
  let! t := expand_op (Bplus mode_NE) junkf (fst mean) (fst five) (snd mean) (snd five) in
  only t.
(** 17-41: the threshold is computed (20, 21, 31) and not used; the flags are a new array of bytes of the grid's shape (38) to which nothing is written.  [contents]: what the memory holds. *)
Definition flag_hot_pixels (junkf : Z -> f32) (contents : Z -> Z) (grid : arr f32) : outcome (arr Z) :=
  let! stddev := float_stddev junkf (fst grid) (snd grid) [] in
  let! mean := float_mean junkf (fst grid) (snd grid) [] in
  let! _ := hot_threshold junkf mean stddev in
  Ok (dense (l_shape (fst grid)), fresh contents (l_shape (fst grid))).
