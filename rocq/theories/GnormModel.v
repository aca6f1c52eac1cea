(** [normalize] of data on a GPU when the words behind a vector can be read (LaxModel): two launches.
    /repo/bliss/preprocess/normalize.cpp 15-21, bland/bland/ops/statistical.cpp 24-63, bland/bland/ops/cuda/statistical_cuda.cu 994-1167, 1527-1530,
    bland/bland/ops/cuda/arithmetic_cuda.cu 60-65 (divide), elementwise_binary_op_cuda.cuh 69-127.  Definitions only. *)
From Verif Require Import PropGred GredReal GredExact GredKernels GvarModel.
From Verif Require Export GmagModel GlaxModel.
From Verif Require Import GelModel.
From Flocq Require Import Core BinarySingleNaN.
Local Open Scope Z_scope.

(** What a finished run of the division kernel left in its output buffer, under any schedule: [lo] and [mo] the new array, [b] the array of one element. *)
Definition gpu_quotient (lo la lb : layout) (mo ma mb r : mem f32) : Prop :=
  exists addV blocks shared junk g c, binary_gpu_lax (Bdiv mode_NE) lo la lb = Ok g /\
    bgsteps eaddr_eqb addV (emem0 ma mb mo blocks shared junk, g) (Ok c) /\ grid_done c /\ forall i, fst c (EO i) = option_map XO (znth r i).
(** 15-21: the new samples; [lowest] is numeric_limits<float>::lowest(), from which the maximum starts. *)
Definition gpu_normalize (lowest : f32) (junk : Z -> f32) (data : arr f32) (r : arr f32) : Prop :=
  exists M osh, gpu_scalar (gk_max f32gt lowest) data M /\ expand_shapes (l_shape (fst data)) [1] = Ok osh /\ fst r = dense osh /\
    gpu_quotient (fst r) (fst data) (dense [1]) (fresh junk osh) (snd data) [M] (snd r).
