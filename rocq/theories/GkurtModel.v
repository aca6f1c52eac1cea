(** Spectral kurtosis of data on a GPU: the sums are runs of the reduction kernel, the element-wise steps give what their CPU counterparts give (C79).
    /repo/bliss/estimators/spectral_kurtosis.cpp 9-29, /repo/bliss/flaggers/spectral_kurtosis.cpp 12-47, bland/ops/cuda/reductions_cuda (launch: GredModel.v).  Definitions only. *)
From Verif Require Import PropGred GredReal GredExact GredKernels.
From Verif Require Export KurtModel.
Local Open Scope Z_scope.

(** [bland::sum(a, {0})] on a GPU: what a finished run of the kernel left in the output array, under any schedule and from any initial contents. *)
Definition gpu_sum0 (a r : arr f32) : Prop :=
  exists grid junkS junkY c, let l := fst a in let osh := out_shape [0] (l_shape l) in
    let m0 := gmem0 (gk_sum PropGred.ops32) osh (block_size (zprod (map (getz (l_shape l)) [0]))) (num_blocks (zprod osh)) (snd a) [] junkS junkY in
    launch (gk_sum PropGred.ops32) l (dense []) [0] = Ok grid /\ bgsteps gaddr_eqb (fun u _ => u) (m0, grid) (Ok c) /\ grid_done c /\
    fst r = dense osh /\ zlen (snd r) = zprod osh /\
    forall i, 0 <= i < zprod osh -> exists v, znth (snd r) i = Some v /\ fst c (GOut 0 i) = Some (VY v).
(** [estimate_spectral_kurtosis(spectrum_grid, N, M, d)] 9-15. *)
Definition gpu_kurtosis junk (data : arr f32) (N M : Z) (d : f32) (r : arr f32) : Prop :=
  exists s q s2, gpu_sum0 data s /\ nd_square ops32 junk data = Ok q /\ gpu_sum0 q s2 /\
  (let! s1 := nd_square ops32 junk s in
   let! rr := expand_op (o_div ops32) junk (fst s2) (fst s1) (snd s2) (snd s1) in
   let! k := sk_factor ops32 N M d in
   let! a := array_scalar_op (o_mul ops32) junk (fst rr) (snd rr) (o_of ops32 M) in
   let! b := array_scalar_op (o_sub ops32) junk (fst a) (snd a) (o_of ops32 1) in
   array_scalar_op (o_mul ops32) junk (fst b) (snd b) k) = Ok r.
(** [estimate_spectral_kurtosis(coarse_channel, d)] 17-29. *)
Definition gpu_channel_kurtosis junk (data : arr f32) (tsamp foff : f64) (d : f32) (r : arr f32) : Prop :=
  exists M N, zget (l_shape (fst data)) 0 = Ok M /\ round_to_int (sk_ratio tsamp foff) = Ok N /\ gpu_kurtosis junk data N (to_int32 M) d r.
(** [flag_spectral_kurtosis(coarse_channel, lower, upper, d)] 12-47: the new mask. *)
Definition gpu_flag_kurtosis junk jz (data : arr f32) (mask : arr Z) (tsamp foff : f64) (lower upper d : f32) (r : arr Z) : Prop :=
  exists M N sk, zget (l_shape (fst data)) 0 = Ok M /\ round_to_int64 (sk_ratio tsamp foff) = Ok N /\ gpu_kurtosis junk data (to_int32 N) (to_int32 M) d sk /\
  (let! lo := compare_scalar (fun x t => o_lt ops32 x t) jz sk lower in
   let! lo2 := scale_flags jz lo LOW_SK in
   let! hi := compare_scalar (fun x t => o_lt ops32 t x) jz sk upper in
   let! hi2 := scale_flags jz hi HIGH_SK in
   let! rfi := add_flags jz lo2 hi2 in
   let! l := unsqueeze (fst rfi) 0 in
   add_flags jz mask (l, snd rfi)) = Ok r.
