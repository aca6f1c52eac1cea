(** Sigma clipping of data on a GPU: the statistics are runs of the masked mean_stddev kernel, the element-wise steps give what their CPU counterparts give (C79).
    /repo/bliss/flaggers/sigmaclip.cpp 11-48, bland/bland/ops/statistical.cpp 279-323, bland/bland/ops/cuda/statistical_cuda.cu 1447-1523, 1560-1562.  Definitions only. *)
From Verif Require Import PropGred GredReal GredExact GredKernels GvarModel.
From Verif Require Export KurtModel.
From Flocq Require Import Core BinarySingleNaN.
Local Open Scope Z_scope.

Section Clip.
  (** Whether the compiler contracted (GvarModel.v). *)
  Variables cx cd : bool.
  (** [masked_mean_stddev(a, mask)] over all axes: what a finished run of the kernel left in the two outputs, under any schedule and from any initial contents.
      The kernel reads the buffer of the mask as bytes whatever the mask's type (1473). *)
  Definition gpu_stats (a : arr f32) (mask : arr Z) (m s : f32) : Prop :=
    exists grid junkS junkY c, let l := fst a in let osh := out_shape [] (l_shape l) in
      let m0 := gmem0 (gv_mmean_stddev cx cd) osh (block_size (zprod (map (getz (l_shape l)) (all_if_nil (ndim l) [])))) (num_blocks (zprod osh)) (snd a) (snd mask) junkS junkY in
      launch (gv_mmean_stddev cx cd) l (fst mask) [] = Ok grid /\ bgsteps gaddr_eqb (fun u _ => u) (m0, grid) (Ok c) /\ grid_done c /\
      fst c (GOut 0 0) = Some (VY m) /\ fst c (GOut 1 0) = Some (VY s).
  (** 15: [zeros] of the data's type, float32, as the bytes that the kernel reads. *)
  Definition zero_bytes (sh : list Z) : mem Z := map (fun _ => 0) (zrange (4 * zprod sh)).
  (** [constexpr float eps = 1e-6] 13. *)
  Definition eps32 : f32 := Bldexp mode_NE (f32_of_Z 8796093) (-43).
  (** 20: the statistics are arrays of one element; the comparisons have the shape of their left operand (comparison_cuda.cu 28-30), sums and differences the broadcast shape (arithmetic_cuda.cu 22-40). *)
  Definition clip_rfi (junk : Z -> f32) (jz : Z -> Z) (data : arr f32) (m s low high : f32) : outcome (arr Z) :=
    let! a := array_scalar_op (Bmult mode_NE) junk (dense [1]) [s] low in
    let! b := expand_op (Bminus mode_NE) junk (dense [1]) (fst a) [m] (snd a) in
    let! lo := left_shape_op (fun x y => u8_of_bool (f32lt x y)) jz (fst data) (fst b) (snd data) (snd b) in
    let! c := array_scalar_op (Bmult mode_NE) junk (dense [1]) [s] high in
    let! d := expand_op (Bplus mode_NE) junk (dense [1]) (fst c) [m] (snd c) in
    let! hi := left_shape_op (fun x y => u8_of_bool (f32gt x y)) jz (fst data) (fst d) (snd data) (snd d) in
    add_flags jz lo hi.
  (** 23-24, one of the two comparisons. *)
  Definition small_change (old new : f32) : bool := f32lt (Babs (Bminus mode_NE new old)) eps32.
  (** The loop 18-30 with [n] rounds left; the result is the last [rfi]. *)
  Inductive clip_loop junk jz (data : arr f32) (low high : f32) : nat -> f32 -> f32 -> arr Z -> outcome (arr Z) -> Prop :=
  | clip_over m s rfi : clip_loop junk jz data low high 0 m s rfi (Ok rfi)
  | clip_throw n m s rfi e : clip_rfi junk jz data m s low high = Throw e -> clip_loop junk jz data low high (S n) m s rfi (Throw e)
  | clip_ub n m s rfi : clip_rfi junk jz data m s low high = UB -> clip_loop junk jz data low high (S n) m s rfi UB
  | clip_settled n m s rfi rfi' m' s' : clip_rfi junk jz data m s low high = Ok rfi' -> gpu_stats data rfi' m' s' -> small_change m m' && small_change s s' = true ->
      clip_loop junk jz data low high (S n) m s rfi (Ok rfi')
  | clip_again n m s rfi rfi' m' s' o : clip_rfi junk jz data m s low high = Ok rfi' -> gpu_stats data rfi' m' s' -> small_change m m' && small_change s s' = false ->
      clip_loop junk jz data low high n m' s' rfi' o -> clip_loop junk jz data low high (S n) m s rfi o.
  (** [flag_sigmaclip(ndarray, max_iter, low, high)] 11-33; the values of the array, which is of type float32 when no round is run and uint8 otherwise. *)
  Definition gpu_sigmaclip_array junk jz (data : arr f32) (max_iter : Z) (low high : f32) (o : outcome (arr Z)) : Prop :=
    let sh := l_shape (fst data) in
    exists m s o', gpu_stats data (dense sh, zero_bytes sh) m s /\
      clip_loop junk jz data low high (Z.to_nat max_iter) m s (dense sh, map (fun _ => 0) (zrange (zprod sh))) o' /\
      o = (let! rfi := o' in scale_flags jz rfi SIGMA_CLIP).
  (** [flag_sigmaclip(coarse_channel, max_iter, low, high)] 35-48: the new mask. *)
  Definition gpu_sigmaclip junk jz (data : arr f32) (mask : arr Z) (max_iter : Z) (low high : f32) (o : outcome (arr Z)) : Prop :=
    exists o', gpu_sigmaclip_array junk jz data max_iter low high o' /\ o = (let! rfi := o' in add_flags jz mask rfi).
End Clip.
