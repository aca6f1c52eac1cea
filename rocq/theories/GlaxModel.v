(** Sigma clipping of channels on a GPU when the words behind a vector can be read (LaxModel): /repo/bliss/flaggers/sigmaclip.cpp 11-48 as in GclipModel, except that comparing
    an array with an array of one element is not undefined.  Definitions only. *)
From Verif Require Import PropGred GredReal GredExact GredKernels GvarModel.
From Verif Require Export KurtModel GclipModel LaxModel.
From Verif Require Import GelModel.
From Flocq Require Import Core BinarySingleNaN.
Local Open Scope Z_scope.

(** elementwise_binary_op_cuda.cuh 69-127 (cf. [GelModel.binary_gpu]): the two broadcast shapes are computed and not used, so that nothing is left of them here. *)
Definition binary_gpu_lax {A B V} (op : A -> B -> V) (lo la lb : layout) :=
  if (ndim la =? ndim lb) && negb (compat_same_rank (l_shape la) (l_shape lb)) then Throw RuntimeError else
  let! sa := bcast_strides (l_shape la) (l_strides la) (l_shape lo) in
  let! sb := bcast_strides (l_shape lb) (l_strides lb) (l_shape lo) in
  if (0 <? numel lo) && (4 <? ndim lo) then UB else
  Ok (el_grid (numel lo) (fun b t =>
    bin_items op (int_sum (l_offsets lo)) (int_sum (l_offsets la)) (int_sum (l_offsets lb)) (l_strides lo) sa sb
      (my_visits (l_shape lo) (numel lo) (el_blocks (numel lo)) b t))).
Section Clip.
  Variables (cx cd : bool) (xa xb : Z -> Z).
  (** comparison_cuda.cu 28-30: the output has the shape of the left operand. *)
  Definition left_shape_op_lax {A B V} (op : A -> B -> V) (junk : Z -> V) (la lb : layout) (ma : mem A) (mb : mem B) : outcome (layout * mem V) :=
    let! m := binary_op_lax xa xb op (dense (l_shape la)) la lb (fresh junk (l_shape la)) ma mb in
    Ok (dense (l_shape la), m).
  (** 20, cf. [GclipModel.clip_rfi]. *)
  Definition clip_rfi_lax (junk : Z -> f32) (jz : Z -> Z) (data : arr f32) (m s low high : f32) : outcome (arr Z) :=
    let! a := array_scalar_op (Bmult mode_NE) junk (dense [1]) [s] low in
    let! b := expand_op_lax xa xb (Bminus mode_NE) junk (dense [1]) (fst a) [m] (snd a) in
    let! lo := left_shape_op_lax (fun x y => u8_of_bool (f32lt x y)) jz (fst data) (fst b) (snd data) (snd b) in
    let! c := array_scalar_op (Bmult mode_NE) junk (dense [1]) [s] high in
    let! d := expand_op_lax xa xb (Bplus mode_NE) junk (dense [1]) (fst c) [m] (snd c) in
    let! hi := left_shape_op_lax (fun x y => u8_of_bool (f32gt x y)) jz (fst data) (fst d) (snd data) (snd d) in
    expand_op_lax xa xb u8_add jz (fst lo) (fst hi) (snd lo) (snd hi).
  (** The loop 18-30 with [n] rounds left; the result is the last [rfi]. *)
  Inductive clip_loop_lax junk jz (data : arr f32) (low high : f32) : nat -> f32 -> f32 -> arr Z -> outcome (arr Z) -> Prop :=
  | lclip_over m s rfi : clip_loop_lax junk jz data low high 0 m s rfi (Ok rfi)
  | lclip_throw n m s rfi e : clip_rfi_lax junk jz data m s low high = Throw e -> clip_loop_lax junk jz data low high (S n) m s rfi (Throw e)
  | lclip_ub n m s rfi : clip_rfi_lax junk jz data m s low high = UB -> clip_loop_lax junk jz data low high (S n) m s rfi UB
  | lclip_settled n m s rfi rfi' m' s' : clip_rfi_lax junk jz data m s low high = Ok rfi' -> gpu_stats cx cd data rfi' m' s' -> small_change m m' && small_change s s' = true ->
      clip_loop_lax junk jz data low high (S n) m s rfi (Ok rfi')
  | lclip_again n m s rfi rfi' m' s' o : clip_rfi_lax junk jz data m s low high = Ok rfi' -> gpu_stats cx cd data rfi' m' s' -> small_change m m' && small_change s s' = false ->
      clip_loop_lax junk jz data low high n m' s' rfi' o -> clip_loop_lax junk jz data low high (S n) m s rfi o.
  (** 11-33. *)
  Definition gpu_sigmaclip_array_lax junk jz (data : arr f32) (max_iter : Z) (low high : f32) (o : outcome (arr Z)) : Prop :=
    let sh := l_shape (fst data) in
    exists m s o', gpu_stats cx cd data (dense sh, zero_bytes sh) m s /\
      clip_loop_lax junk jz data low high (Z.to_nat max_iter) m s (dense sh, map (fun _ => 0) (zrange (zprod sh))) o' /\
      o = (let! rfi := o' in scale_flags jz rfi SIGMA_CLIP).
  (** 35-48: the new mask of the channel. *)
  Definition gpu_sigmaclip_lax junk jz (data : arr f32) (mask : arr Z) (max_iter : Z) (low high : f32) (o : outcome (arr Z)) : Prop :=
    exists o', gpu_sigmaclip_array_lax junk jz data max_iter low high o' /\ o = (let! rfi := o' in expand_op_lax xa xb u8_add jz (fst mask) (fst rfi) (snd mask) (snd rfi)).
End Clip.
