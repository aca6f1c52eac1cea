(** Magnitude flags at the default threshold for data on a GPU: the statistics are runs of the mean and stddev kernels, the element-wise steps give what their CPU counterparts give (C79).
    /repo/bliss/flaggers/magnitude.cpp 28-34, bland/bland/ops/statistical.cpp 67-109, 155-202, bland/bland/ops/cuda/statistical_cuda.cu (launch: GredModel.v),
    bland/bland/ndarray.cpp 216-225 (scalarize copies to the CPU and reads the first cell).  Definitions only. *)
From Verif Require Import PropGred GredReal GredExact GredKernels GvarModel.
From Verif Require Export MagModel.
Local Open Scope Z_scope.

(** A reduction over all axes without a mask: what a finished run of the kernel left in its output, under any schedule and from any initial contents. *)
Definition gpu_scalar {S C} (K : kernel f32 S C f32) (a : arr f32) (v : f32) : Prop :=
  exists grid junkS junkY c, let l := fst a in let osh := out_shape [] (l_shape l) in
    let m0 := gmem0 K osh (block_size (zprod (map (getz (l_shape l)) (all_if_nil (ndim l) [])))) (num_blocks (zprod osh)) (snd a) [] junkS junkY in
    launch K l (dense []) [] = Ok grid /\ bgsteps gaddr_eqb (fun u _ => u) (m0, grid) (Ok c) /\ grid_done c /\ fst c (GOut 0 0) = Some (VY v).
Section Flags.
  (** Whether the compiler contracted the kernels (GvarModel.v). *)
  Variables cx cd : bool.
  (** The mask that [flag_magnitude(coarse_channel)] 28-34 sets; [mean + 10*stddev] is computed on the host. *)
  Definition gpu_flag_magnitude junk (data : arr f32) (mask : arr Z) (o : outcome (arr Z)) : Prop :=
    let n := red_factor (fst data) [] in
    exists mean stddev, gpu_scalar (gk_mean PropGred.ops32 n) data mean /\ gpu_scalar (gv_stddev cx cd n) data stddev /\
      o = flag_magnitude gt32 junk data mask (ten_sigma mean stddev).
End Flags.
