(** Model of the search of one coarse channel on CUDA for local maxima, from samples to hits, with a given noise estimate.
    Paths are relative to /repo/bliss.  Definitions only. *)
From Verif Require Export GpuSearchModel LmCudaModel HitModel.
Local Open Scope Z_scope.

(** The plane: [integrate_drifts] (drift_search/integrate_drifts.cpp 51-74) with the kernel of kernels/drift_integration_cuda.cu, as in
    GpuSearchModel. *)
Inductive cuda_plane (o : search_options) (T N : Z) (spec : mem f32) (mask : mem Z) (junk : Z -> f32) (blocks bdim : Z) : list drift_rate -> list f32 -> Prop :=
| Cuda_plane ds rates m ps plane :
    compute_drifts T (s_low o) (s_high o) (s_step o) (s_desmear o) = Ok ds ->
    mapM (kernel_rate cuda_offset T) ds = Ok rates ->
    gsteps addr_eqb (cuda_init spec mask junk (zlen rates * N), cuda_threads (f32_of_Z 0) add32 f32_div_int N T blocks bdim rates) (Ok (m, ps)) ->
    finished ps ->
    zlen plane = zlen rates * N -> (forall i v, znth plane i = Some v -> m (BPlane, i) = Some (CF v)) ->
    cuda_plane o T N spec mask junk blocks bdim ds plane.

Section Maxima.
  Variables (i : channel_info) (o : search_options) (floor power : f32) (T N : Z) (spec : mem f32) (mask : mem Z) (junk : Z -> f32) (blocks bdim : Z) (hjunk : nat -> Z).
  Definition maxima_step (D N' cap : Z) (ds : list drift_rate) (plane : list f32) :=
    lg_step (f32snr floor) f32gt f32lt (s_threshold o) D N' (s_distance o) plane (map (adjusted_noise power T) ds) cap.
  (** [protohit_search] (drift_search/protohit_search.cpp 14-43) with local maxima (kernels/local_maxima_cuda.cu 136-196) on that plane,
      then [hit_search] (drift_search/hit_search.cpp 17-60). *)
  Inductive cuda_maxima : list hit -> Prop :=
  | Cuda_maxima ds plane D N' cap init c prot hs :
      cuda_plane o T N spec mask junk blocks bdim ds plane ->
      lg_launch (dense [zlen ds; N]) (s_distance o) = Ok (D, N', cap, init) ->
      msteps (maxima_step D N' cap ds plane) init (Ok c) -> halted (maxima_step D N' cap ds plane) c ->
      lg_export (fst c) = map Some prot ->
      make_hits (Meta (ci_fch1 i) (ci_foff i) (ci_tstart i) (ci_tsamp i) T (map (drift_hz (ci_foff i) (ci_tsamp i)) ds) floor (ci_number i)) hjunk prot = Ok hs ->
      cuda_maxima hs.
  (** An execution that writes past the end of the results. *)
  Definition cuda_maxima_breaks : Prop := exists ds plane D N' cap init,
    cuda_plane o T N spec mask junk blocks bdim ds plane /\ lg_launch (dense [zlen ds; N]) (s_distance o) = Ok (D, N', cap, init) /\ msteps (maxima_step D N' cap ds plane) init UB.
End Maxima.
