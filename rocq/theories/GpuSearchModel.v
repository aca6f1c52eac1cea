(** Model of the search of one coarse channel on CUDA from samples to protohits: drift integration and connected components, with a
    given noise estimate.  Paths are relative to /repo/bliss.  Definitions only. *)
From Verif Require Export DriftModel PipeModel CcCudaModel.
Local Open Scope Z_scope.

(** [integrate_drifts] (drift_search/integrate_drifts.cpp 51-74) with the kernel of drift_search/kernels/drift_integration_cuda.cu, then
    [protohit_search] (drift_search/protohit_search.cpp 14-43) with connected components (kernels/connected_components_cuda.cu 335-470).
    The plane kernel starts with [junk] in its output buffers and runs [blocks] x [bdim] threads; the three component kernels run [G]
    threads each.  The plane stays on the device: the component kernels read what the plane kernel wrote.
    [res]: the bins of the protohits left over, in the order of the protohit table (row-major indices). *)
Inductive cuda_search (o : search_options) (floor power : f32) (T N : Z) (spec : mem f32) (mask : mem Z) (junk : Z -> f32) (blocks bdim G : Z) : list (option Z) -> Prop :=
| Cuda_search ds rates m ps plane g :
    compute_drifts T (s_low o) (s_high o) (s_step o) (s_desmear o) = Ok ds ->
    mapM (kernel_rate cuda_offset T) ds = Ok rates ->
    gsteps addr_eqb (cuda_init spec mask junk (zlen rates * N), cuda_threads (f32_of_Z 0) add32 f32_div_int N T blocks bdim rates) (Ok (m, ps)) ->
    finished ps ->
    zlen plane = zlen rates * N -> (forall i v, znth plane i = Some v -> m (BPlane, i) = Some (CF v)) ->
    cuda_run (f32snr floor) f32gt (s_threshold o) (f32half (s_threshold o)) (zlen rates) N (s_distance o) plane (map (adjusted_noise power T) ds) G g ->
    cuda_search o floor power T N spec mask junk blocks bdim G (survivors g).
