(** Model of the search of one coarse channel on the CPU from samples to hits: noise estimate, drift integration, per-drift noise,
    protohit search and hits.  Paths are relative to /repo/bliss.  Definitions only. *)
From Verif Require Export FlagModel DriftFloat CcModel CcFloat HitModel.
Local Open Scope Z_scope.

(** float / int, as in [spectrum_ptr[..] / desmear_bins] (kernels/drift_integration_cpu.cpp 84, 128) and [drift_plane / time_steps] (159). *)
Definition f32_div_int (x : f32) (n : Z) : f32 := div32 x (f32_of_Z n).

(** [rate.drift_rate_Hz_per_sec = m * foff * 1e6 / tsamp], drift_search/integrate_drifts.cpp 34: float m, the rest in double. *)
Definition drift_hz (foff tsamp : f64) (d : drift_rate) : f64 :=
  div64 (mul64 (mul64 (dr_slope d) foff) (f64_of_Z 1000000)) tsamp.

(** [noise_power() / std::sqrt(integration_length * desmeared_bins)], drift_search/protohit_search.cpp 20: sqrt of an int64 is a double
    sqrt, the quotient is a double, stored as a float. *)
Definition adjusted_noise (power : f32) (T : Z) (d : drift_rate) : f32 :=
  narrow (div64 (widen power) (Bsqrt (prec := 53) (emax := 1024) mode_NE (f64_of_Z (T * dr_desmear d)))).

(** drift_search/include/drift_search/hit_search_options.hpp: the method is an enum; any third value selects nothing. *)
Inductive search_method := ConnectedComponents | LocalMaxima | OtherMethod.

(** What the search needs to know about the channel besides samples and mask. *)
Record channel_info := Info { ci_fch1 : f64; ci_foff : f64; ci_tstart : f64; ci_tsamp : f64; ci_number : Z }.
Record search_options := Options {
  s_low : Z; s_high : Z; s_step : Z; s_desmear : bool; s_method : search_method; s_threshold : f32; s_distance : Z }.

(** drift_search/protohit_search.cpp 14-43 (float plane; counters in the dense planes of the integration). *)
Definition protohits (fuel : nat) (o : search_options) (floor power : f32) (T N : Z) (ds : list drift_rate) (st : planes f32) : run (list (protohit f32)) :=
  let lp := dense [zlen ds; N] in
  let noise := map (adjusted_noise power T) ds in
  match s_method o with
  | ConnectedComponents =>
    cc_cpu (f32snr floor) f32gt (s_threshold o) (f32half (s_threshold o)) f32_min (f32_of_Z 0) fuel lp (p_sum st) noise
      (lp, p_low st) (lp, p_high st) (lp, p_roll st) (s_distance o)
  | LocalMaxima =>
    lm_cpu (f32snr floor) f32gt (s_threshold o) f32lt (fun s => s) lp (p_sum st) noise (lp, p_low st) (lp, p_high st) (lp, p_roll st) (s_distance o)
  | OtherMethod => Some (Ok [])
  end.

(** [integrate_drifts] (drift_search/integrate_drifts.cpp 51-74) followed by [hit_search] (drift_search/hit_search.cpp 17-60) with a given
    noise estimate. *)
Definition search_channel (fuel : nat) (junk : nat -> Z) (i : channel_info) (o : search_options) (floor power : f32) (data : arr f32) (mask : arr Z)
  : run (list hit) :=
  match l_shape (fst data) with
  | [T; N] =>
    let? ds := lift (compute_drifts T (s_low o) (s_high o) (s_step o) (s_desmear o)) in
    let? st := lift (search_drifts_cpu (f32_of_Z 0) add32 f32_div_int (fst data) (fst mask) (snd data) (snd mask) (s_low o) (s_high o) (s_step o) (s_desmear o)) in
    let? ps := protohits fuel o floor power T N ds st in
    lift (make_hits (Meta (ci_fch1 i) (ci_foff i) (ci_tstart i) (ci_tsamp i) T (map (drift_hz (ci_foff i) (ci_tsamp i)) ds) floor (ci_number i)) junk ps)
  | _ => Some UB
  end.

(** [masked_mean_stddev] bland/bland/ops/cpu/statistical_cpu.cpp 608-744: element type [F] (float), accumulators of type [G] (double).
    Lines 690-694 accumulate, 712-714 finish. *)
Section Stat.
Context {F G : Type}.
Variables (O : numops G) (sqrtG : G -> G) (up : F -> G) (down : G -> F).
Definition stat_zero : G * G := (o_of O 0, o_of O 0).
Definition stat_add (s : G * G) (x : F) : G * G := (o_add O (fst s) (up x), o_add O (snd s) (o_mul O (up x) (up x))).
Definition stat_fin (s : G * G) (n : Z) : F * F :=
  let mean := o_div O (fst s) (o_of O n) in
  (down mean, down (sqrtG (o_sub O (o_div O (snd s) (o_of O n)) (o_mul O mean mean)))).
End Stat.
Definition sqrt64 := Bsqrt (prec := 53) (emax := 1024) mode_NE.
Definition sqrt32 := Bsqrt (prec := 24) (emax := 128) mode_NE.

(** The masked noise estimate (estimators/noise_estimate.cpp 137-173) stored in the channel and the search that reads it back through the
    accessors of core/noise_power.cpp; without an estimate core/coarse_channel.cpp 231-238 throws logic_error.  The accumulators of the
    unmasked estimate are not used by the masked one. *)
Definition masked_noise {F G} (O : numops G) sqrtG (up : F -> G) (down : G -> F) jn jz (data : arr F) (mask : arr Z) : outcome (option (arr (F * F))) :=
  estimate_noise (stat_zero O) (stat_add O up) (stat_fin O sqrtG down) (fun d _ => d) (fun d _ => d) (fun _ _ => (down (o_of O 0), down (o_of O 0))) jn jz true Stddev data mask.
Definition find_hits fuel junk jz jn (i : channel_info) (o : search_options) (data : arr f32) (mask : arr Z) : run (list hit) :=
  let? est := lift (masked_noise ops64 sqrt64 widen narrow jn jz data mask) in
  match est with
  | None => Some (Throw LogicError)
  | Some a => let? v := lift (scalarize (snd a) (fst a) [0]) in
              search_channel fuel junk i o (noise_floor v) (noise_power v) data mask
  end.
