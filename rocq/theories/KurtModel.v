(** Spectral kurtosis as it is computed: bit-exact single precision, and the numbers of samples derived from a channel's resolution.
    /repo/bliss/flaggers/spectral_kurtosis.cpp 29-47 and /repo/bliss/estimators/spectral_kurtosis.cpp 17-29.  The array functions are those of FlagModel
    at this arithmetic: sums of float arrays accumulate in float (statistical_cpu.cpp 116-118), int scalars are converted to float first (arithmetic_cpu_impl.hpp).
    No contraction to fused multiply-add is assumed.  Definitions only. *)
From Verif Require Export FlagModel DriftFloat.
Local Open Scope Z_scope.

Definition lt32 (x y : f32) : bool := match Bcompare x y with Some Lt => true | _ => false end.
Definition ops32 : numops f32 := Ops (Bplus mode_NE) (Bminus mode_NE) (Bmult mode_NE) (Bdiv mode_NE) Babs lt32 f32_of_Z floor_to_int.

(** Fs = abs(1.0 / (1e6 * foff)); tsamp / Fs: flaggers/spectral_kurtosis.cpp 35-36, estimators/spectral_kurtosis.cpp 22-23. *)
Definition sk_ratio (tsamp foff : f64) : f64 :=
  Bdiv mode_NE tsamp (Babs (Bdiv mode_NE (f64_of_Z 1) (Bmult mode_NE (f64_of_Z (10 ^ 6)) foff))).
(** [int64_t N = std::round(x)]: undefined outside int64. *)
Definition round_to_int64 (x : f64) : outcome Z :=
  match x with
  | B754_zero _ => Ok 0
  | B754_infinity _ | B754_nan => UB
  | B754_finite s m e _ => let z := cond_Zopp s (round_mag m e) in if (- 2 ^ 63 <=? z) && (z <? 2 ^ 63) then Ok z else UB
  end.
(** [flag_spectral_kurtosis(coarse_channel, lower, upper, d)] 29-47: the new mask.  N and M pass through int64 parameters into the int32 ones of the estimator. *)
Definition flag_kurtosis junk jz (data : arr f32) (mask : arr Z) (tsamp foff : f64) (lower upper d : f32) : outcome (arr Z) :=
  let! M := zget (l_shape (fst data)) 0 in
  let! N := round_to_int64 (sk_ratio tsamp foff) in
  flag_sk ops32 junk jz data mask (to_int32 N) (to_int32 M) d lower upper.
(** [estimate_spectral_kurtosis(coarse_channel, d)] 17-29: N converted from double to int32. *)
Definition channel_kurtosis junk (data : arr f32) (tsamp foff : f64) (d : f32) : outcome (arr f32) :=
  let! M := zget (l_shape (fst data)) 0 in
  let! N := round_to_int (sk_ratio tsamp foff) in
  spectral_kurtosis ops32 junk data N (to_int32 M) d.
