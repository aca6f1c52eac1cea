(** Magnitude flags at the default threshold, as they are computed: bit-exact arithmetic.
    /repo/bliss/flaggers/magnitude.cpp 28-34.  The statistics are those of FsumModel (bland::mean and bland::stddev of a float array), read back by
    [ndarray::scalarize<float>()] (ndarray.cpp 216-225: the first cell of the result); the flags are those of FlagModel.
    No contraction to fused multiply-add is assumed.  Definitions only. *)
From Verif Require Export FlagModel FsumModel DriftFloat.
Local Open Scope Z_scope.

(** [data > threshold] on floats: false for NaN. *)
Definition gt32 (x y : f32) : bool := match Bcompare x y with Some Gt => true | _ => false end.
(** [scalarize()] of a result. *)
Definition only (r : layout * mem f32) : outcome f32 := match snd r with x :: _ => Ok x | [] => UB end.
(** [mean + 10*stddev] 33: the int is converted to float, the product and the sum are rounded to float. *)
Definition ten_sigma (mean stddev : f32) : f32 := Bplus mode_NE mean (Bmult mode_NE (f32_of_Z 10) stddev).
(** The mask that [flag_magnitude(coarse_channel)] 28-34 sets. *)
Definition flag_magnitude_default (junkf : Z -> f32) junk (data : arr f32) (mask : arr Z) : outcome (arr Z) :=
  let! a := float_mean junkf (fst data) (snd data) [] in
  let! mean := only a in
  let! b := float_stddev junkf (fst data) (snd data) [] in
  let! stddev := only b in
  flag_magnitude gt32 junk data mask (ten_sigma mean stddev).
