(** Statistics of float arrays, bit by bit.  Paths are relative to /repo/bland/bland/ops.
    The loops are those of RedModel; accumulators are doubles, except that of sum.  No contraction to fused multiply-add is assumed.  Definitions only. *)
From Verif Require Export DriftFloat RedModel.
From Flocq Require Import Core BinarySingleNaN.
Local Open Scope Z_scope.

(** [mean += x] with a double accumulator, cpu/statistical_cpu.cpp 72, 177; [static_cast<float>(mean / n)] 91, 211. *)
Definition add64 (s : f64) (x : f32) : f64 := Bplus mode_NE s (widen x).
Definition over64 (s : f64) (n : Z) : f64 := Bdiv mode_NE s (f64_of_Z n).
Definition mean64 (s : f64) (n : Z) : f32 := narrow (over64 s n).
(** [accum_x2 += static_cast<double>(x) * x] 433, 678. *)
Definition square64 (x : f32) : f64 := Bmult mode_NE (widen x) (widen x).
Definition add_both (s : f64 * f64) (x : f32) : f64 * f64 := (add64 (fst s) x, Bplus mode_NE (snd s) (square64 x)).
(** [std::sqrt(accum_x2 / n - mean*mean)] 457-458, 703-705. *)
Definition variance64 (s : f64 * f64) (n : Z) : f64 :=
  let m := over64 (fst s) n in Bminus mode_NE (over64 (snd s) n) (Bmult mode_NE m m).
Definition deviation64 (s : f64 * f64) (n : Z) : f32 := narrow (Bsqrt mode_NE (variance64 s n)).
(** [scale = 1.0 / n] 283; [accum_x += x * scale; accum_x2 += static_cast<double>(x) * x * scale] 299-300, 554-555. *)
Definition scale64 (n : Z) : f64 := Bdiv mode_NE (f64_of_Z 1) (f64_of_Z n).
Definition add_scaled (n : Z) (s : f64) (x : f32) : f64 := Bplus mode_NE s (Bmult mode_NE (widen x) (scale64 n)).
Definition add_scaled_square (n : Z) (s : f64) (x : f32) : f64 := Bplus mode_NE s (Bmult mode_NE (square64 x) (scale64 n)).
(** [std::max(0., d)] is [0 < d ? d : 0], 319. *)
Definition at_least_zero (d : f64) : f64 := if match Bcompare (B754_zero false) d with Some Lt => true | _ => false end then d else B754_zero false.
Definition scaled_deviation (s1 s2 : f64) : f32 := narrow (Bsqrt mode_NE (at_least_zero (Bminus mode_NE s2 (Bmult mode_NE s1 s1)))).

Section Stats.
  Variable junk : Z -> f32.
  Variable l : layout.
  Variable m : mem f32.
  Variable axes : list Z.
  Notation zero := (B754_zero false : f64).
  Definition float_sum : outcome (layout * mem f32) := nd_sum (B754_zero false : f32) (Bplus mode_NE) junk l m axes.
  Definition float_mean : outcome (layout * mem f32) := nd_mean zero add64 mean64 junk l m axes.
  Definition float_masked_mean (lm : layout) (mask : mem Z) : outcome (layout * mem f32) := nd_masked zero add64 mean64 junk l m lm mask axes.
  Definition float_masked_stddev (lm : layout) (mask : mem Z) : outcome (layout * mem f32) := nd_masked (zero, zero) add_both deviation64 junk l m lm mask axes.
  Definition float_count : Z := zprod (map (getz (l_shape l)) (match axes with [] => zrange (ndim l) | _ => axes end)).
  Definition float_stddev : outcome (layout * mem f32) := nd_stddev zero (add_scaled float_count) (add_scaled_square float_count) scaled_deviation junk l m axes.
  (** [masked_mean_stddev] 608-744, [mean_stddev] 494-606: both results at once. *)
  Definition float_masked_both (junk2 : Z -> f32 * f32) (lm : layout) (mask : mem Z) : outcome (layout * mem (f32 * f32)) :=
    nd_masked (zero, zero) add_both (fun s n => (mean64 (fst s) n, deviation64 s n)) junk2 l m lm mask axes.
  Definition float_both (junk2 : Z -> f32 * f32) : outcome (layout * mem (f32 * f32)) :=
    nd_stddev zero (add_scaled float_count) (add_scaled_square float_count) (fun s1 s2 => (narrow s1, scaled_deviation s1 s2)) junk2 l m axes.
End Stats.
