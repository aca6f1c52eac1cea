(** Floating-point part of drift integration: slopes and rounded offsets.
    Paths relative to /repo/bliss/drift_search.  Bit-exact binary32/binary64 arithmetic of Flocq
    (the single-NaN IEEE 754 formalisation). *)
From Verif Require Export DriftModel.
From Flocq Require Export Core BinarySingleNaN.
Local Open Scope Z_scope.

#[export] Instance prec24 : Prec_gt_0 24. Proof. reflexivity. Defined.
#[export] Instance emax128 : Prec_lt_emax 24 128. Proof. reflexivity. Defined.
#[export] Instance prec53 : Prec_gt_0 53. Proof. reflexivity. Defined.
#[export] Instance emax1024 : Prec_lt_emax 53 1024. Proof. reflexivity. Defined.

Definition f32 := binary_float 24 128.
Definition f64 := binary_float 53 1024.

(** Integer to float conversion, round to nearest even. *)
Definition f32_of_Z (z : Z) : f32 := binary_normalize 24 128 prec24 emax128 mode_NE z 0 false.
Definition f64_of_Z (z : Z) : f64 := binary_normalize 53 1024 prec53 emax1024 mode_NE z 0 false.

(** float to double and double to float. *)
Definition widen (x : f32) : f64 :=
  match x with
  | B754_zero s => B754_zero s
  | B754_infinity s => B754_infinity s
  | B754_nan => B754_nan
  | B754_finite s m e _ => binary_normalize 53 1024 prec53 emax1024 mode_NE (cond_Zopp s (Zpos m)) e s
  end.
Definition narrow (x : f64) : f32 :=
  match x with
  | B754_zero s => B754_zero s
  | B754_infinity s => B754_infinity s
  | B754_nan => B754_nan
  | B754_finite s m e _ => binary_normalize 24 128 prec24 emax128 mode_NE (cond_Zopp s (Zpos m)) e s
  end.

(** Magnitude of [std::round]: nearest integer, halfway cases away from zero. *)
Definition round_mag (m : positive) (e : Z) : Z :=
  if 0 <=? e then Zpos m * 2 ^ e else (Zpos m + 2 ^ (- e - 1)) / 2 ^ (- e).

(** [int x = std::round(v)]: rounding is exact, the conversion of a value outside int is undefined. *)
Definition round_to_int {p q} (x : binary_float p q) : outcome Z :=
  match x with
  | B754_zero _ => Ok 0
  | B754_infinity _ | B754_nan => UB
  | B754_finite s m e _ =>
    let z := cond_Zopp s (round_mag m e) in
    if (- 2 ^ 31 <=? z) && (z <? 2 ^ 31) then Ok z else UB
  end.

(** [m >= 0]. *)
Definition ge_zero {p q} (x : binary_float p q) : bool :=
  match x with
  | B754_zero _ => true
  | B754_infinity s => negb s
  | B754_nan => false
  | B754_finite s _ _ _ => negb s
  end.

(** Drift rate: core/include/core/frequency_drift_plane.hpp 20-30 without drift_rate_Hz_per_sec. *)
Record drift_rate := DriftRate { dr_index : Z; dr_slope : f64; dr_span : Z; dr_desmear : Z }.

(** [compute_drifts] integrate_drifts.cpp 16-48.
    [smear]: line 36, std::round(std::abs(m)) on float; line 40 std::max(1.0F, smeared) and the
    conversion to int (line 40), undefined outside int; std::max(1.0F, NaN) is 1.0F. *)
Definition slope (time_steps span : Z) : f32 := Bdiv mode_NE (f32_of_Z span) (f32_of_Z (time_steps - 1)).
Definition desmear_width (m : f32) : outcome Z :=
  match m with
  | B754_nan => Ok 1
  | _ => let! s := round_to_int (Babs m) in Ok (Z.max 1 s)
  end.
Definition one_drift (time_steps : Z) (desmear : bool) (index drift_channels : Z) : outcome drift_rate :=
  let m := slope time_steps drift_channels in
  let! w := if desmear then desmear_width m else Ok 1 in
  Ok (DriftRate index (widen m) (to_int32 drift_channels) w).

Fixpoint mapM {A B} (f : A -> outcome B) (l : list A) : outcome (list B) :=
  match l with
  | [] => Ok []
  | x :: l' => let! y := f x in let! ys := mapM f l' in Ok (y :: ys)
  end.

(** Line 20: truncating 64-bit division, undefined for step 0; line 22: reserve with a negative
    number converts to a huge size and throws std::length_error (a std::logic_error).  64-bit overflow of
    high-low and of low+i*step is not modelled. *)
Definition compute_drifts (time_steps low high step : Z) (desmear : bool) : outcome (list drift_rate) :=
  if step =? 0 then UB else
  let n := Z.quot (high - low) step in
  if n <? 0 then Throw LogicError else
  mapM (fun i => one_drift time_steps desmear i (low + i * step)) (zrange n).

(** [int freq_offset_at_time = std::round(m * t)], kernels/drift_integration_cpu.cpp 57 and
    kernels/drift_integration_bland.cpp 54: double product. *)
Definition cpu_offset (m : f64) (t : Z) : outcome Z := round_to_int (Bmult mode_NE m (f64_of_Z t)).
(** [int freq_offset_at_time = lroundf(m * t)], kernels/drift_integration_cuda.cu 65: the double
    product is converted to float first. *)
Definition cuda_offset (m : f64) (t : Z) : outcome Z := round_to_int (narrow (Bmult mode_NE m (f64_of_Z t))).

(** The rate as seen by a kernel that evaluates its offset with [off]. *)
Definition kernel_rate (off : f64 -> Z -> outcome Z) (T : Z) (d : drift_rate) : outcome rate :=
  let! offs := mapM (off (dr_slope d)) (zrange T) in
  Ok (Rate (ge_zero (dr_slope d)) (fun t => nth (Z.to_nat t) offs 0) (dr_span d) (dr_desmear d)).

(** [bliss::integrate_drifts(coarse_channel)] integrate_drifts.cpp 51-74 on the CPU device:
    drifts.front() and back() are undefined on an empty list (lines 56-58).
    Simplification: all rates are evaluated before the kernel instead of inside its loop. *)
Definition search_drifts_cpu {F} (fzero : F) fadd fdivz (ls lm : layout) (spec : mem F) (mask : mem Z)
    (low high step : Z) (desmear : bool) : outcome (planes F) :=
  match l_shape ls with
  | [T; N] =>
    let! drifts := compute_drifts T low high step desmear in
    match drifts with
    | [] => UB
    | _ => let! rates := mapM (kernel_rate cpu_offset T) drifts in
           integrate_cpu fzero fadd fdivz ls lm spec mask rates
    end
  | _ => UB
  end.
