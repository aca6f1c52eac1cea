(** Model of the flaggers (bliss/flaggers), the spectral kurtosis and noise estimators (bliss/estimators), the two preprocessing steps
    on a coarse channel (bliss/preprocess) and the noise statistics (bliss/core/noise_power.cpp).

    An array is a layout with its buffer.  CPU kernels; the GPU ones are not modelled here.  Data elements and their arithmetic are a
    parameter (numops of ScanModel): double for float data, the reals for exact statements. *)
From Verif Require Export RedModel ScanModel.
Local Open Scope Z_scope.
Local Open Scope list_scope.

Definition arr (A : Type) : Type := layout * mem A.

(** Values of flag_values.hpp 9-19. *)
Definition FILTER_ROLLOFF := 1.
Definition LOW_SK := 2.
Definition HIGH_SK := 4.
Definition MAGNITUDE := 16.
Definition SIGMA_CLIP := 32.

(** uint8 results of the element operations: static_cast<uint8_t>(a + b), arithmetic_cpu_impl.hpp 17, 39. *)
Definition u8_add (a b : Z) : Z := to_uint8 (a + b).
Definition u8_mul (a b : Z) : Z := to_uint8 (a * b).
Definition u8_of_bool (b : bool) : Z := if b then 1 else 0.

(** The uint8 result of comparing an array with a scalar, comparison_cpu.cpp 23-25. *)
Definition compare_scalar {A S} (cmp : A -> S -> bool) junk (a : arr A) (s : S) : outcome (arr Z) :=
  array_scalar_op (fun x t => u8_of_bool (cmp x t)) junk (fst a) (snd a) s.
Definition scale_flags junk (a : arr Z) (k : Z) : outcome (arr Z) := array_scalar_op u8_mul junk (fst a) (snd a) k.
Definition add_flags junk (a b : arr Z) : outcome (arr Z) := expand_op u8_add junk (fst a) (fst b) (snd a) (snd b).

(** ** flaggers/magnitude.cpp *)
(** [flag_magnitude(ndarray, threshold)] 9-12. *)
Definition flag_magnitude_array {A} (gt : A -> A -> bool) junk (data : arr A) (threshold : A) : outcome (arr Z) :=
  let! c := compare_scalar gt junk data threshold in scale_flags junk c MAGNITUDE.
(** [flag_magnitude(coarse_channel, threshold)] 19-26: the new mask.  The overload without threshold (28-34) calls it with
    mean + 10*stddev. *)
Definition flag_magnitude {A} (gt : A -> A -> bool) junk (data : arr A) (mask : arr Z) (threshold : A) : outcome (arr Z) :=
  let! m := flag_magnitude_array gt junk data threshold in add_flags junk mask m.

(** ** flaggers/filter_rolloff.cpp *)
(** One evaluation of the deferred mask (15-21).  [n] is round(nchans * rolloff_width).  [slice + 1] makes a new array; assigning it to a
    slice copies it into the captured mask. *)
Definition add_to_slice junk (l : layout) (m : mem Z) (k : Z) : outcome (mem Z) :=
  let! t := array_scalar_op u8_add junk l m k in assign_slice (fun x : Z => x) l (fst t) m (snd t).
Definition rolloff_once junk (n : Z) (mask : arr Z) : outcome (arr Z) :=
  let! nchans := zget (l_shape (fst mask)) 1 in
  let! left := slice1 (fst mask) 1 0 n 1 in
  let! m1 := add_to_slice junk left (snd mask) FILTER_ROLLOFF in
  let! right := slice1 (fst mask) 1 (- n) nchans 1 in
  let! m2 := add_to_slice junk right m1 FILTER_ROLLOFF in
  Ok (fst mask, m2).
(** Reading the mask of the flagged channel k times: the callable is run on every read (default policy), on the same captured array. *)
Fixpoint rolloff_reads junk (n : Z) (k : nat) (mask : arr Z) : outcome (arr Z) :=
  match k with O => Ok mask | S k' => let! m := rolloff_reads junk n k' mask in rolloff_once junk n m end.

(** ** estimators/spectral_kurtosis.cpp 9-15 *)
Section Kurtosis.
Context {F : Type} (O : numops F).
(** [bland::square]: a new array of the same shape, elementwise_square_op. *)
Definition nd_square (junk : Z -> F) (a : arr F) : outcome (arr F) :=
  let! m := unary_op (fun x => o_mul O x x) (dense (l_shape (fst a))) (fst a) (fresh junk (l_shape (fst a))) (snd a) in
  Ok (dense (l_shape (fst a)), m).
Definition column_sum (junk : Z -> F) (a : arr F) : outcome (arr F) := nd_sum (o_of O 0) (o_add O) junk (fst a) (snd a) [0].
(** (M*N*d + 1) / (M - 1) with an int32 product M*N. *)
Definition sk_factor (N M : Z) (d : F) : outcome F :=
  if (- 2 ^ 31 <=? M * N) && (M * N <? 2 ^ 31)
  then Ok (o_div O (o_add O (o_mul O (o_of O (M * N)) d) (o_of O 1)) (o_of O (M - 1)))
  else UB.
Definition spectral_kurtosis junk (data : arr F) (N M : Z) (d : F) : outcome (arr F) :=
  let! s := column_sum junk data in
  let! s1 := nd_square junk s in
  let! q := nd_square junk data in
  let! s2 := column_sum junk q in
  let! r := expand_op (o_div O) junk (fst s2) (fst s1) (snd s2) (snd s1) in
  let! k := sk_factor N M d in
  let! a := array_scalar_op (o_mul O) junk (fst r) (snd r) (o_of O M) in
  let! b := array_scalar_op (o_sub O) junk (fst a) (snd a) (o_of O 1) in
  array_scalar_op (o_mul O) junk (fst b) (snd b) k.

(** ** flaggers/spectral_kurtosis.cpp 13-27 and 29-47 *)
Definition flag_sk_array junk jz (data : arr F) (N M : Z) (d lower upper : F) : outcome (arr Z) :=
  let! sk := spectral_kurtosis junk data N M d in
  let! lo := compare_scalar (fun x t => o_lt O x t) jz sk lower in
  let! lo2 := scale_flags jz lo LOW_SK in
  let! hi := compare_scalar (fun x t => o_lt O t x) jz sk upper in
  let! hi2 := scale_flags jz hi HIGH_SK in
  let! rfi := add_flags jz lo2 hi2 in
  let! l := unsqueeze (fst rfi) 0 in
  Ok (l, snd rfi).
Definition flag_sk junk jz (data : arr F) (mask : arr Z) (N M : Z) (d lower upper : F) : outcome (arr Z) :=
  let! rfi := flag_sk_array junk jz data N M d lower upper in add_flags jz mask rfi.
End Kurtosis.

(** ** flaggers/sigmaclip.cpp 11-33 *)
(** The element types the dispatcher knows (internal/dispatcher.hpp 61-107). *)
Inductive dtype := F32 | I32 | U8 | U32.
(** statistical_cpu.cpp 637: refused when the code is not uint8's and the width is not 8. *)
Definition mask_refused (t : dtype) : bool := match t with F32 | I32 => true | U8 | U32 => false end.
Section Clip.
Context {A D : Type} (zero : D) (add : D -> A -> D) (fin : D -> Z -> A * A).
(** [masked_mean_stddev] statistical_cpu.cpp 608-744 with its type checks: the elements are read as float whatever their type. *)
Definition masked_mean_stddev junk (ta tm : dtype) (a : arr A) (mask : arr Z) : outcome (arr (A * A)) :=
  if mask_refused tm then Throw RuntimeError else
  match ta with
  | F32 => nd_masked zero add fin junk (fst a) (snd a) (fst mask) (snd mask) []
  | _ => if zprod (l_shape (fst a)) =? 0 then Throw RuntimeError else UB
  end.
(** 14-17: rfi is an array of zeros of the data's type, and is used as the mask.  The rest of the function ([clip], 18-33) is a
    parameter: nothing below depends on it. *)
Definition flag_sigmaclip_array junk (t : dtype) (data : arr A) (clip : arr (A * A) -> outcome (arr Z)) : outcome (arr Z) :=
  let sh := l_shape (fst data) in
  let! ms := masked_mean_stddev junk t t data (dense sh, map (fun _ => 0) (zrange (zprod sh))) in clip ms.
End Clip.

(** ** estimators/noise_estimate.cpp *)
Inductive noise_method := Stddev | Mad.
Section Noise.
Context {A D : Type} (zero : D) (add : D -> A -> D) (fin : D -> Z -> A * A) (acc1 acc2 : D -> A -> D) (fin2 : D -> D -> A * A).
(** [correct_mask] 104-131. *)
Definition correct_mask jz (mask : arr Z) : outcome unit :=
  let! e := compare_scalar Z.eqb jz mask 0 in
  let! n := count_true (fun x => negb (x =? 0)) (fst e) (snd e) in
  if n =? 0 then Throw RuntimeError else Ok tt.
(** [estimate_noise_power(coarse_channel, options)] 137-173: (noise floor, noise power) as one array of pairs; None: never set. *)
Definition estimate_noise junk jz (masked : bool) (m : noise_method) (data : arr A) (mask : arr Z) : outcome (option (arr (A * A))) :=
  if masked then
    let! _ := correct_mask jz mask in
    match m with
    | Mad => Throw RuntimeError
    | Stddev => omap Some (nd_masked zero add fin junk (fst data) (snd data) (fst mask) (snd mask) [])
    end
  else match m with
    | Mad => Ok None
    | Stddev => omap Some (nd_stddev zero acc1 acc2 fin2 junk (fst data) (snd data) [])
    end.
End Noise.
(** noise_power.cpp 11-27: what the accessors return for stored floor and power. *)
Definition noise_power {F} (s : F * F) : F := snd s.
Definition noise_amplitude {F} (sqrt : F -> F) (s : F * F) : F := sqrt (snd s).
Definition noise_floor {F} (s : F * F) : F := fst s.

(** ** preprocess *)
(** [normalize(coarse_channel)] normalize.cpp 15-21. *)
Definition normalize {F} (O : numops F) lowest junk (data : arr F) : outcome (arr F) :=
  let! mx := nd_max lowest (fun a b => o_lt O b a) junk (fst data) (snd data) [] in
  expand_op (o_div O) junk (fst data) (fst mx) (snd data) (snd mx).
(** [equalize_passband_filter(coarse_channel, h)] passband_static_equalize.cpp 117-123: the deferred array. *)
Definition equalize {F} (O : numops F) junk (data h : arr F) : outcome (arr F) :=
  expand_op (o_div O) junk (fst data) (fst h) (snd data) (snd h).
(** [hamming_window], [sinc_lpf] and [firdes] 16-72, over the reals with a window and a prototype function: tap n of the filter. *)
Definition fir_tap {F} (O : numops F) (cosf sinc : F -> F) (two_pi a0 a1 fc : F) (taps n : Z) : F :=
  let w := o_sub O a0 (o_mul O a1 (cosf (o_div O (o_mul O two_pi (o_of O n)) (o_of O (taps - 1))))) in
  let t := o_sub O (o_of O n) (o_div O (o_of O (taps - 1)) (o_of O 2)) in
  o_mul O (sinc (o_mul O fc t)) w.
