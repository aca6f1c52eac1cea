(** The program bliss_find_hits from its scans to its output: /repo/bliss/bliss_find_hits.cpp 110-163, with the overloads for scans of the functions it calls
    (preprocess/normalize.cpp 24-27, flaggers/filter_rolloff.cpp 29-34, spectral_kurtosis.cpp 47-52, sigmaclip.cpp 50-55, estimators/noise_estimate.cpp 171-178,
    drift_search/integrate_drifts.cpp 76-79, hit_search.cpp 60-67, filter_hits.cpp 55-61), each of which registers one transform on every scan.
    Normalization and sigma clipping are the model's functions; the other steps are arbitrary.  Definitions only. *)
From Verif Require Export NdModel RedModel FlagModel KurtModel LaxModel ScanModel FileModel.
From Coq Require Import String.
Local Open Scope Z_scope.

(** What a processed channel holds: its data and mask, evaluated whenever they are read (core/coarse_channel.cpp 203-229), and the rest. *)
Record contents (R : Type) := Contents { k_data : outcome (arr f32); k_mask : outcome (arr Z); k_rest : R }.
Arguments Contents {R}. Arguments k_data {R}. Arguments k_mask {R}. Arguments k_rest {R}.
Section Program.
  Context {F R : Type} (O : numops F) (valid : Z -> bool).
  Notation channel := (chan F (contents R)).
  (** Reading a window of the file, the mask made for it, and what else a channel holds at first. *)
  Variables (read : list Z -> list Z -> outcome (arr f32)) (new_mask : list Z -> list Z -> outcome (arr Z)) (r0 : R).
  Definition data_of (c : channel) : outcome (arr f32) := match c_body c with Window o n => read o n | Processed p => k_data p end.
  Definition mask_of (c : channel) : outcome (arr Z) := match c_body c with Window o n => new_mask o n | Processed p => k_mask p end.
  Definition rest_of (c : channel) : R := match c_body c with Window _ _ => r0 | Processed p => k_rest p end.
  Definition with_body (c : channel) p : channel := Chan (Processed p) (c_fch1 c) (c_foff c) (c_nchans c) (c_steps c) (c_about c) (c_number c) (c_device c).
  (** core/coarse_channel.cpp 209-229. *)
  Definition set_data (c : channel) d := with_body c (Contents d (mask_of c) (rest_of c)).
  Definition set_mask (c : channel) m := with_body c (Contents (data_of c) m (rest_of c)).
  Definition is_cpu (d : dev) : bool := match dev_ty d with DevCPU => true | _ => false end.

  (** The words behind shapes, the lowest float, fresh memory; the steps on a GPU; the rest of sigma clipping. *)
  Variables (xa xb : Z -> Z) (lowest : f32) (junk : Z -> f32).
  Variables (gpu_normalize : arr f32 -> outcome (arr f32)) (gpu_sigmaclip : arr f32 -> outcome (arr Z)).
  Variables (zero : f64) (add : f64 -> f32 -> f64) (fin : f64 -> Z -> f32 * f32) (jm : Z -> f32 * f32) (clip : arr (f32 * f32) -> outcome (arr Z)) (jz : Z -> Z).
  (** normalize.cpp 15-21. *)
  Definition normalize_step (c : channel) : outcome channel :=
    let! d := data_of c in
    let! n := if is_cpu (c_device c) then normalize_lax xa xb ops32 lowest junk d else gpu_normalize d in
    Ok (set_data c (Ok n)).
  (** A flagger: a new mask, now or when it is read. *)
  Definition flag_step (f : channel -> outcome (outcome (arr Z))) (c : channel) : outcome channel := let! m := f c in Ok (set_mask c m).
  (** sigmaclip.cpp 35-48: data and mask are read at once. *)
  Definition sigmaclip_step (c : channel) : outcome channel :=
    let! d := data_of c in
    let! m := mask_of c in
    let! rfi := if is_cpu (c_device c) then flag_sigmaclip_array zero add fin jm F32 d clip else gpu_sigmaclip d in
    let! sum := expand_op_lax xa xb (fun x y => (x + y) mod 256) jz (fst m) (fst rfi) (snd m) (snd rfi) in
    Ok (set_mask c (Ok sum)).
  (** bliss_find_hits.cpp 118-137: what every scan gets registered.  With a response file ([taps]) the roll-off is not flagged; equalize_passband_filter registers nothing (C64). *)
  Variables (rolloff kurtosis : channel -> outcome (outcome (arr Z))) (noise integrate search keep : channel -> outcome channel).
  Definition pipeline (taps : bool) : list (channel -> outcome channel) :=
    normalize_step :: (if taps then [] else [flag_step rolloff]) ++ [flag_step kurtosis; sigmaclip_step; noise; integrate; search; keep].
  Definition prepare (taps : bool) (s : scan F (contents R)) : scan F (contents R) := fold_left (fun s f => add_transform s f) (pipeline taps) s.
  (** 139-163: the loop over the scans, each with the channels it has already made. *)
  Variables (hits_of : channel -> outcome (list hit)) (save : string -> string -> scan F (contents R) * heap F (contents R) -> outcome (list Z)) (name : string -> string).
  Definition report inputs (scans : list (scan F (contents R) * heap F (contents R))) (path fmt : string) (fs : files) :=
    cli_loop (fun sh => fst (scan_hits O valid hits_of (fst sh) (snd sh))) save name inputs scans path fmt fs [].
  Definition program taps inputs (scans : list (scan F (contents R) * heap F (contents R))) path fmt fs :=
    report inputs (map (fun sh => (prepare taps (fst sh), snd sh)) scans) path fmt fs.
End Program.
