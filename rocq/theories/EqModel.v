(** The program bliss_generate_channelizer_response and what equalization does with its file, in IEEE single precision on the CPU.
    /repo/bliss/bliss_generate_channelizer_response.cpp 18-24, 61-64; bliss/preprocess/passband_static_equalize.cpp 74-107 (FreqModel), 109-120;
    bland/bland/ops/cpu/ops_cpu.cpp 19-72 (NdModel).  No contraction to fused multiply-add is assumed.  Definitions only. *)
From Verif Require Export NdModel FreqModel FlagModel KurtModel DriftFloat.
From Coq Require Import String.
Local Open Scope Z_scope.

(** [x > y] on floats: false for NaN. *)
Definition gt_f32 (x y : f32) : bool := lt32 y x.
Section Response.
  (** The transform, the filter design, the value [std::numeric_limits<float>::lowest()] and how a float is stored. *)
  Variables (rfft : list f32 -> list (f32 * f32)) (firdes : Z -> Z -> list f32) (lowest : f32) (enc : f32 -> list Z) (dec : list Z -> f32).
  Definition response32 := gen_response (f32_of_Z 0) lowest (Bplus mode_NE) (Bmult mode_NE) (Bdiv mode_NE) gt_f32 rfft firdes.
  (** The options and their defaults 18-23. *)
  Record resp_options := RespOptions { ro_out : string; ro_coarse : Z; ro_device : string; ro_fine : Z; ro_taps : Z }.
  Definition resp_defaults : resp_options := RespOptions "channelizer_response.f32" 256 "cpu" (2 ^ 20) 12.
  (** 61-64: the file written, its name and its bytes. *)
  Definition response_program slack junk (o : resp_options) : outcome (string * list Z) :=
    let! h := response32 slack junk (ro_fine o) (ro_coarse o) (ro_taps o) in
    let! vs := write_to_file (fst h) (snd h) in
    Ok (ro_out o, List.concat (map enc vs)).
  (** [equalize_passband_filter(coarse_channel, path)] 117-120 with 109-115: the response that the call reads ... *)
  Definition equalize_call (bytes : list Z) : outcome (arr f32) :=
    let! es := read_from_file 4 bytes in Ok (dense [zlen es], map dec es).
  (** ... and the data when they are first read. *)
  Definition equalized_data junk (data h : arr f32) : outcome (arr f32) := equalize ops32 junk data h.
End Response.
