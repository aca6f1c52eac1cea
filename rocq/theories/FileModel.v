(** Model of the hit, event and scan files in Cap'n Proto form and of the choice of file format.
    Paths relative to /repo/bliss/file_types.  Definitions only.
    Messages that hold one hit are modelled down to their bytes, following the Cap'n Proto wire format for the schema hit.capnp: the field
    offsets are the ones that its layout rules give.  A file is its list of bytes. *)
From Verif Require Export ScanModel.
From Flocq Require Import BinarySingleNaN.
Local Open Scope Z_scope.
Local Open Scope list_scope.

(** ** Bits of IEEE numbers.  [pay]: payload of the NaN written. *)
Section Bits.
Context (prec emax : Z) {Hp : FLX.Prec_gt_0 prec} {He : Prec_lt_emax prec emax}.
Definition sign_bit (s : bool) : Z := if s then 2 ^ (prec - 1) * (2 * emax) else 0.
Definition low_exp : Z := 3 - emax - prec.
Definition bits_of (pay : Z) (x : binary_float prec emax) : Z :=
  match x with
  | B754_zero s => sign_bit s
  | B754_infinity s => sign_bit s + (2 * emax - 1) * 2 ^ (prec - 1)
  | B754_nan => (2 * emax - 1) * 2 ^ (prec - 1) + pay
  | B754_finite s m e _ =>
    sign_bit s + (if Zpos m <? 2 ^ (prec - 1) then Zpos m else (e - low_exp + 1) * 2 ^ (prec - 1) + (Zpos m - 2 ^ (prec - 1)))
  end.
Definition of_bits (z : Z) : binary_float prec emax :=
  let s := 2 ^ (prec - 1) * (2 * emax) <=? z in
  let r := z mod (2 ^ (prec - 1) * (2 * emax)) in
  let e := r / 2 ^ (prec - 1) in
  let m := r mod 2 ^ (prec - 1) in
  if e =? 2 * emax - 1 then (if m =? 0 then B754_infinity s else B754_nan)
  else if e =? 0 then binary_normalize prec emax Hp He mode_NE (cond_Zopp s m) low_exp s
  else binary_normalize prec emax Hp He mode_NE (cond_Zopp s (m + 2 ^ (prec - 1))) (e - 1 + low_exp) s.
End Bits.
Definition bits32 (pay : Z) (x : f32) : Z := bits_of 24 128 pay x.
Definition bits64 (pay : Z) (x : f64) : Z := bits_of 53 1024 pay x.
Definition of_bits32 (z : Z) : f32 := of_bits 24 128 (Hp := prec24) (He := emax128) z.
Definition of_bits64 (z : Z) : f64 := of_bits 53 1024 (Hp := prec53) (He := emax1024) z.

(** ** Signals: hit.capnp 10-54 *)
Record signal := Signal {
  g_freq : f64; g_index : Z; g_dsteps : Z; g_drift : f64; g_dindex : Z; g_snr : f32; g_coarse : Z; g_beam : Z; g_nsteps : Z;
  g_power : f32; g_ipower : f32; g_start : f32; g_dur : f32; g_band : f32; g_bins : f32 }.

(** bliss_hit_to_capnp_signal_message, detail/cpnp_hit_builder.cpp 8-29: the setters take the types of the schema. *)
Definition to_signal (h : hit) : signal :=
  {| g_freq := h_freq h; g_index := to_int32 (h_index h); g_dsteps := to_int32 (h_steps h); g_drift := h_drift h;
     g_dindex := to_int32 (h_rate h); g_snr := h_snr h; g_coarse := 0; g_beam := 0; g_nsteps := to_int32 (h_steps h);
     g_power := narrow (h_power h); g_ipower := narrow (h_power h); g_start := narrow (h_time h); g_dur := narrow (h_dur h);
     g_band := h_band h; g_bins := f32_of_Z (h_bins h) |}.
(** capnp_signal_message_to_bliss_hit 31-53; a fresh hit has no flag counts and coarse channel 0 (core/include/core/hit.hpp 13-27). *)
Definition of_signal (g : signal) : outcome hit :=
  let! bins := trunc_to_int64 (g_bins g) in
  Ok {| h_index := g_index g; h_freq := g_freq g; h_time := widen (g_start g); h_dur := widen (g_dur g); h_rate := g_dindex g;
        h_drift := g_drift g; h_power := widen (g_power g); h_steps := g_nsteps g; h_snr := g_snr g; h_band := g_band g;
        h_bins := bins; h_rfi := []; h_coarse := 0 |}.

(** ** Bytes *)
(** [n] bytes of a number, least significant first, and the number of a list of bytes. *)
Fixpoint le (n : nat) (z : Z) : list Z := match n with O => [] | S n' => z mod 256 :: le n' (z / 256) end.
Fixpoint of_le (l : list Z) : Z := match l with [] => 0 | b :: l' => b + 256 * of_le l' end.
Definition u32 (z : Z) : Z := z mod 2 ^ 32.
Definition pack (lo hi : Z) : Z := lo + hi * 2 ^ 32.
Definition low32 (w : Z) : Z := w mod 2 ^ 32.
Definition high32 (w : Z) : Z := w / 2 ^ 32.

Section Wire.
Variables pay32 pay64 : Z.
(** The nine data words of a Signal. *)
Definition signal_words (g : signal) : list Z :=
  [ bits64 pay64 (g_freq g);
    pack (u32 (g_index g)) (u32 (g_dsteps g));
    bits64 pay64 (g_drift g);
    pack (bits32 pay32 (g_snr g)) (u32 (g_coarse g));
    pack (u32 (g_beam g)) (u32 (g_nsteps g));
    pack (bits32 pay32 (g_power g)) (bits32 pay32 (g_ipower g));
    pack (u32 (g_dindex g)) (bits32 pay32 (g_start g));
    pack (bits32 pay32 (g_dur g)) (bits32 pay32 (g_band g));
    bits32 pay32 (g_bins g) ].
(** Struct pointer: distance, data words, pointers. *)
Definition struct_ptr (off data ptrs : Z) : Z := 4 * (off mod 2 ^ 30) + data * 2 ^ 32 + ptrs * 2 ^ 48.
(** One message of cpnp_files.cpp 26-34 as writeMessageToFd emits it: the segment table (one segment of 12 words), the root pointer, the
    Hit (two pointers: signal, filterbank unset) and the Signal. *)
Definition message_words (g : signal) : list Z :=
  [ pack 0 12; struct_ptr 0 0 2; struct_ptr 1 9 0; 0 ] ++ signal_words g.
Definition message (g : signal) : list Z := flat_map (le 8) (message_words g).
(** write_hits_to_capnp_file 23-36: the file is truncated first (detail/raii_file_helpers.cpp 15). *)
Definition hits_file (hs : list hit) : list Z := flat_map (fun h => message (to_signal h)) hs.
End Wire.

(** The fields of a data section; words beyond its end read as zero. *)
Definition word (l : list Z) (i : nat) : Z := nth i l 0.
Definition signal_of_words (d : list Z) : signal :=
  {| g_freq := of_bits64 (word d 0); g_index := to_int32 (low32 (word d 1)); g_dsteps := to_int32 (high32 (word d 1));
     g_drift := of_bits64 (word d 2); g_snr := of_bits32 (low32 (word d 3)); g_coarse := to_int32 (high32 (word d 3));
     g_beam := to_int32 (low32 (word d 4)); g_nsteps := to_int32 (high32 (word d 4));
     g_power := of_bits32 (low32 (word d 5)); g_ipower := of_bits32 (high32 (word d 5));
     g_dindex := to_int32 (low32 (word d 6)); g_start := of_bits32 (high32 (word d 6));
     g_dur := of_bits32 (low32 (word d 7)); g_band := of_bits32 (high32 (word d 7)); g_bins := of_bits32 (low32 (word d 8)) |}.

(** Segments announced by the first four bytes of a message. *)
Definition segments (bytes : list Z) : Z := (of_le (firstn 4 bytes) + 1) mod 2 ^ 32.

(** Reading.  [None] is a kj::Exception.  [other]: what the library makes of messages with several segments or other kinds of pointers,
    which the writers of this file never produce. *)
Section Reader.
Variable other : list Z -> option (signal * list Z).
(** Position of the target, data words and pointers of the struct pointer at [pos]; [inl tt] when it is null. *)
Definition follow (seg : list Z) (pos : Z) : option (unit + Z * Z * Z) :=
  match znth seg pos with
  | None => None
  | Some p =>
    if p =? 0 then Some (inl tt) else
    let off := (p / 4) mod 2 ^ 30 in
    let target := pos + 1 + (if off <? 2 ^ 29 then off else off - 2 ^ 30) in
    let data := (p / 2 ^ 32) mod 2 ^ 16 in
    let ptrs := p / 2 ^ 48 in
    if (0 <=? target) && (target + data + ptrs <=? zlen seg) then Some (inr (target, data, ptrs)) else None
  end.
Definition is_struct (seg : list Z) (pos : Z) : bool := match znth seg pos with Some p => p mod 4 =? 0 | None => true end.
Definition empty_signal : signal := signal_of_words [].
(** getRoot<Hit>().getSignal() in a single segment. *)
Definition signal_of_segment (seg : list Z) : option signal :=
  match follow seg 0 with
  | None => None
  | Some (inl _) => Some empty_signal
  | Some (inr (t, data, ptrs)) =>
    if ptrs =? 0 then Some empty_signal else
    match follow seg (t + data) with
    | None => None
    | Some (inl _) => Some empty_signal
    | Some (inr (t', data', _)) => Some (signal_of_words (firstn (Z.to_nat data') (skipn (Z.to_nat t') seg)))
    end
  end.
Fixpoint words_of (n : nat) (bytes : list Z) : list Z :=
  match n with O => [] | S n' => of_le (firstn 8 bytes) :: words_of n' (skipn 8 bytes) end.
(** StreamFdMessageReader: the segment table, limits of 512 segments and of 8 Mi words, then the segment; a short read throws. *)
Definition plain (seg : list Z) : bool :=
  match follow seg 0 with
  | Some (inr (t, data, ptrs)) => is_struct seg 0 && ((ptrs =? 0) || is_struct seg (t + data))
  | _ => is_struct seg 0
  end.
Definition read_message (bytes : list Z) : option (signal * list Z) :=
  if zlen bytes <? 8 then None else
  let count := segments bytes in
  let size := of_le (firstn 4 (skipn 4 bytes)) in
  if 512 <=? count then None
  else if negb (count =? 1) then other bytes
  else if 8 * 2 ^ 20 <? size then None
  else if zlen bytes - 8 <? 8 * size then None
  else
    let seg := words_of (Z.to_nat size) (skipn 8 bytes) in
    if plain seg then
      match signal_of_segment seg with Some g => Some (g, skipn (Z.to_nat (8 + 8 * size)) bytes) | None => None end
    else other bytes.
(** The loop of read_hits_from_capnp_file 41-62.  [fuel]: every message has at least a table, so the number of bytes is enough. *)
Fixpoint read_signals (fuel : nat) (bytes : list Z) : list signal :=
  match fuel with
  | O => []
  | S fuel' => match read_message bytes with None => [] | Some (g, rest) => g :: read_signals fuel' rest end
  end.
Definition read_hits (bytes : list Z) : outcome (list hit) := each of_signal (read_signals (S (List.length bytes)) bytes).
End Reader.

(** ** Coarse channels and scans, detail/cpnp_hit_builder.cpp 52-170, at the level of message contents *)
(** hit.capnp 58-86, the fields that are set. *)
Record filterbank := Filterbank {
  b_source : string; b_fch1 : f64; b_foff : f64; b_tstart : f64; b_tsamp : f64; b_ra : f64; b_dec : f64;
  b_telescope : Z; b_nsteps : Z; b_nchans : Z }.
Definition zero64 : f64 := f64_of_Z 0.
Definition no_filterbank : filterbank := Filterbank "" zero64 zero64 zero64 zero64 zero64 zero64 0 0 0.
Record channel_msg := ChannelMsg { cm_md : filterbank; cm_hits : list signal }.
Record scan_msg := ScanMsg { sm_md : filterbank; sm_channels : list channel_msg }.
(** An element of a list of structs that was never set. *)
Definition no_channel : channel_msg := ChannelMsg no_filterbank [].

(** [std::optional::value]. *)
Definition value {A} (o : option A) : outcome A := match o with Some a => Ok a | None => Throw BadOptionalAccess end.

Section ScanFiles.
Context {P : Type} (valid : Z -> bool) (hits_of : chan f64 P -> outcome (list hit)) (hold : list hit -> P).

(** 52-80 *)
Definition channel_message (c : chan f64 P) : outcome channel_msg :=
  let a := c_about c in
  let! dej := value (a_dej a) in
  let! raj := value (a_raj a) in
  let! tel := value (a_telescope a) in
  let! hs := hits_of c in
  Ok (ChannelMsg (Filterbank (a_source a) (c_fch1 c) (c_foff c) (a_tstart a) (a_tsamp a) raj dej (to_int32 tel) (to_int32 (c_steps c))
                             (to_int32 (c_nchans c)))
                 (map to_signal hs)).
(** 139-146: channels that were never read stay unset. *)
Fixpoint channel_messages (s : scan f64 P) (h : heap f64 P) (is : list Z) (acc : list channel_msg)
  : outcome (list channel_msg) * (scan f64 P * heap f64 P) :=
  match is with
  | [] => (Ok acc, (s, h))
  | i :: is' =>
    and_then (peak_channel valid s h i) (fun oc s h =>
      match oc with
      | None => channel_messages s h is' (acc ++ [no_channel])
      | Some c =>
        match channel_message c with
        | Ok m => channel_messages s h is' (acc ++ [m])
        | Throw e => (Throw e, (s, h))
        | UB => (UB, (s, h))
        end
      end)
  end.
(** bliss_scan_to_capnp_scan 119-146.  initCoarseChannels of a negative count throws. *)
Definition scan_message (s : scan f64 P) (h : heap f64 P) : outcome scan_msg * (scan f64 P * heap f64 P) :=
  let a := s_about s in
  match (let! dej := value (a_dej a) in let! raj := value (a_raj a) in let! tel := value (a_telescope a) in Ok (dej, raj, tel)) with
  | Ok (dej, raj, tel) =>
    let n := to_int32 (s_num s) in
    if n <? 0 then (Throw OtherExn, (s, h)) else
    let r := channel_messages s h (zrange n) [] in
    (omap (ScanMsg (Filterbank (a_source a) (s_fch1 s) (s_foff s) (a_tstart a) (a_tsamp a) raj dej (to_int32 tel)
                               (to_int32 (s_steps s)) (to_int32 (s_nchans s)))) (fst r), snd r)
  | Throw e => (Throw e, (s, h))
  | UB => (UB, (s, h))
  end.

(** 82-117 *)
Definition channel_of_message (m : channel_msg) : outcome (chan f64 P) :=
  let! hs := each of_signal (cm_hits m) in
  let b := cm_md m in
  Ok (Chan (Processed (hold hs)) (b_fch1 b) (b_foff b) (b_nchans b) (b_nsteps b)
           (About (Some 0) (Some 32) (Some 0) (b_source b) (Some (b_dec b)) (Some (b_ra b)) (Some (b_telescope b)) (b_tsamp b) (b_tstart b)
                  1 (Some zero64) (Some zero64)) 0 (Dev DevCPU 0)).
(** capnp_scan_message_to_bliss_scan 148-170: numbered channels in a fresh heap, then the setters. *)
Definition scan_of_message (m : scan_msg) : outcome (scan f64 P * heap f64 P) :=
  let! cs := each channel_of_message (sm_channels m) in
  let! s := scan_of_channels (map (fun i => (Z.of_nat i, i)) (seq 0 (List.length cs))) cs in
  let b := sm_md m in
  let a := s_about s in
  Ok (Scan (s_cache s) (s_file s) (s_pipe s) (b_fch1 b) (b_foff b) (s_nchans s) (s_fine s) (s_num s) (s_start s) (s_steps s)
           (About (a_machine a) (a_nbits a) (a_nifs a) (b_source b) (Some (b_dec b)) (Some (b_ra b)) (a_telescope a) (b_tsamp b)
                  (b_tstart b) (a_type a) (a_az a) (a_za a)) (s_device s), cs).
(** 172-179: the scans of a target one after the other.  Peeking does not add channels to a scan, so only the channel objects are passed
    on. *)
Fixpoint scan_messages (ss : list (scan f64 P)) (h : heap f64 P) : outcome (list scan_msg) * heap f64 P :=
  match ss with
  | [] => (Ok [], h)
  | s :: ss' =>
    let r := scan_message s h in
    match fst r with
    | Ok m => let r' := scan_messages ss' (snd (snd r)) in (omap (cons m) (fst r'), snd r')
    | Throw e => (Throw e, snd (snd r))
    | UB => (UB, snd (snd r))
    end
  end.
(** 192-199 *)
Fixpoint target_messages (ts : list (target f64 P)) (h : heap f64 P) : outcome (list (list scan_msg)) * heap f64 P :=
  match ts with
  | [] => (Ok [], h)
  | t :: ts' =>
    let r := scan_messages (t_scans t) h in
    match fst r with
    | Ok m => let r' := target_messages ts' (snd r) in (omap (cons m) (fst r'), snd r')
    | Throw e => (Throw e, snd r)
    | UB => (UB, snd r)
    end
  end.
(** 181-190, 201-210: a scan that was read comes with its own channel objects; the target's name is not stored and stays empty. *)
Definition scans_of_messages (ms : list scan_msg) : outcome (list (scan f64 P * heap f64 P)) := each scan_of_message ms.
Definition targets_of_messages (ms : list (list scan_msg)) : outcome (list (list (scan f64 P * heap f64 P))) := each scans_of_messages ms.

(** read_scan_hits_from_capnp_file, cpnp_files.cpp 95-104.  [size]: words of the encoded message.  StreamFdMessageReader refuses messages
    above its default traversal limit of 8 Mi words with a kj::Exception, which nothing catches here. *)
Definition read_scan_file (size : scan_msg -> Z) (m : scan_msg) : outcome (scan f64 P * heap f64 P) :=
  if 8 * 2 ^ 20 <? size m then Throw OtherExn else scan_of_message m.
(** The same from the bytes of the file.  [dec]: the library's decoding of what follows an acceptable segment table. *)
Definition read_scan_bytes (dec : list Z -> option scan_msg) (size : scan_msg -> Z) (bytes : list Z) : outcome (scan f64 P * heap f64 P) :=
  if (zlen bytes <? 8) || (512 <=? segments bytes) then Throw OtherExn
  else match dec bytes with None => Throw OtherExn | Some m => read_scan_file size m end.
End ScanFiles.

(** ** Events, events_file.cpp 22-70: a message per event with its signals only *)
Definition event_signals (e : event) : list signal := map to_signal (ev_hits e).
(** A default constructed event (core/include/core/event.hpp 10-18) with the hits read. *)
Definition event_of_signals (gs : list signal) : outcome event :=
  omap (fun hs => Event hs zero64 (f32_of_Z 0) (f32_of_Z 0) (f32_of_Z 0) zero64 zero64 zero64) (each of_signal gs).

(** Words of the message: the root pointer, the Event, the list's tag and for each Hit two pointers, the Signal and the Filterbank that line
    31 initialises; pointers between segments are not counted. *)
Definition event_words (gs : list signal) : Z := 3 + 22 * zlen gs.
(** A stream of messages and the loop that reads until an exception; used for events with the library's encoding as a parameter. *)
Section Stream.
Context {M : Type} (dec : list Z -> option (M * list Z)).
Fixpoint read_stream (fuel : nat) (bytes : list Z) : list M :=
  match fuel with
  | O => []
  | S fuel' => match dec bytes with None => [] | Some (m, rest) => m :: read_stream fuel' rest end
  end.
End Stream.
Definition write_events (enc : list signal -> list Z) (es : list event) : list Z := flat_map (fun e => enc (event_signals e)) es.
Definition read_events (dec : list Z -> option (list signal * list Z)) (bytes : list Z) : outcome (list event) :=
  each event_of_signals (read_stream dec (S (List.length bytes)) bytes).

(** ** Choice of the format, hits_file.cpp 14-82 *)
Inductive format := Dat | Capnp.
Definition ends_with (str suffix : string) : bool :=
  (String.length suffix <=? String.length str)%nat &&
  String.eqb (substring (String.length str - String.length suffix) (String.length suffix) str) suffix.
(** write_scan_hits_to_file 50-70 *)
Definition write_format (path fmt : string) : format :=
  let fmt' := if String.eqb fmt "" then
                if ends_with path ".dat" then "dat"%string
                else if ends_with path ".capnp" || ends_with path ".cp" then "capnp"%string else fmt
              else fmt in
  if String.eqb fmt' "dat" then Dat else if String.eqb fmt' "capnp" then Capnp else Capnp.
(** read_scan_hits_from_file 72-82 and read_hits_from_file 39-48.  The message for an unknown format is printed with a replacement field
    but no argument, so fmt (checked at run time in C++17) throws its format_error, a runtime_error, before the throw that follows. *)
Definition read_format (fmt : string) : outcome format :=
  if String.eqb fmt "" || String.eqb fmt "capnp" then Ok Capnp
  else if String.eqb fmt "dat" || String.eqb fmt "turboseti" then Throw RuntimeError
  else Throw RuntimeError.

(** ** bliss_find_hits.cpp 136-170: the loop over the scans *)
(** A file system as the list of its files, newest first; writing replaces. *)
Definition files := list (string * list Z).
Fixpoint look (fs : files) (p : string) : option (list Z) :=
  match fs with [] => None | (q, b) :: fs' => if String.eqb p q then Some b else look fs' p end.
Section Cli.
Context {S : Type}.
(** [hits]: scan::hits, which may throw; [save path format s]: the bytes of the file, or the exception raised while writing (the file is
    then left empty: it was opened and truncated, detail/raii_file_helpers.cpp 8-22).  [name]: path.filename() with extension capnp. *)
Variables (hits : S -> outcome (list hit)) (save : string -> string -> S -> outcome (list Z)) (name : string -> string).
(** State: output_path, output_format, files and lines printed to stdout for hits.  The result [false] is the exception handler: a message
    and a normal return. *)
Fixpoint cli_loop (inputs : list string) (scans : list S) (path fmt : string) (fs : files) (printed : list (list hit))
  : outcome (bool * files * list (list hit)) :=
  match scans with
  | [] => Ok (true, fs, printed)
  | s :: scans' =>
    match hits s with
    | UB => UB
    | Throw _ => Ok (false, fs, printed)
    | Ok hs =>
      let! pf := if String.eqb path "" then match inputs with i :: _ => Ok (name i, "capnp"%string) | [] => UB end else Ok (path, fmt) in
      let (path', fmt') := pf in
      if String.eqb path' "-" || String.eqb path' "stdout" then cli_loop (tl inputs) scans' path' fmt' fs (printed ++ [hs])
      else match save path' fmt' s with
           | Ok b => cli_loop (tl inputs) scans' path' fmt' ((path', b) :: fs) printed
           | Throw _ => Ok (false, (path', []) :: fs, printed)
           | UB => UB
           end
    end
  end.
End Cli.
