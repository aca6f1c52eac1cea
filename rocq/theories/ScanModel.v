(** Model of filterbank files, scans, observation targets and cadences.
    Paths relative to /repo/bliss.  Definitions only.
    The arithmetic on frequencies is a parameter: [ops64] is bit-exact binary64 (what the code
    computes), [opsR] exact real arithmetic (used to say what the code would compute without rounding).
    int64_t sums of channel numbers are unbounded integers; int products and conversions to int are
    checked or truncated as written. *)
From Verif Require Export RedModel HitModel.
From Coq Require Import Reals.
Local Open Scope Z_scope.
Local Open Scope list_scope.

(** ** Arithmetic *)
Record numops (F : Type) := Ops {
  o_add : F -> F -> F; o_sub : F -> F -> F; o_mul : F -> F -> F; o_div : F -> F -> F;
  o_abs : F -> F; o_lt : F -> F -> bool; o_of : Z -> F; o_floor : F -> outcome Z }.
Arguments Ops {F} _ _ _ _ _ _ _ _.
Arguments o_add {F} _. Arguments o_sub {F} _. Arguments o_mul {F} _. Arguments o_div {F} _.
Arguments o_abs {F} _. Arguments o_lt {F} _. Arguments o_of {F} _. Arguments o_floor {F} _.

(** [int i = std::floor(x)]: exact floor, conversion undefined outside int. *)
Definition int_of (z : Z) : outcome Z := if (- 2 ^ 31 <=? z) && (z <? 2 ^ 31) then Ok z else UB.
Definition floor_to_int {p q} (x : binary_float p q) : outcome Z :=
  match x with
  | B754_zero _ => Ok 0
  | B754_infinity _ | B754_nan => UB
  | B754_finite s m e _ => int_of (if 0 <=? e then cond_Zopp s (Zpos m) * 2 ^ e else cond_Zopp s (Zpos m) / 2 ^ (- e))
  end.
Definition ops64 : numops f64 := Ops add64 sub64 mul64 div64 Babs f64lt f64_of_Z floor_to_int.
Definition opsR : numops R :=
  Ops Rplus Rminus Rmult Rdiv Rabs Rlt_bool IZR (fun x => int_of (Zfloor x)).

(** The double nearest to the decimal m / 10^k. *)
Definition dec {F} (O : numops F) (m k : Z) : F := o_div O (o_of O m) (o_of O (10 ^ k)).

(** ** HDF5 filterbank file (file_types/h5_filterbank_file.cpp) *)

(** What the data set holds: extent, dimension labels, the nchans attribute, and its cells in row-major
    order.  A missing attribute is [None]. *)
Record h5 := H5 { h_dims : list Z; h_labels : option (list string); h_nchans : option Z; h_cell : Z -> Z }.

(** read_data_attr 14-88: a missing key is invalid_argument. *)
Definition required {A} (a : option A) : outcome A := match a with Some x => Ok x | None => Throw InvalidArgument end.

(** The loop of get_data_shape 248-273; the state holds the time, frequency and feed sizes found so far. *)
Fixpoint label_dims (dims : list Z) (labels : list string) (time freq feed : option Z)
  : outcome (option Z * option Z * option Z) :=
  match dims with
  | [] => Ok (time, freq, feed)
  | d :: dims' =>
    match labels with
    | [] => UB
    | l :: labels' =>
      if match time with None => String.eqb l "time" | Some _ => false end then label_dims dims' labels' (Some d) freq feed
      else if match freq with None => String.eqb l "frequency" | Some _ => false end then label_dims dims' labels' time (Some d) feed
      else if match feed with None => String.eqb l "feed_id" | Some _ => false end then
        if d =? 1 then label_dims dims' labels' time freq (Some d) else Throw InvalidArgument
      else if d =? 1 then Throw InvalidArgument else label_dims dims' labels' time freq feed
    end
  end.

(** get_data_shape 233-296, result [time, feed, frequency]. *)
Definition get_data_shape (f : h5) : outcome (list Z) :=
  let! labels := required (h_labels f) in
  let! r := label_dims (h_dims f) labels None None None in
  let '(time, freq, feed) := r in
  let! t := required time in
  let! b := required feed in
  let! c := required freq in
  let! n := required (h_nchans f) in
  if (t =? n) && negb (c =? n) then Ok [c; b; t] else Ok [t; b; c].

(** Row-major position of a multi-index in an extent. *)
Fixpoint place (dims idx : list Z) : Z :=
  match dims, idx with
  | d :: dims', i :: idx' => i * zprod dims' + place dims' idx'
  | _, _ => 0
  end.
(** The multi-indices of the hyperslab, row-major. *)
Fixpoint slab (offset count : list Z) : list (list Z) :=
  match offset, count with
  | o :: os, c :: cs => flat_map (fun i => map (cons (o + i)) (slab os cs)) (zrange c)
  | _, _ => [[]]
  end.
Fixpoint slab_fits (dims offset count : list Z) : bool :=
  match dims, offset, count with
  | d :: dims', o :: os, c :: cs => (0 <=? o) && (o + c <=? d) && slab_fits dims' os cs
  | _, _, _ => true
  end.

(** read_data 299-336 for non-empty offset and count: the shape is checked first; selectHyperslab reads
    as many entries of offset and count as the data set has dimensions; a selection that leaves the extent
    makes the HDF5 read raise its own exception.  The result is the cells in row-major order. *)
Definition read_data (f : h5) (offset count : list Z) : outcome (list Z) :=
  let! _ := get_data_shape f in
  let n := List.length (h_dims f) in
  if ((List.length offset <? n) || (List.length count <? n))%nat then UB
  else if slab_fits (h_dims f) offset count
       then Ok (map (fun idx => h_cell f (place (h_dims f) idx)) (slab offset count))
       else Throw OtherExn.

(** ** Number of coarse channels (core/scan.cpp 29-99) *)
Section WithArithmetic.
Context {F : Type} (O : numops F) {P : Type}.

(** known_channelizations 29-41: fine channels per coarse, frequency and time resolution. *)
Definition known_channelizations : list (Z * (F * F)) :=
  [ (1033216, (dec O 284 2, dec O 1798 2)); (8, (dec O 366210 0, dec O 34953 8)); (1024, (dec O 2860 0, dec O 106 2));
    (999424, (dec O 293 2, dec O 174 1));   (8, (dec O 366210 0, dec O 34953 8)); (1024, (dec O 2860 0, dec O 102 2));
    (1048576, (dec O 279 2, dec O 1825 2)); (8, (dec O 366210 0, dec O 34953 8)); (1024, (dec O 2860 0, dec O 107 2)) ].

Definition close (a b : F) : bool := o_lt O (o_abs O (o_sub O (o_abs O a) b)) (dec O 1 1).

(** 50-61 *)
Definition matches_known (n : Z) (foff tsamp : F) (k : Z * (F * F)) : bool :=
  (Z.quot n (fst k) * fst k =? n) && close foff (fst (snd k)) && close tsamp (snd (snd k)).

(** 69-80 and 82-94: division by zero is undefined. *)
Definition try_common (n common : Z) (otherwise : outcome (Z * Z)) : outcome (Z * Z) :=
  let coarse := Z.quot n common in
  if coarse =? 0 then UB
  else let fine := common + Z.quot (Z.rem n common) coarse in
       if fine * coarse =? n then Ok (coarse, fine) else otherwise.

Definition infer_number_coarse_channels (n : Z) (foff tsamp : F) : outcome (Z * Z) :=
  match find (matches_known n foff tsamp) known_channelizations with
  | Some k => Ok (Z.quot n (fst k), fst k)
  | None => try_common n (2 ^ 18) (try_common n 1000000 (Ok (1, n)))
  end.

(** ** Coarse channels (core/coarse_channel.cpp) *)

(** Metadata handed through unchanged.  [a_nbits] and [a_nifs] are plain int64_t members of scan that
    keep an indeterminate value ([None]) when the attribute is missing. *)
Record about := About {
  a_machine : option Z; a_nbits : option Z; a_nifs : option Z; a_source : string;
  a_dej : option F; a_raj : option F; a_telescope : option Z; a_tsamp : F; a_tstart : F;
  a_type : Z; a_az : option F; a_za : option F }.

(** Data and mask: still the deferred readers of a window of the file, or whatever a transform or the
    user put there. *)
Inductive body := Window (offset count : list Z) | Processed (p : P).

Record chan := Chan {
  c_body : body; c_fch1 : F; c_foff : F; c_nchans : Z; c_steps : Z; c_about : about; c_number : Z; c_device : dev }.

Definition with_device (d : dev) (c : chan) : chan :=
  Chan (c_body c) (c_fch1 c) (c_foff c) (c_nchans c) (c_steps c) (c_about c) (c_number c) d.

Context (valid : Z -> bool).   (* bland::g_config.check_is_valid_cuda_device *)

Definition refused (d : dev) : bool :=
  match dev_ty d with DevCUDA | DevCUDAManaged => negb (valid (dev_id d)) | _ => false end.

(** coarse_channel::set_device 265-274 *)
Definition chan_set_device (d : dev) (c : chan) : outcome chan :=
  if refused d then Throw RuntimeError else Ok (with_device d c).

(** ** Scans (core/scan.hpp, core/scan.cpp) *)

(** [s_cache]: the map from channel numbers to shared channels, as addresses into the heap of channel
    objects; [s_fine]: indeterminate in a scan built from channels. *)
Record scan := Scan {
  s_cache : list (Z * nat); s_file : option h5; s_pipe : list (chan -> outcome chan);
  s_fch1 : F; s_foff : F; s_nchans : Z; s_fine : option Z; s_num : Z; s_start : Z;
  s_steps : Z; s_about : about; s_device : dev }.

Definition heap := list chan.

Fixpoint lookup (k : Z) (m : list (Z * nat)) : option nat :=
  match m with [] => None | (k', a) :: m' => if k =? k' then Some a else lookup k m' end.

Definition with_cache (s : scan) m := Scan m (s_file s) (s_pipe s) (s_fch1 s) (s_foff s) (s_nchans s) (s_fine s)
  (s_num s) (s_start s) (s_steps s) (s_about s) (s_device s).
Definition with_pipe (s : scan) p := Scan (s_cache s) (s_file s) p (s_fch1 s) (s_foff s) (s_nchans s) (s_fine s)
  (s_num s) (s_start s) (s_steps s) (s_about s) (s_device s).
Definition with_scan_device (s : scan) d := Scan (s_cache s) (s_file s) (s_pipe s) (s_fch1 s) (s_foff s) (s_nchans s)
  (s_fine s) (s_num s) (s_start s) (s_steps s) (s_about s) d.

(** scan(map) 101-116: the channels are heap addresses. *)
Definition scan_of_channels (m : list (Z * nat)) (h : heap) : outcome scan :=
  match lookup 0 m with
  | None => Throw OutOfRange
  | Some a =>
    match nth_error h a with
    | None => UB
    | Some c =>
      Ok (Scan m None [] (c_fch1 c) (c_foff c) (c_nchans c * zlen m) None (zlen m) 0 (c_steps c)
            (About None None None (a_source (c_about c)) None None None (a_tsamp (c_about c)) (a_tstart (c_about c)) 0 None None)
            (Dev DevCPU 0))
    end
  end.

(** Attributes of a filterbank file. *)
Record attrs := Attrs {
  at_fch1 : option F; at_foff : option F; at_machine : option Z; at_source : option string; at_dej : option F;
  at_raj : option F; at_telescope : option Z; at_tsamp : option F; at_tstart : option F; at_az : option F;
  at_za : option F; at_type : option Z; at_nbits : option Z; at_nifs : option Z }.

(** scan(h5_filterbank_file, int) 118-210 *)
Definition scan_of_file (f : h5) (a : attrs) (request : Z) : outcome scan :=
  let! fch1 := required (at_fch1 a) in
  let! foff := required (at_foff a) in
  let! source := required (at_source a) in
  let! dej := required (at_dej a) in
  let! raj := required (at_raj a) in
  let! telescope := required (at_telescope a) in
  let! tsamp := required (at_tsamp a) in
  let! tstart := required (at_tstart a) in
  let! shape := get_data_shape f in
  let! steps := zget shape 0 in
  match h_nchans f with
  | None => UB
  | Some n =>
    let! split := if request =? 0
                  then infer_number_coarse_channels (to_int32 n) (o_mul O (o_of O 1000000) foff) tsamp
                  else Ok (Z.quot n request, request) in
    Ok (Scan [] (Some f) [] fch1 foff n (Some (snd split)) (fst split) 0 steps
          (About (at_machine a) (at_nbits a) (at_nifs a) source (Some dej) (Some raj) (Some telescope) tsamp tstart
             (match at_type a with Some t => t | None => 1 end) (at_az a) (at_za a))
          (Dev DevCPU 0))
  end.

(** The channel object that read_coarse_channel makes for a number not yet in the map, 221-262. *)
Definition new_chan (s : scan) (i : Z) : outcome chan :=
  let global := i + s_start s in
  match s_file s with
  | None => UB
  | Some f =>
    let! shape := get_data_shape f in
    match s_fine s, a_nbits (s_about s), a_nifs (s_about s) with
    | Some fine, Some _, Some _ =>
      if (- 2 ^ 31 <=? fine * i) && (fine * i <? 2 ^ 31) then
        let! steps := zget shape 0 in
        let! feeds := zget shape 1 in
        Ok (Chan (Window [0; 0; fine * global] [steps; feeds; fine])
              (o_add O (s_fch1 s) (o_mul O (s_foff s) (o_of O (fine * i)))) (s_foff s) fine steps (s_about s) global
              (Dev DevCPU 0))
      else UB
    | _, _, _ => UB
    end
  end.

(** 264-271: the shared channel gets the scan's device, a copy goes through the pipeline. *)
Definition run_pipe (p : list (chan -> outcome chan)) (c : chan) : outcome chan :=
  fold_left (fun m f => obind m f) p (Ok c).
Definition serve (s : scan) (h : heap) (a : nat) : outcome chan * (scan * heap) :=
  match nth_error h a with
  | None => (UB, (s, h))
  | Some c =>
    match chan_set_device (s_device s) c with
    | Ok c' => (run_pipe (s_pipe s) c', (s, upd h a (fun _ => c')))
    | Throw e => (Throw e, (s, h))
    | UB => (UB, (s, h))
    end
  end.

(** read_coarse_channel 214-271.  Keys of the map are int. *)
Definition read_channel (s : scan) (h : heap) (i : Z) : outcome chan * (scan * heap) :=
  if (i <? 0) || (s_num s <? i) then (Throw OutOfRange, (s, h))
  else
    let key := to_int32 (i + s_start s) in
    match lookup key (s_cache s) with
    | Some a => serve s h a
    | None =>
      match (let! c := new_chan s i in chan_set_device (s_device s) c) with
      | Ok c => serve (with_cache s ((key, List.length h) :: s_cache s)) (h ++ [c]) (List.length h)
      | Throw e => (Throw e, (s, h))
      | UB => (UB, (s, h))
      end
    end.

(** peak_coarse_channel 274-291 *)
Definition peak_channel (s : scan) (h : heap) (i : Z) : outcome (option chan) * (scan * heap) :=
  if (i <? 0) || (s_num s <? i) then (Throw OutOfRange, (s, h))
  else match lookup (to_int32 (i + s_start s)) (s_cache s) with
       | Some a => let r := serve s h a in (omap Some (fst r), snd r)
       | None => (Ok None, (s, h))
       end.

(** add_coarse_channel_transform 293-295 *)
Definition add_transform (s : scan) (f : chan -> outcome chan) : scan := with_pipe s (s_pipe s ++ [f]).

(** get_coarse_channel_with_frequency 297-302 *)
Definition channel_with_frequency (s : scan) (x : F) : outcome Z :=
  o_floor O (o_mul O (o_div O (o_div O (o_sub O x (s_fch1 s)) (s_foff s)) (o_of O (s_nchans s))) (o_of O (s_num s))).

(** slice_scan_channels 365-381 *)
Definition slice_scan (s : scan) (start count : Z) : outcome scan :=
  let count := if count =? -1 then to_int32 (s_num s) - start else count in
  match s_fine s with
  | None => UB
  | Some fine =>
    Ok (Scan (s_cache s) (s_file s) (s_pipe s)
          (o_add O (s_fch1 s) (o_mul O (o_mul O (s_foff s) (o_of O fine)) (o_of O start))) (s_foff s)
          (count * fine) (Some fine) count (s_start s + start) (s_steps s) (s_about s) (s_device s))
  end.

(** hits 316-331: errors of the class logic_error while collecting the hits of a channel are printed and
    skipped; errors while reading the channel are not caught.  [hits_of] is coarse_channel::hits. *)
Definition is_logic (e : exn) : bool :=
  match e with LogicError | OutOfRange | InvalidArgument => true | _ => false end.
Definition and_then {A B} (r : outcome A * (scan * heap)) (k : A -> scan -> heap -> outcome B * (scan * heap)) :=
  match fst r with
  | Ok a => k a (fst (snd r)) (snd (snd r))
  | Throw e => (Throw e, snd r)
  | UB => (UB, snd r)
  end.
Fixpoint gather {A} (hits_of : chan -> outcome (list A)) (s : scan) (h : heap) (is : list Z) (acc : list A)
  : outcome (list A) * (scan * heap) :=
  match is with
  | [] => (Ok acc, (s, h))
  | i :: is' =>
    and_then (read_channel s h i) (fun c s h =>
      match hits_of c with
      | Ok l => gather hits_of s h is' (acc ++ l)
      | Throw e => if is_logic e then gather hits_of s h is' acc else (Throw e, (s, h))
      | UB => (UB, (s, h))
      end)
  end.
Definition scan_hits {A} (hits_of : chan -> outcome (list A)) (s : scan) (h : heap) :=
  gather hits_of s h (zrange (to_int32 (s_num s))) [].

(** scan::set_device 338-351.  The member is assigned before the check. *)
Fixpoint set_all (d : dev) (h : heap) (m : list (Z * nat)) : outcome unit * heap :=
  match m with
  | [] => (Ok tt, h)
  | (_, a) :: m' =>
    match nth_error h a with
    | None => (UB, h)
    | Some c =>
      match chan_set_device d c with
      | Ok c' => set_all d (upd h a (fun _ => c')) m'
      | Throw e => (Throw e, h)
      | UB => (UB, h)
      end
    end
  end.
Definition scan_set_device (s : scan) (h : heap) (d : dev) : outcome unit * (scan * heap) :=
  let s' := with_scan_device s d in
  if refused d then (Throw RuntimeError, (s', h))
  else let r := set_all d h (s_cache s) in (fst r, (s', snd r)).

(** The scan overloads of flag_magnitude (flaggers/magnitude.cpp 40-57) and equalize_passband_filter
    (preprocess/passband_static_equalize.cpp 123-130): the function is applied to the channel object that
    read_coarse_channel returned, a fresh copy, and the scan is returned. *)
Fixpoint flag_copies (f : chan -> outcome chan) (s : scan) (h : heap) (is : list Z) : outcome scan * (scan * heap) :=
  match is with
  | [] => (Ok s, (s, h))
  | i :: is' =>
    and_then (read_channel s h i) (fun c s h =>
      match f c with
      | Ok _ => flag_copies f s h is'
      | Throw e => (Throw e, (s, h))
      | UB => (UB, (s, h))
      end)
  end.
Definition flag_each (f : chan -> outcome chan) (s : scan) (h : heap) :=
  flag_copies f s h (zrange (to_int32 (s_num s))).

(** ** Observation targets and cadences (core/cadence.cpp) *)
Record target := Target { t_scans : list scan; t_name : string; t_device : dev }.
Record cadence := Cadence { k_targets : list target; k_device : dev }.

(** extract_source_name_from_scans 10-31 *)
Fixpoint join_names (acc : string) (names : list string) : string :=
  match names with
  | [] => acc
  | n :: ns =>
    if String.eqb n "" then join_names acc ns
    else if String.eqb acc "" then join_names n ns
    else if String.eqb acc n then join_names acc ns
    else join_names (acc ++ "::" ++ n)%string ns
  end.
Definition target_name (names : list string) : string :=
  let n := join_names "" names in if String.eqb n "" then "unknown"%string else n.
Definition target_of_scans (dflt : dev) (ss : list scan) : target :=
  Target ss (target_name (map (fun s => a_source (s_about s)) ss)) dflt.

(** validate_scan_consistency 46-70 and 129-156, over the scans in order.  [nchans] is an int. *)
Definition near (x y : F) : bool := o_lt O (o_abs O (o_sub O x y)) (dec O 1 6).
Definition mismatch (first s : scan) : bool :=
  near (s_fch1 s) (s_fch1 first) || near (s_foff s) (s_foff first) || negb (s_nchans s =? to_int32 (s_nchans first)).
Definition validate (ss : list scan) : bool :=
  match ss with [] => true | first :: _ => negb (existsb (mismatch first) ss) end.
Definition target_validate (t : target) : bool := validate (t_scans t).
Definition cadence_validate (k : cadence) : bool := validate (flat_map t_scans (k_targets k)).

(** 72-87 and 158-185: [_scans[0]] of an empty target is undefined. *)
Definition target_number (t : target) : outcome Z :=
  if target_validate t then match t_scans t with [] => UB | s :: _ => Ok (to_int32 (s_num s)) end
  else Throw RuntimeError.
Definition target_with_frequency (t : target) (x : F) : outcome Z :=
  if target_validate t then match t_scans t with [] => UB | s :: _ => channel_with_frequency s x end
  else Throw RuntimeError.
Definition cadence_number (k : cadence) : outcome Z :=
  if cadence_validate k then
    match flat_map t_scans (k_targets k) with [] => Throw RuntimeError | s :: _ => Ok (to_int32 (s_num s)) end
  else Throw RuntimeError.
Definition cadence_with_frequency (k : cadence) (x : F) : outcome Z :=
  if cadence_validate k then
    match flat_map t_scans (k_targets k) with [] => Throw RuntimeError | s :: _ => channel_with_frequency s x end
  else Throw RuntimeError.

(** slice_observation_channels 89-95 and slice_cadence_channels 187-193: the result is default constructed,
    so it has an empty name and the default device. *)
Fixpoint each {A B} (f : A -> outcome B) (l : list A) : outcome (list B) :=
  match l with [] => Ok [] | a :: l' => let! b := f a in let! bs := each f l' in Ok (b :: bs) end.
Definition slice_target (dflt : dev) (t : target) (start count : Z) : outcome target :=
  let! ss := each (fun s => slice_scan s start count) (t_scans t) in Ok (Target ss "" dflt).
Definition slice_cadence (dflt : dev) (k : cadence) (start count : Z) : outcome cadence :=
  let! ts := each (fun t => slice_target dflt t start count) (k_targets k) in Ok (Cadence ts dflt).

(** observation_target::set_device 101-113 and cadence::set_device 199-212: checked, then assigned. *)
Fixpoint scans_set_device (ss : list scan) (h : heap) (d : dev) : outcome unit * (list scan * heap) :=
  match ss with
  | [] => (Ok tt, ([], h))
  | s :: ss' =>
    let r := scan_set_device s h d in
    match fst r with
    | Ok _ => let r' := scans_set_device ss' (snd (snd r)) d in (fst r', (fst (snd r) :: fst (snd r'), snd (snd r')))
    | o => (o, (fst (snd r) :: ss', snd (snd r)))
    end
  end.
Definition target_set_device (t : target) (h : heap) (d : dev) : outcome unit * (target * heap) :=
  if refused d then (Throw RuntimeError, (t, h))
  else let r := scans_set_device (t_scans t) h d in (fst r, (Target (fst (snd r)) (t_name t) d, snd (snd r))).
Fixpoint targets_set_device (ts : list target) (h : heap) (d : dev) : outcome unit * (list target * heap) :=
  match ts with
  | [] => (Ok tt, ([], h))
  | t :: ts' =>
    let r := target_set_device t h d in
    match fst r with
    | Ok _ => let r' := targets_set_device ts' (snd (snd r)) d in (fst r', (fst (snd r) :: fst (snd r'), snd (snd r')))
    | o => (o, (fst (snd r) :: ts', snd (snd r)))
    end
  end.
Definition cadence_set_device (k : cadence) (h : heap) (d : dev) : outcome unit * (cadence * heap) :=
  if refused d then (Throw RuntimeError, (k, h))
  else let r := targets_set_device (k_targets k) h d in (fst r, (Cadence (fst (snd r)) d, snd (snd r))).

(** ** Histories of one file: a pool of scans over one heap *)
Inductive sop :=
| SRead (k : nat) (i : Z) | SPeak (k : nat) (i : Z) | SAdd (k : nat) (f : chan -> outcome chan)
| SSlice (k : nat) (start count : Z) | SCopy (k : nat) | SDevice (k : nat) (d : dev).

(** A step that names a scan that does not exist, or is undefined, has no successor. *)
Definition sstep (w : list scan * heap) (o : sop) : option (list scan * heap) :=
  let pool := fst w in let h := snd w in
  let at_ k g := match nth_error pool k with Some s => g s | None => None end in
  match o with
  | SRead k i => at_ k (fun s =>
      let r := read_channel s h i in
      match fst r with UB => None | _ => Some (upd pool k (fun _ => fst (snd r)), snd (snd r)) end)
  | SPeak k i => at_ k (fun s =>
      let r := peak_channel s h i in
      match fst r with UB => None | _ => Some (upd pool k (fun _ => fst (snd r)), snd (snd r)) end)
  | SAdd k f => at_ k (fun s => Some (upd pool k (fun _ => add_transform s f), h))
  | SSlice k start count => at_ k (fun s =>
      match slice_scan s start count with Ok s' => Some (pool ++ [s'], h) | _ => None end)
  | SCopy k => at_ k (fun s => Some (pool ++ [s], h))
  | SDevice k d => at_ k (fun s =>
      let r := scan_set_device s h d in
      match fst r with UB => None | _ => Some (upd pool k (fun _ => fst (snd r)), snd (snd r)) end)
  end.
Fixpoint sruns (w : list scan * heap) (os : list sop) : option (list scan * heap) :=
  match os with [] => Some w | o :: os' => match sstep w o with Some w' => sruns w' os' | None => None end end.

(** ** Reading the data of a channel, coarse_channel::data 203-207.  The deferred reader has the default
    policy (lazy, ndarray_deferred.hpp 37), so every call runs it.  [log] is the list of file windows read. *)
Definition channel_data (held : P -> list Z) (f : h5) (c : chan) (log : list (list Z)) : outcome (list Z) * list (list Z) :=
  match c_body c with
  | Window o n => (read_data f o n, log ++ [o])
  | Processed p => (Ok (held p), log)
  end.
End WithArithmetic.
Arguments chan F P : clear implicits.
Arguments scan F P : clear implicits.
Arguments about F : clear implicits.
Arguments body P : clear implicits.
Arguments attrs F : clear implicits.
Arguments heap F P : clear implicits.
Arguments target F P : clear implicits.
Arguments cadence F P : clear implicits.
Arguments sop F P : clear implicits.
