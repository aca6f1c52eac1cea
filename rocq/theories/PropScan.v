(** Property theorems C40-C47, C57 and C64-C67: scans, targets, cadences, filterbank files. *)
From Coq Require Import Reals Lra.
From Verif Require Import BaseFacts H5Proofs ScanProofs ScanHist CadenceProofs ScanMain.
Local Open Scope Z_scope.
Local Open Scope list_scope.

(** ** Concrete files and scans for the examples *)
Definition axes3 : list string := ["time"; "feed_id"; "frequency"]%string.
Definition file0 : h5 := H5 [3; 1; 40] (Some axes3) (Some 40) (fun p => p).
Definition attrs0 : attrs f64 :=
  Attrs (Some (f64_of_Z 8421)) (Some (dec ops64 (-27) 7)) None (Some "VOYAGER-1"%string) (Some (f64_of_Z 12)) (Some (f64_of_Z 17))
        (Some 6) (Some (f64_of_Z 18)) (Some (f64_of_Z 59046)) None None None (Some 32) (Some 1).
Definition about0 {F} (O : numops F) : about F := About None (Some 32) (Some 1) "VOYAGER-1" None None None (o_of O 18) (o_of O 59046) 1 None None.
Definition scan0 {F} (O : numops F) (nchans fine num : Z) (foff : F) : scan F unit :=
  Scan [] (Some file0) [] (o_of O 8421) foff nchans (Some fine) num 0 3 (about0 O) (Dev DevCPU 0).
Definition opened (req : Z) : outcome (scan f64 unit) := scan_of_file ops64 file0 attrs0 req.
Definition all_valid : Z -> bool := fun _ => true.
Definition fields {F P} (o : outcome (scan F P)) : outcome (Z * Z * Z * option Z) :=
  omap (fun s => (s_start s, s_num s, s_nchans s, s_fine s)) o.

(** ** C40 *)
(** Slicing a slice selects the channels of one slice with added starts (a count of -1 standing for
    "to the end of the first slice"); only the frequency of the first channel can differ, by rounding. *)
Theorem C40_slices_compose : forall F P (O : numops F) (s s1 s2 : scan F P) a b c d,
  slice_scan O s a b = Ok s1 -> slice_scan O s1 c d = Ok s2 -> - 2 ^ 31 <= s_num s1 < 2 ^ 31 ->
  let d' := if d =? -1 then s_num s1 - c else d in
  d' <> -1 ->
  exists s', slice_scan O s (a + c) d' = Ok s' /\ same_channels s2 s'.
Proof. exact @slice_slice. Qed.
Print Assumptions C40_slices_compose.
Example C40_ex : let s := scan0 ops64 40 10 4 (dec ops64 (-27) 7) in
  fields (let! t := slice_scan ops64 s 1 3 in slice_scan ops64 t 1 (-1)) = Ok (2, 2, 20, Some 10) /\
  fields (slice_scan ops64 s 2 2) = Ok (2, 2, 20, Some 10).
Proof. split; vm_compute; reflexivity. Qed.

(** Channel i of a slice is channel start+i of the parent: same window of the file, number and metadata. *)
Theorem C40_slice_channel : forall F P (O : numops F) (s s' : scan F P) start count i c,
  slice_scan O s start count = Ok s' -> new_chan O s' i = Ok c ->
  (forall fine, s_fine s = Some fine -> - 2 ^ 31 <= fine * (start + i) < 2 ^ 31) ->
  exists c', new_chan O s (start + i) = Ok c' /\
    c_body c = c_body c' /\ c_foff c = c_foff c' /\ c_nchans c = c_nchans c' /\ c_steps c = c_steps c' /\
    c_about c = c_about c' /\ c_number c = c_number c' /\ c_device c = c_device c'.
Proof. exact @slice_new_chan. Qed.
Print Assumptions C40_slice_channel.
Example C40_ex_channel : let s := scan0 ops64 40 10 4 (dec ops64 (-27) 7) in
  omap (fun c => (c_body c, c_number c)) (let! t := slice_scan ops64 s 1 3 in new_chan ops64 t 1)
  = Ok (Window [0; 0; 20] [3; 1; 10], 2).
Proof. vm_compute. reflexivity. Qed.

(** With exact arithmetic the frequencies agree too. *)
Theorem C40_frequencies_exact : forall P (s s1 s2 s' : scan R P) a b c d d',
  slice_scan opsR s a b = Ok s1 -> slice_scan opsR s1 c d = Ok s2 -> slice_scan opsR s (a + c) d' = Ok s' ->
  s_fch1 s2 = s_fch1 s'.
Proof. exact @slice_slice_fch1. Qed.
Print Assumptions C40_frequencies_exact.
Theorem C40_channel_frequency_exact : forall P (s s' : scan R P) start count i c c',
  slice_scan opsR s start count = Ok s' -> new_chan opsR s' i = Ok c -> new_chan opsR s (start + i) = Ok c' ->
  c_fch1 c = c_fch1 c'.
Proof. exact @slice_new_chan_fch1. Qed.
Print Assumptions C40_channel_frequency_exact.

(** In double precision they need not: slicing in two steps moves the first frequency of a 10 x 1000000
    channel band by one unit in the last place. *)
Theorem C40_frequencies_rounded_refuted :
  exists s s1 s2 s' : scan f64 unit, slice_scan ops64 s 1 4 = Ok s1 /\ slice_scan ops64 s1 1 2 = Ok s2 /\
    slice_scan ops64 s 2 2 = Ok s' /\ f64eq (s_fch1 s2) (s_fch1 s') = false.
Proof.
  set (s := scan0 ops64 10000000 1000000 10 (dec ops64 (-27) 7)).
  assert (D : match slice_scan ops64 s 1 4, slice_scan ops64 s 2 2 with
              | Ok s1, Ok s' => match slice_scan ops64 s1 1 2 with Ok s2 => f64eq (s_fch1 s2) (s_fch1 s') | _ => true end
              | _, _ => true end = false) by (vm_compute; reflexivity).
  destruct (slice_scan ops64 s 1 4) as [s1|e|] eqn:E1; [| discriminate D | discriminate D].
  destruct (slice_scan ops64 s 2 2) as [s'|e|] eqn:E3; [| discriminate D | discriminate D].
  destruct (slice_scan ops64 s1 1 2) as [s2|e|] eqn:E2; [| discriminate D | discriminate D].
  exists s, s1, s2, s'. auto.
Qed.
Print Assumptions C40_frequencies_rounded_refuted.

(** A scan built from channels in memory cannot be sliced: the number of fine channels per coarse channel
    is never set, so using it is undefined behaviour. *)
Theorem C40_memory_scan_slice_refuted : forall F P (O : numops F) m (h : heap F P) s start count,
  scan_of_channels m h = Ok s -> slice_scan O s start count = UB.
Proof.
  intros F P O m h s start count E. unfold scan_of_channels in E. destruct (lookup 0 m) as [a|]; [|discriminate].
  destruct (nth_error h a); [|discriminate]. injection E as <-. reflexivity.
Qed.
Print Assumptions C40_memory_scan_slice_refuted.
Example C40_ex_memory : exists s, scan_of_channels [(0, 0%nat)]
  [Chan (Processed tt) (f64_of_Z 1) (f64_of_Z 1) 10 3 (about0 ops64) 0 (Dev DevCPU 0)] = Ok s.
Proof. eexists. reflexivity. Qed.

(** ** C41 and C42: all histories over one opened file *)
(** In any state reached by reads, peaks, slices, copies, transform registrations and device changes: an index
    below 0 or above the number of channels is out_of_range and changes nothing; any other index, on a scan
    with a usable device, returns the unprocessed channel with that number, on the scan's device, passed
    through the transforms registered on that scan and its ancestors, once each, in order. *)
Theorem C42_read_applies_pipeline : forall F P (O : numops F) valid f a req (root : scan F P) os pool h k s i r s' h',
  scan_of_file O f a req = Ok root -> sruns O valid ([root], []) os = Some (pool, h) ->
  (forall t, In t pool -> in_int t) -> nth_error pool k = Some s -> read_channel O valid s h i = (r, (s', h')) ->
  ((i < 0 \/ s_num s < i) -> r = Throw OutOfRange /\ s' = s /\ h' = h) /\
  (0 <= i <= s_num s -> at_nbits a <> None -> at_nifs a <> None ->
   (forall fine, s_fine root = Some fine -> - 2 ^ 31 <= fine * i < 2 ^ 31) -> refused valid (s_device s) = false ->
   exists c p, file_channel f root (s_start s + i) (s_device s) c /\
     nth_error (pipes os [[]]) k = Some p /\ r = run_pipe p c).
Proof.
  intros F P O valid f a req root os pool h k s i r s' h' HR RUN IR N RD.
  destruct (history_read O valid f a req root (fun _ _ => True) HR I (fun _ _ _ _ _ _ => I) (fun _ _ _ _ _ _ => I)
              os pool h k s i r s' h' RUN IR N RD) as (A1 & A2 & _).
  split; [exact A1|]. intros HI B1 B2 B3 RF. destruct (A2 HI B1 B2 B3 RF) as (c & p & C1 & _ & C3 & C4 & _). eauto.
Qed.
Print Assumptions C42_read_applies_pipeline.

(** The same with the frequency: exactly fch1 + foff * (fine * number) of the opened file, in exact arithmetic. *)
Theorem C42_read_frequency_exact : forall P valid f a req (root : scan R P) os pool h k s i r s' h' fine,
  scan_of_file opsR f a req = Ok root -> s_fine root = Some fine ->
  sruns opsR valid ([root], []) os = Some (pool, h) -> (forall t, In t pool -> in_int t) -> nth_error pool k = Some s ->
  read_channel opsR valid s h i = (r, (s', h')) ->
  0 <= i <= s_num s -> at_nbits a <> None -> at_nifs a <> None -> - 2 ^ 31 <= fine * i < 2 ^ 31 ->
  refused valid (s_device s) = false ->
  exists c p, file_channel f root (s_start s + i) (s_device s) c /\
     c_fch1 c = (s_fch1 root + s_foff root * IZR (fine * (s_start s + i)))%R /\
     nth_error (pipes os [[]]) k = Some p /\ r = run_pipe p c.
Proof. exact @history_read_freq. Qed.
Print Assumptions C42_read_frequency_exact.

(** A scan that has read a channel never makes that channel from the file again, whatever happens in between. *)
Theorem C42_read_is_cached : forall F P (O : numops F) valid f a req (root : scan F P) os1 pool h k s i r s' h' os2 pool2 h2 s2 r3 s3 h3,
  scan_of_file O f a req = Ok root ->
  sruns O valid ([root], []) os1 = Some (pool, h) -> nth_error pool k = Some s ->
  read_channel O valid s h i = (r, (s', h')) -> r <> UB ->
  0 <= i <= s_num s -> at_nbits a <> None -> at_nifs a <> None ->
  (forall fine, s_fine root = Some fine -> - 2 ^ 31 <= fine * i < 2 ^ 31) -> refused valid (s_device s) = false ->
  sruns O valid (upd pool k (fun _ => s'), h') os2 = Some (pool2, h2) -> (forall t, In t pool2 -> in_int t) ->
  nth_error pool2 k = Some s2 -> read_channel O valid s2 h2 i = (r3, (s3, h3)) ->
  s3 = s2 /\ List.length h3 = List.length h2.
Proof.
  intros F P O valid f a req root os1 pool h k s i r s' h' os2 pool2 h2 s2 r3 s3 h3 HR.
  exact (history_cached O valid f a req root (fun _ _ => True) HR I (fun _ _ _ _ _ _ => I) (fun _ _ _ _ _ _ => I)
           os1 pool h k s i r s' h' os2 pool2 h2 s2 r3 s3 h3).
Qed.
Print Assumptions C42_read_is_cached.

Definition add_one : chan f64 unit -> outcome (chan f64 unit) := fun c =>
  Ok (Chan (c_body c) (c_fch1 c) (c_foff c) (c_nchans c + 1) (c_steps c) (c_about c) (c_number c) (c_device c)).
Definition double : chan f64 unit -> outcome (chan f64 unit) := fun c =>
  Ok (Chan (c_body c) (c_fch1 c) (c_foff c) (c_nchans c * 2) (c_steps c) (c_about c) (c_number c) (c_device c)).
Definition hist0 : list (sop f64 unit) := [SAdd 0 add_one; SRead 0 2; SSlice 0 1 2; SAdd 1 double; SRead 1 1; SRead 0 2].
(** The slice found the channel its parent had read: one channel object, and the two scans apply their own pipelines. *)
Example C42_ex : match opened 10 with
  | Ok root =>
    match sruns ops64 all_valid ([root], []) hist0 with
    | Some ([s; t], h) =>
      (forallb (fun s => (0 <=? s_start s) && (s_start s + s_num s <? 2 ^ 31)) [s; t], List.length h, map (fun c => c_number c) h,
       omap (fun c => (c_number c, c_nchans c)) (fst (read_channel ops64 all_valid s h 2)),
       omap (fun c => (c_number c, c_nchans c)) (fst (read_channel ops64 all_valid t h 1)),
       omap (fun c => c_nchans c) (fst (read_channel ops64 all_valid t h 3)))
    | _ => (false, 0%nat, [], UB, UB, UB)
    end
  | _ => (false, 0%nat, [], UB, UB, UB)
  end = (true, 1%nat, [2], Ok (2, 11), Ok (2, 22), Throw OutOfRange).
Proof. vm_compute. reflexivity. Qed.

(** But the cache is per scan object: a channel read through two scans that were split (copied or sliced)
    before either had read it is made twice. *)
Theorem C42_slices_share_cache_refuted : forall F P (O : numops F) valid (s s2 : scan F P) h i r s' h' r2 s2' h2' c c2,
  lookup (to_int32 (i + s_start s)) (s_cache s) = None -> lookup (to_int32 (i + s_start s2)) (s_cache s2) = None ->
  0 <= i <= s_num s -> 0 <= i <= s_num s2 ->
  refused valid (s_device s) = false -> refused valid (s_device s2) = false ->
  new_chan O s i = Ok c -> new_chan O s2 i = Ok c2 ->
  read_channel O valid s h i = (r, (s', h')) -> read_channel O valid s2 h' i = (r2, (s2', h2')) ->
  List.length h2' = (2 + List.length h)%nat.
Proof. exact @two_copies. Qed.
Print Assumptions C42_slices_share_cache_refuted.
Example C42_ex_split : match opened 10 with
  | Ok root => match sruns ops64 all_valid ([root], []) [SCopy 0; SRead 0 1; SRead 1 1] with
               | Some (_, h) => map (fun c => c_number c) h | None => [] end
  | _ => [] end = [1; 1].
Proof. vm_compute. reflexivity. Qed.

(** And the file itself is read on every request for the data of an unprocessed channel. *)
Theorem C42_file_read_once_refuted : forall F P (held : P -> list Z) f (c : chan F P) o n, c_body c = Window o n ->
  forall m log, Nat.iter m (fun l => snd (channel_data held f c l)) log = log ++ repeat o m.
Proof. exact @data_reads_every_time. Qed.
Print Assumptions C42_file_read_once_refuted.

(** ** C41 *)
(** On a file laid out (time, feed, frequency), in any state of its scans, the data of channel i is exactly the rows of the
    fine channels [fine*(start+i), fine*(start+i+1)) when they are inside the file, and an HDF5 error otherwise. *)
Theorem C41_reads_own_channels : forall F P (O : numops F) valid f a req (root : scan F P) os pool h k s i r s' h' T C fine held log,
  scan_of_file O f a req = Ok root -> sruns O valid ([root], []) os = Some (pool, h) ->
  (forall t, In t pool -> in_int t) -> nth_error pool k = Some s -> pipes os [[]] = repeat [] (List.length pool) ->
  read_channel O valid s h i = (r, (s', h')) ->
  h_dims f = [T; 1; C] -> get_data_shape f = Ok [T; 1; C] -> s_fine root = Some fine -> 0 <= fine ->
  0 <= i <= s_num s -> at_nbits a <> None -> at_nifs a <> None -> fine * i < 2 ^ 31 -> refused valid (s_device s) = false ->
  exists c, r = Ok c /\ fst (channel_data held f c log) =
    if fine * (s_start s + i) + fine <=? C
    then Ok (rows (fun t ch => h_cell f (t * C + ch)) T (fine * (s_start s + i)) fine) else Throw OtherExn.
Proof.
  intros F P O valid f a req root os pool h k s i r s' h' T C fine held log HR RUN IR N NP RD HD HS FI F0 HI B1 B2 B3 RF.
  destruct (C42_read_applies_pipeline F P O valid f a req root os pool h k s i r s' h' HR RUN IR N RD) as (_ & A).
  destruct (A HI B1 B2) as (c & p & FC & PP & ->); [|exact RF|].
  { intros fine' E. rewrite FI in E. injection E as <-. nia. }
  rewrite NP in PP.
  assert (p = []).
  { clear - PP. revert k PP. generalize (List.length pool). intros n. induction n; intros [|k] E; cbn in E; try discriminate; [now injection E as <-|eauto]. }
  subst p. exists c. split; [reflexivity|].
  destruct FC as (fine' & T' & feeds & other & E1 & E2 & E3 & _). rewrite FI in E1. injection E1 as <-.
  rewrite HS in E2. injection E2 as <- <- <-.
  unfold channel_data. rewrite E3. cbn [fst].
  assert (0 <= s_start s) by (destruct (IR s (nth_error_In _ _ N)); assumption).
  rewrite (read_data_rows f T C (fine * (s_start s + i)) fine T [T; 1; C] HD HS) by nia.
  replace (T <=? T) with true by lia. reflexivity.
Qed.
Print Assumptions C41_reads_own_channels.
Example C41_ex : match opened 10 with
  | Ok root => match sruns ops64 all_valid ([root], []) [SSlice 0 1 2] with
    | Some ([_; t], h) =>
      match fst (read_channel ops64 all_valid t h 1) with
      | Ok c => fst (channel_data (fun _ => []) file0 c []) | _ => UB end
    | _ => UB end
  | _ => UB end = Ok (rows (fun t ch => t * 40 + ch) 3 20 10).
Proof. vm_compute. reflexivity. Qed.

(** The index equal to the number of channels is accepted: it names the channel after the last one, which in a
    slice belongs to the parent and in a whole file does not exist (its data cannot be read). *)
Theorem C41_one_past_the_end_refuted : forall F P (O : numops F) valid f a req (root : scan F P) os pool h k s r s' h',
  scan_of_file O f a req = Ok root -> sruns O valid ([root], []) os = Some (pool, h) ->
  (forall t, In t pool -> in_int t) -> nth_error pool k = Some s ->
  read_channel O valid s h (s_num s) = (r, (s', h')) -> 0 <= s_num s ->
  at_nbits a <> None -> at_nifs a <> None ->
  (forall fine, s_fine root = Some fine -> - 2 ^ 31 <= fine * s_num s < 2 ^ 31) -> refused valid (s_device s) = false ->
  exists c p, file_channel f root (s_start s + s_num s) (s_device s) c /\
     nth_error (pipes os [[]]) k = Some p /\ r = run_pipe p c.
Proof.
  intros F P O valid f a req root os pool h k s r s' h' HR RUN IR N RD N0 B1 B2 B3 RF.
  destruct (C42_read_applies_pipeline F P O valid f a req root os pool h k s (s_num s) r s' h' HR RUN IR N RD) as (_ & A).
  apply A; auto. lia.
Qed.
Print Assumptions C41_one_past_the_end_refuted.
Example C41_ex_past : match opened 10 with
  | Ok root => match fst (read_channel ops64 all_valid root [] 4) with
      | Ok c => Ok (s_num root, c_number c, fst (channel_data (fun _ => []) file0 c [])) | _ => UB end
  | _ => UB end = Ok (4, 4, Throw OtherExn).
Proof. vm_compute. reflexivity. Qed.

(** A file without the nbits or nifs attribute opens, but reading any channel uses the uninitialised member. *)
Theorem C41_missing_attribute_refuted : forall F P (O : numops F) valid f a req (root : scan F P) i,
  scan_of_file O f a req = Ok root -> at_nbits a = None \/ at_nifs a = None -> 0 <= i <= s_num root ->
  fst (read_channel O valid root [] i) = UB.
Proof.
  intros F P O valid f a req root i HR HM HI.
  destruct (scan_of_file_fields O _ _ _ _ HR) as (T & feeds & other & fine & foff & SH & FI & _ & FO & CA & FL & PI & ST & DV & NB & NI & _).
  unfold read_channel. replace ((i <? 0) || (s_num root <? i)) with false by lia. rewrite CA. cbn [lookup].
  unfold new_chan. rewrite FL, SH, FI, NB, NI. cbn [obind].
  destruct HM as [-> | ->]; [reflexivity|]. destruct (at_nbits a); reflexivity.
Qed.
Print Assumptions C41_missing_attribute_refuted.

(** ** C43 *)
(** In exact arithmetic every frequency of coarse channel i (rising or falling axis) is found in channel i; outside the
    band the same formula continues, without an error. *)
Theorem C43_lookup_exact : forall P (s : scan R P) fine i (y : R),
  s_foff s <> 0%R -> s_nchans s = s_num s * fine -> 0 < fine -> s_num s <> 0 -> (0 <= y < IZR fine)%R ->
  - 2 ^ 31 <= i < 2 ^ 31 ->
  channel_with_frequency opsR s (s_fch1 s + s_foff s * (IZR (fine * i) + y))%R = Ok i.
Proof. exact @lookup_exact. Qed.
Print Assumptions C43_lookup_exact.
Example C43_ex : channel_with_frequency opsR (scan0 opsR 40 10 4 (-2)%R) (8421 + -2 * (IZR (10 * 3) + 5))%R = Ok 3.
Proof.
  apply (C43_lookup_exact unit (scan0 opsR 40 10 4 (-2)%R) 10 3 5%R); cbn; try lia; lra.
Qed.

(** In double precision the first frequency of a channel can be found in the channel before it: here channel 2 of
    10 channels of 1000000 fine channels of -2.7 Hz from 8421 MHz. *)
Theorem C43_lookup_rounded_refuted : exists (s : scan f64 unit) i c,
  s_nchans s = s_num s * 1000000 /\ 0 < i < s_num s /\ new_chan ops64 s i = Ok c /\
  channel_with_frequency ops64 s (c_fch1 c) = Ok (i - 1).
Proof.
  set (s := scan0 ops64 10000000 1000000 10 (dec ops64 (-27) 7)).
  assert (D : match new_chan ops64 s 2 with
              | Ok c => match channel_with_frequency ops64 s (c_fch1 c) with Ok z => z =? 1 | _ => false end | _ => false end = true)
    by (vm_compute; reflexivity).
  destruct (new_chan ops64 s 2) as [c|e|] eqn:E; [| discriminate D | discriminate D].
  exists s, 2, c. split; [reflexivity|]. split; [cbn; lia|]. split; [exact E|].
  destruct (channel_with_frequency ops64 s (c_fch1 c)) as [z|e|]; [| discriminate D | discriminate D].
  apply Z.eqb_eq in D. now subst z.
Qed.
Print Assumptions C43_lookup_rounded_refuted.

(** ** C44 *)
Theorem C44_inferred_product : forall F (O : numops F) n foff tsamp coarse fine,
  infer_number_coarse_channels O n foff tsamp = Ok (coarse, fine) -> coarse * fine = n.
Proof. exact @infer_product. Qed.
Print Assumptions C44_inferred_product.
Example C44_ex : infer_number_coarse_channels ops64 (64 * 1048576) (dec ops64 (-279) 2) (dec ops64 1825 2) = Ok (64, 1048576) /\
  infer_number_coarse_channels ops64 524288 (f64_of_Z 1) (f64_of_Z 1) = Ok (2, 262144) /\
  infer_number_coarse_channels ops64 524289 (f64_of_Z 1) (f64_of_Z 1) = UB.
Proof. repeat split; vm_compute; reflexivity. Qed.

(** The function divides by zero exactly for unrecognised channel counts below 2^18, and for those below one million that
    do not split into their number of 2^18 blocks; otherwise there is a result. *)
Theorem C44_inference_undefined_refuted : forall F (O : numops F) n foff tsamp, 0 <= n ->
  (infer_number_coarse_channels O n foff tsamp = UB <->
   find (matches_known O n foff tsamp) (known_channelizations O) = None /\
   (n < 2 ^ 18 \/ (~ (n / 2 ^ 18 | n) /\ n < 1000000))).
Proof. exact @infer_ub. Qed.
Print Assumptions C44_inference_undefined_refuted.
Theorem C44_no_exception : forall F (O : numops F) n foff tsamp e, infer_number_coarse_channels O n foff tsamp <> Throw e.
Proof. exact @infer_total. Qed.
Print Assumptions C44_no_exception.

(** A requested number of fine channels is used as it is: the product is the number of channels iff it divides it. *)
Theorem C44_requested : forall F P (O : numops F) f a req (s : scan F P), req <> 0 -> scan_of_file O f a req = Ok s ->
  s_fine s = Some req /\ (s_num s * req = s_nchans s <-> (req | s_nchans s)).
Proof.
  intros F P O f a req s R E.
  destruct (scan_of_file_fields O _ _ _ _ E) as (T & feeds & other & fine & foff & _ & FI & _ & _ & _ & _ & _ & _ & _ & _ & _ & _ & _ & _ & Q).
  replace (req =? 0) with false in Q by lia. destruct Q as [-> Q]. split; [exact FI|]. rewrite Q. split.
  - intros E'. exists (Z.quot (s_nchans s) req). lia.
  - intros [m Hm]. rewrite Hm, Z.quot_mul by assumption. reflexivity.
Qed.
Print Assumptions C44_requested.
Example C44_ex_requested : fields (opened 10) = Ok (0, 4, 40, Some 10) /\ fields (opened 12) = Ok (0, 3, 40, Some 12).
Proof. split; vm_compute; reflexivity. Qed.

(** ** C45 *)
(** The consistency check is inverted: it refuses every target whose first scan has a finite fch1 or foff, because that scan
    agrees with itself. *)
Theorem C45_consistent_rejected_refuted : forall P (t : target f64 P) s ss, t_scans t = s :: ss ->
  is_finite (s_fch1 s) = true \/ is_finite (s_foff s) = true ->
  target_validate ops64 t = false /\ target_number ops64 t = Throw RuntimeError /\
  (forall x, target_with_frequency ops64 t x = Throw RuntimeError).
Proof.
  intros P t s ss E H. assert (V : target_validate ops64 t = false) by (unfold target_validate; rewrite E; now apply validate_false).
  unfold target_number, target_with_frequency. rewrite V. auto.
Qed.
Print Assumptions C45_consistent_rejected_refuted.
Theorem C45_cadence_rejected_refuted : forall P (k : cadence f64 P) s ss, flat_map (@t_scans f64 P) (k_targets k) = s :: ss ->
  is_finite (s_fch1 s) = true \/ is_finite (s_foff s) = true ->
  cadence_validate ops64 k = false /\ cadence_number ops64 k = Throw RuntimeError /\
  (forall x, cadence_with_frequency ops64 k x = Throw RuntimeError).
Proof.
  intros P k s ss E H. assert (V : cadence_validate ops64 k = false) by (unfold cadence_validate; rewrite E; now apply validate_false).
  unfold cadence_number, cadence_with_frequency. rewrite V. auto.
Qed.
Print Assumptions C45_cadence_rejected_refuted.
(** In exact arithmetic the check is true exactly for targets without scans; their channel count is then undefined, and an
    error for a cadence. *)
Theorem C45_only_empty_accepted : forall P (t : target R P), target_validate opsR t = true <-> t_scans t = [].
Proof.
  intros P t. unfold target_validate. destruct (t_scans t) as [|s ss]; [split; reflexivity|].
  rewrite validate_false_R. split; discriminate.
Qed.
Print Assumptions C45_only_empty_accepted.
Theorem C45_empty_target : forall F P (O : numops F) (t : target F P), t_scans t = [] ->
  target_number O t = UB /\ forall x, target_with_frequency O t x = UB.
Proof. intros F P O t E. unfold target_number, target_with_frequency, target_validate. rewrite E. auto. Qed.
Print Assumptions C45_empty_target.
Theorem C45_empty_cadence : forall F P (O : numops F) (k : cadence F P), flat_map (@t_scans F P) (k_targets k) = [] ->
  cadence_number O k = Throw RuntimeError /\ forall x, cadence_with_frequency O k x = Throw RuntimeError.
Proof. intros F P O k E. unfold cadence_number, cadence_with_frequency, cadence_validate. rewrite E. auto. Qed.
Print Assumptions C45_empty_cadence.
Example C45_ex : let s := scan0 ops64 40 10 4 (dec ops64 (-27) 7) in
  target_validate ops64 (Target [s; s] "" (Dev DevCPU 0)) = false /\ is_finite (s_fch1 s) = true.
Proof. split; vm_compute; reflexivity. Qed.

(** ** C46 *)
Theorem C46_target_name : forall names,
  match named names with
  | [] => target_name names = "unknown"%string
  | n :: rest =>
    ((forall m, In m rest -> m = n) -> target_name names = n) /\
    (exists q, target_name names = (n ++ q)%string) /\
    (forall m, In m (n :: rest) -> exists p q, target_name names = (p ++ m ++ q)%string)
  end.
Proof. exact target_name_spec. Qed.
Print Assumptions C46_target_name.
Example C46_ex : target_name ["a"; ""; "b"; "a"]%string = "a::b::a"%string /\ target_name [""]%string = "unknown"%string /\
  target_name ["a"; "a"]%string = "a"%string.
Proof. repeat split. Qed.

(** ** C47 *)
(** A refused device: targets, cadences and channels raise runtime_error and stay as they were. *)
Theorem C47_refused_changes_nothing : forall F P valid d, refused valid d = true ->
  (forall (t : target F P) h, target_set_device valid t h d = (Throw RuntimeError, (t, h))) /\
  (forall (k : cadence F P) h, cadence_set_device valid k h d = (Throw RuntimeError, (k, h))) /\
  (forall c : chan F P, chan_set_device valid d c = Throw RuntimeError).
Proof.
  intros F P valid d R. unfold target_set_device, cadence_set_device, chan_set_device. rewrite R. auto.
Qed.
Print Assumptions C47_refused_changes_nothing.
(** A usable device: every target, scan and channel read so far is on it, and nothing else changes. *)
Theorem C47_accepted_reaches_all : forall F P valid d (k : cadence F P) h, refused valid d = false ->
  Forall (fun t => Forall (closed h) (t_scans t)) (k_targets k) ->
  exists h', cadence_set_device valid k h d = (Ok tt, (Cadence (map (moved d) (k_targets k)) d, h')) /\ device_stays d h h' /\
    Forall (fun t => Forall (fun s => on_device d h' (s_cache s)) (t_scans t)) (k_targets k).
Proof. intros F P valid d k h. now apply cadence_set_ok. Qed.
Print Assumptions C47_accepted_reaches_all.
(** A scan is not all-or-nothing: the refused device is stored before the check, the call raises runtime_error, and every
    later read of a channel it has read raises too. *)
Theorem C47_scan_keeps_refused_device_refuted : forall F P (O : numops F) valid d (s : scan F P) h, refused valid d = true ->
  exists s', scan_set_device valid s h d = (Throw RuntimeError, (s', h)) /\ s_device s' = d /\
    forall i a c, 0 <= i <= s_num s -> lookup (to_int32 (i + s_start s)) (s_cache s) = Some a -> nth_error h a = Some c ->
      fst (read_channel O valid s' h i) = Throw RuntimeError.
Proof.
  intros F P O valid d s h R. exists (with_scan_device s d). unfold scan_set_device. rewrite R.
  split; [reflexivity|]. split; [reflexivity|]. intros i a c HI L N. unfold read_channel. cbn [s_num s_start s_cache with_scan_device].
  replace ((i <? 0) || (s_num s <? i)) with false by lia. rewrite L. unfold serve. rewrite N. unfold chan_set_device.
  cbn [s_device with_scan_device]. rewrite R. reflexivity.
Qed.
Print Assumptions C47_scan_keeps_refused_device_refuted.
Definition no_cuda : Z -> bool := fun _ => false.
Example C47_ex : refused no_cuda (Dev DevCUDA 0) = true /\ refused no_cuda (Dev DevCPU 0) = false /\
  match opened 10 with
  | Ok root =>
    let r := read_channel ops64 no_cuda root [] 1 in
    let s := fst (snd r) in let h := snd (snd r) in
    let q := scan_set_device no_cuda s h (Dev DevCUDA 0) in
    (fst q, omap (fun c => c_number c) (fst (read_channel ops64 no_cuda s h 1)),
     omap (fun c => c_number c) (fst (read_channel ops64 no_cuda (fst (snd q)) h 1)))
  | _ => (UB, UB, UB) end = (Throw RuntimeError, Ok 1, Throw RuntimeError).
Proof. repeat split; vm_compute; reflexivity. Qed.

(** ** C57 *)
(** Which files have a shape, and which: the three named axes are present (the first of each name counts), the feed axis has
    one entry, and every other axis has a size different from one. *)
Theorem C57_shapes_accepted : forall f sh,
  get_data_shape f = Ok sh <->
  exists labels n t c, h_labels f = Some labels /\ h_nchans f = Some n /\
    (List.length (h_dims f) <= List.length labels)%nat /\
    let axes := combine labels (h_dims f) in
    size_of "time" axes = Some t /\ size_of "frequency" axes = Some c /\ size_of "feed_id" axes = Some 1 /\
    Forall (fun a => snd a <> 1) (extra axes) /\ sh = shape_of t 1 c n.
Proof. exact get_data_shape_ok. Qed.
Print Assumptions C57_shapes_accepted.
Example C57_ex : get_data_shape file0 = Ok [3; 1; 40] /\
  get_data_shape (H5 [3; 1; 40] (Some ["frequency"; "feed_id"; "time"]%string) (Some 40) (fun p => p)) = Ok [3; 1; 40] /\
  get_data_shape (H5 [3; 1; 40] None (Some 40) (fun p => p)) = Throw InvalidArgument.
Proof. repeat split. Qed.
(** The test on further axes is inverted: a fourth axis of size one is refused, one of any other size is accepted. *)
Theorem C57_extra_axis_refuted : forall T C n x name cell, ~ In name axes3 ->
  get_data_shape (H5 [T; 1; C; x] (Some (axes3 ++ [name])) (Some n) cell) =
  if x =? 1 then Throw InvalidArgument else Ok (shape_of T 1 C n).
Proof.
  intros T C n x name cell NI. unfold get_data_shape. cbn [h_labels required obind h_dims axes3 app].
  assert (N1 : String.eqb name "time" = false) by (apply String.eqb_neq; intros ->; apply NI; cbn; auto).
  assert (N2 : String.eqb name "frequency" = false) by (apply String.eqb_neq; intros ->; apply NI; cbn; auto).
  assert (N3 : String.eqb name "feed_id" = false) by (apply String.eqb_neq; intros ->; apply NI; cbn; auto).
  cbn. destruct (Z.eqb_spec x 1); cbn; [reflexivity|]. unfold shape_of. destruct (_ && _); reflexivity.
Qed.
Print Assumptions C57_extra_axis_refuted.
(** Such a file cannot be read: the hyperslab selection reads past the three offsets. *)
Theorem C57_extra_axis_unreadable : forall f sh o0 o1 o2 c0 c1 c2, get_data_shape f = Ok sh -> (3 < List.length (h_dims f))%nat ->
  read_data f [o0; o1; o2] [c0; c1; c2] = UB.
Proof.
  intros f sh o0 o1 o2 c0 c1 c2 E L. unfold read_data. rewrite E. cbn [obind List.length].
  replace ((3 <? List.length (h_dims f))%nat || (3 <? List.length (h_dims f))%nat) with true; [reflexivity|].
  symmetry. apply orb_true_iff. left. now apply Nat.ltb_lt.
Qed.
Print Assumptions C57_extra_axis_unreadable.

(** ** C66: what is read depends on the order of the axes in the file *)
(** (time, feed, frequency) in the file: rows of the requested fine channels. *)
Theorem C66_read_in_order : forall T C o n cell, 0 <= o -> 0 <= n ->
  read_data (H5 [T; 1; C] (Some axes3) (Some C) cell) [0; 0; o] [T; 1; n] =
  if o + n <=? C then Ok (rows (fun t c => cell (t * C + c)) T o n) else Throw OtherExn.
Proof.
  intros T C o n cell Ho Hn. erewrite read_data_rows; [|reflexivity| |exact Ho].
  - replace (T <=? T) with true by lia. reflexivity.
  - unfold get_data_shape. cbn. instantiate (1 := [T; 1; C]). rewrite Z.eqb_refl. cbn. rewrite andb_false_r. reflexivity.
Qed.
Print Assumptions C66_read_in_order.
(** (frequency, feed, time) in the file, labelled so: the same shape is reported, but the request for fine channels [o, o+n)
    returns time steps [o, o+n) of the first T frequencies, or an error. *)
Theorem C66_read_transposed_refuted : forall T C o n cell, 0 <= o -> 0 <= n ->
  let f := H5 [C; 1; T] (Some (rev axes3)) (Some C) cell in
  get_data_shape f = Ok [T; 1; C] /\
  read_data f [0; 0; o] [T; 1; n] =
  if (T <=? C) && (o + n <=? T) then Ok (rows (fun c t => cell (c * T + t)) T o n) else Throw OtherExn.
Proof.
  intros T C o n cell Ho Hn f. assert (S : get_data_shape f = Ok [T; 1; C]).
  { unfold f, get_data_shape. cbn. rewrite Z.eqb_refl. cbn. rewrite andb_false_r. reflexivity. }
  split; [exact S|]. now apply (read_data_rows f C T o n T [T; 1; C]).
Qed.
Print Assumptions C66_read_transposed_refuted.
Example C66_ex : read_data file0 [0; 0; 7] [3; 1; 2] = Ok [7; 8; 47; 48; 87; 88] /\
  read_data (H5 [4; 1; 3] (Some (rev axes3)) (Some 4) (fun p => p)) [0; 0; 1] [3; 1; 2] = Ok [1; 2; 4; 5; 7; 8].
Proof. split; vm_compute; reflexivity. Qed.

(** ** C64: flagging or equalising a whole scan has no effect *)
(** Whatever the flagger computes, the scan (and every stored channel) after the loop is the same, so no later read can
    see a flag. *)
Theorem C64_flagging_a_scan_refuted : forall F P (O : numops F) valid (f g : chan F P -> outcome (chan F P)) s h,
  (forall c, exists c', f c = Ok c') -> (forall c, exists c', g c = Ok c') ->
  flag_each O valid f s h = flag_each O valid g s h.
Proof. intros F P O valid f g s h. apply flag_copies_blind. Qed.
Print Assumptions C64_flagging_a_scan_refuted.
Theorem C64_pipeline_unchanged : forall F P (O : numops F) valid (f : chan F P -> outcome (chan F P)) s h r s' h',
  flag_each O valid f s h = (r, (s', h')) -> s_pipe s' = s_pipe s /\ (forall t, r = Ok t -> t = s').
Proof. intros F P O valid f s h r s' h'. apply flag_copies_pipe. Qed.
Print Assumptions C64_pipeline_unchanged.
Example C64_ex : match opened 10 with
  | Ok root => let r := flag_each ops64 all_valid double root [] in
      match fst r with
      | Ok s => omap (fun c => (c_number c, c_nchans c)) (fst (read_channel ops64 all_valid s (snd (snd r)) 2))
      | _ => UB end
  | _ => UB end = Ok (2, 10) /\
  match opened 10 with
  | Ok root => omap (fun c => (c_number c, c_nchans c)) (fst (read_channel ops64 all_valid (add_transform root double) [] 2))
  | _ => UB end = Ok (2, 20).
Proof. split; vm_compute; reflexivity. Qed.

(** ** C65: a slice of a target or cadence keeps the scans but not the name and device *)
Theorem C65_slice_target : forall F P (O : numops F) dflt (t t' : target F P) start count,
  slice_target O dflt t start count = Ok t' ->
  Forall2 (fun s s' => slice_scan O s start count = Ok s') (t_scans t) (t_scans t') /\ t_name t' = ""%string /\ t_device t' = dflt.
Proof.
  intros F P O dflt t t' start count E. unfold slice_target in E.
  destruct (each (fun s => slice_scan O s start count) (t_scans t)) as [ss|e|] eqn:S; cbn [obind] in E; try discriminate.
  injection E as <-. cbn. split; [|auto]. revert ss S. induction (t_scans t) as [|s l IH]; intros ss S; cbn in S.
  - injection S as <-. constructor.
  - destruct (slice_scan O s start count) as [s'|e|] eqn:E; cbn in S; try discriminate.
    destruct (each _ l) as [ss'|e|]; cbn in S; try discriminate. injection S as <-. constructor; auto.
Qed.
Print Assumptions C65_slice_target.
Theorem C65_slice_loses_name_refuted : forall F P (O : numops F) dflt (ss : list (scan F P)) t' start count,
  slice_target O dflt (target_of_scans dflt ss) start count = Ok t' ->
  t_name t' = ""%string /\ t_name (target_of_scans dflt ss) <> ""%string.
Proof.
  intros F P O dflt ss t' start count E. apply C65_slice_target in E. destruct E as (_ & N & _). split; [exact N|].
  unfold target_of_scans, target_name. cbn [t_name]. destruct (String.eqb_spec (join_names "" (map (fun s => a_source (s_about s)) ss)) ""); [discriminate|assumption].
Qed.
Print Assumptions C65_slice_loses_name_refuted.
Example C65_ex : let s := scan0 ops64 40 10 4 (dec ops64 (-27) 7) in
  omap (fun t => (t_name t, map (fun s => s_start s) (t_scans t))) (slice_target ops64 (Dev DevCPU 0) (target_of_scans (Dev DevCPU 0) [s; s]) 1 2)
  = Ok (""%string, [1; 1]) /\ t_name (target_of_scans (Dev DevCPU 0) [s; s]) = "VOYAGER-1"%string.
Proof. split; vm_compute; reflexivity. Qed.

(** ** C67: the hits of a scan *)
(** The list of hits is that of channels 0, 1, ... concatenated; a channel whose hits fail with a logic error contributes none. *)
Theorem C67_scan_hits : forall F P A (O : numops F) valid (hits_of : chan F P -> outcome (list A)) s h cs s' h',
  (forall c, hits_of c <> UB) -> (forall c e, hits_of c = Throw e -> is_logic e = true) ->
  read_all O valid s h (zrange (to_int32 (s_num s))) cs s' h' ->
  scan_hits O valid hits_of s h = (Ok (flat_map (hits_or_skip hits_of) cs), (s', h')).
Proof.
  intros F P A O valid hits_of s h cs s' h' NU NL R.
  exact (gather_spec O valid hits_of _ s h [] cs NU NL s' h' R).
Qed.
Print Assumptions C67_scan_hits.
Example C67_ex : match opened 10 with
  | Ok root => fst (scan_hits ops64 all_valid (fun c => if c_number c =? 1 then Throw LogicError else Ok [c_number c; c_number c * 10]) root [])
  | _ => UB end = Ok [0; 0; 2; 20; 3; 30].
Proof. vm_compute. reflexivity. Qed.
