(** Hit, event and scan files and the command line program: C52-C54, C58, C71-C73. *)
From Coq Require Import Reals Lra ZArith Lia String.
From Flocq Require Import Core BinarySingleNaN.
From Verif Require Import FileModel FileBits FileProofs FileScanProofs FileProofs2 HitFacts DriftFloatProofs BaseFacts.
From Verif Require DriftAgree.
From Verif Require Import ScanModel.
Local Open Scope Z_scope.
Local Open Scope list_scope.

(** ** What the files are expected to keep *)
(** [y] is the binary32 number nearest to [x], ties to even, kept in a double: infinite beyond the range; infinities and NaN stay. *)
Definition to_single (x y : f64) : Prop :=
  match x with
  | B754_nan => y = B754_nan
  | B754_infinity s => y = B754_infinity s
  | _ =>
    let r := Generic_fmt.round radix2 (FLT.FLT_exp (-149) 24) ZnearestE (B2R x) in
    ((Rabs r < bpow radix2 128)%R -> is_finite y = true /\ B2R y = r) /\
    ((bpow radix2 128 <= Rabs r)%R -> is_finite y = false /\ is_nan y = false)
  end.
Definition low_part (z z' : Z) : Prop := - 2 ^ 31 <= z' < 2 ^ 31 /\ (z' - z) mod 2 ^ 32 = 0.
Definition comes_back (h h' : hit) : Prop :=
  h_freq h' = h_freq h /\ h_drift h' = h_drift h /\ h_snr h' = h_snr h /\ h_band h' = h_band h /\ h_bins h' = h_bins h /\
  low_part (h_index h) (h_index h') /\ low_part (h_rate h) (h_rate h') /\ low_part (h_steps h) (h_steps h') /\
  to_single (h_time h) (h_time h') /\ to_single (h_dur h) (h_dur h') /\ to_single (h_power h) (h_power h') /\
  h_rfi h' = [] /\ h_coarse h' = 0.

Lemma low_part_int32 z : low_part z (to_int32 z).
Proof.
  split; [apply to_int32_int32|]. unfold to_int32. pose proof (Z.div_mod (z + 2 ^ 31) (2 ^ 32) ltac:(lia)) as D.
  replace ((z + 2 ^ 31) mod 2 ^ 32 - 2 ^ 31 - z) with ((- ((z + 2 ^ 31) / 2 ^ 32)) * 2 ^ 32) by lia. apply Z.mod_mul. lia.
Qed.
Lemma to_single_narrow x : to_single x (widen (narrow x)).
Proof.
  destruct x as [s|s| |s m e Hb]; cbn [to_single]; try reflexivity.
  - cbn [B2R narrow widen]. rewrite round_0 by apply valid_rnd_N. cbn [B2R is_finite is_nan]. split; [auto|]. rewrite Rabs_R0. intros H. exfalso. apply (Rlt_not_le _ _ (bpow_gt_0 radix2 128) H).
  - pose proof (binary_normalize_correct 24 128 prec24 emax128 mode_NE (cond_Zopp s (Zpos m)) e s) as C. cbv zeta in C.
    change (F2R (Float radix2 (cond_Zopp s (Z.pos m)) e)) with (B2R (B754_finite s m e Hb)) in C.
    change (SpecFloat.fexp 24 128) with (FLT.FLT_exp (-149) 24) in C. cbn [round_mode] in C.
    change (binary_normalize 24 128 prec24 emax128 mode_NE (cond_Zopp s (Z.pos m)) e s) with (narrow (B754_finite s m e Hb)) in C.
    set (r := Generic_fmt.round radix2 (FLT.FLT_exp (-149) 24) ZnearestE (B2R (B754_finite s m e Hb))) in *.
    split; intros H.
    + rewrite Rlt_bool_true in C by exact H. destruct C as (C1 & C2 & _). destruct (widen_ok _ C2) as (W1 & W2). split; [exact W2|]. rewrite W1. exact C1.
    + rewrite Rlt_bool_false in C by exact H. destruct (narrow (B754_finite s m e Hb)); cbn in C; try discriminate. split; reflexivity.
Qed.
Lemma comes_back_reread h : comes_back h (reread h).
Proof. unfold comes_back, reread. cbn. repeat (split; [first [reflexivity | apply low_part_int32 | apply to_single_narrow]|]). reflexivity. Qed.

Definition narrow_width (h : hit) : Prop := Z.abs (h_bins h) <= 2 ^ 24.
Lemma reread_list hs : Forall2 comes_back hs (map reread hs).
Proof. induction hs; cbn [map]; constructor; auto using comes_back_reread. Qed.

(** A hit with every field set; its start time is a second count as hit_search computes it. *)
Definition sample (time steps coarse : Z) : hit :=
  Hit 123456 (f64_of_Z 8421) (f64_of_Z time) (f64_of_Z 300) (-17) (B754_zero true) (f64_of_Z 16777217) steps (f32_of_Z 12) (f32_of_Z 3) 9 [(1, 2); (2, 5)] coarse.
Definition is_z64 (x : f64) (z : Z) : bool := f64eq x (f64_of_Z z).

(** ** C52 *)
(** Whatever NaN payloads the processor stores and whatever the library does with messages this program never writes: writing and reading gives
    the hits in order, each kept as [comes_back] says. *)
Theorem C52_hits_come_back : forall p32 p64 other hs, 0 < p32 < 2 ^ 23 -> 0 < p64 < 2 ^ 52 -> Forall narrow_width hs ->
  exists hs', read_hits other (hits_file p32 p64 hs) = Ok hs' /\ Forall2 comes_back hs hs'.
Proof. intros p32 p64 other hs P Q B. exists (map reread hs). split; [apply read_hits_whole; auto|apply reread_list]. Qed.
Print Assumptions C52_hits_come_back.
Example C52_case : Forall narrow_width [sample 100 4 0; sample 5097643300 4 3] /\
  match read_hits (fun _ => None) (hits_file (2 ^ 22) (2 ^ 51) [sample 100 4 0; sample 5097643300 4 3]) with
  | Ok [a; b] => is_z64 (h_time a) 100 && is_z64 (h_freq b) 8421 && (h_bins b =? 9) && (h_rate b =? -17) && (h_index a =? 123456) = true
  | _ => False end.
Proof. split; [repeat constructor; unfold narrow_width; cbn; lia|]. vm_compute. reflexivity. Qed.

(** A second trip changes nothing more. *)
Theorem C52_second_trip : forall p32 p64 other hs hs', 0 < p32 < 2 ^ 23 -> 0 < p64 < 2 ^ 52 -> Forall narrow_width hs ->
  read_hits other (hits_file p32 p64 hs) = Ok hs' -> read_hits other (hits_file p32 p64 hs') = Ok hs'.
Proof.
  intros p32 p64 other hs hs' P Q B H. rewrite read_hits_whole in H by auto. injection H as <-.
  rewrite read_hits_whole; auto.
  - f_equal. rewrite map_map. apply map_ext. intros h. apply reread_twice.
  - apply Forall_forall. intros h Hh. apply in_map_iff in Hh as (g & <- & Hg). rewrite Forall_forall in B. exact (B g Hg).
Qed.
Print Assumptions C52_second_trip.
Example C52_second_case : exists hs', read_hits (fun _ => None) (hits_file (2 ^ 22) (2 ^ 51) [sample 5097643300 4 3]) = Ok hs'.
Proof. destruct (C52_hits_come_back (2 ^ 22) (2 ^ 51) (fun _ => None) [sample 5097643300 4 3]) as (hs' & E & _); try lia; [repeat constructor; unfold narrow_width; cbn; lia|eauto]. Qed.

(** "Every field survives" fails: flag counts and coarse channel number of any hit that has them are lost, and a start time in seconds of the
    modified Julian date is moved by minutes. *)
Theorem C52_flags_and_channel_lost_refuted : forall p32 p64 other h, 0 < p32 < 2 ^ 23 -> 0 < p64 < 2 ^ 52 -> narrow_width h ->
  (h_rfi h <> [] \/ h_coarse h <> 0) -> forall h', read_hits other (hits_file p32 p64 [h]) = Ok [h'] -> h' <> h.
Proof.
  intros p32 p64 other h P Q B H h' E. rewrite read_hits_whole in E by auto. injection E as <-. intros E.
  destruct H as [H|H]; apply H; rewrite <- E; reflexivity.
Qed.
Print Assumptions C52_flags_and_channel_lost_refuted.
Example C52_flags_case : narrow_width (sample 5097643300 4 3) /\ h_rfi (sample 5097643300 4 3) <> [] /\ h_coarse (sample 5097643300 4 3) <> 0.
Proof. repeat split; [unfold narrow_width; cbn; lia|discriminate|discriminate]. Qed.
Theorem C52_start_time_moves_refuted : forall p32 p64 other, 0 < p32 < 2 ^ 23 -> 0 < p64 < 2 ^ 52 ->
  match read_hits other (hits_file p32 p64 [sample 5097643300 4 3]) with Ok [h'] => is_z64 (h_time h') 5097643520 = true | _ => False end.
Proof. intros p32 p64 other P Q. rewrite read_hits_whole; auto; [|repeat constructor; cbn; lia]. vm_compute. reflexivity. Qed.
Print Assumptions C52_start_time_moves_refuted.

(** ** C53 *)
(** A file cut after any number of bytes yields exactly the hits whose 104 bytes are all there. *)
Theorem C53_truncated_file : forall p32 p64 other hs k, 0 < p32 < 2 ^ 23 -> 0 < p64 < 2 ^ 52 -> Forall narrow_width hs ->
  exists hs', read_hits other (firstn k (hits_file p32 p64 hs)) = Ok hs' /\ Forall2 comes_back (firstn (k / 104) hs) hs' /\
    read_hits other (hits_file p32 p64 (firstn (k / 104) hs)) = Ok hs'.
Proof.
  intros p32 p64 other hs k P Q B. exists (map reread (firstn (k / 104) hs)). split; [apply read_hits_cut; auto|]. split; [apply reread_list|].
  apply read_hits_whole; auto. rewrite <- (firstn_skipn (k / 104) hs) in B. apply Forall_app in B. tauto.
Qed.
Print Assumptions C53_truncated_file.
Theorem C53_size_of_file : forall p32 p64 hs, List.length (hits_file p32 p64 hs) = (104 * List.length hs)%nat.
Proof. intros. rewrite hits_file_flat, flat_length, map_length. reflexivity. Qed.
Print Assumptions C53_size_of_file.
Example C53_case : match read_hits (fun _ => None) (firstn 207 (hits_file (2 ^ 22) (2 ^ 51) [sample 100 4 0; sample 200 4 3])) with
  | Ok [a] => is_z64 (h_time a) 100 = true | _ => False end.
Proof. vm_compute. reflexivity. Qed.

(** A damaged segment table in the middle looks like the end of the file: the later hits are dropped and no error is reported. *)
Theorem C53_damage_hides_later_hits : forall p32 p64 other hs table rest, 0 < p32 < 2 ^ 23 -> 0 < p64 < 2 ^ 52 -> Forall narrow_width hs ->
  List.length table = 8%nat -> 511 <= of_le (firstn 4 table) < 2 ^ 32 - 1 ->
  exists hs', read_hits other (hits_file p32 p64 hs ++ table ++ rest) = Ok hs' /\ Forall2 comes_back hs hs'.
Proof.
  intros p32 p64 other hs t rest P Q B L T. exists (map reread hs). split; [|apply reread_list].
  unfold read_hits. rewrite hits_file_flat at 2. rewrite damaged; auto using all_in_schema.
  - rewrite each_map. apply each_ok. intros h Hh. apply signal_round. rewrite Forall_forall in B. exact (B h Hh).
  - rewrite app_length, hits_file_flat, flat_length, map_length. lia.
Qed.
Print Assumptions C53_damage_hides_later_hits.
Example C53_damage_case : match read_hits (fun _ => None) (hits_file (2 ^ 22) (2 ^ 51) [sample 100 4 0] ++ [0; 2; 0; 0; 12; 0; 0; 0] ++ skipn 8 (hits_file (2 ^ 22) (2 ^ 51) [sample 200 4 0; sample 300 4 0])) with
  | Ok [a] => is_z64 (h_time a) 100 = true | _ => False end.
Proof. vm_compute. reflexivity. Qed.

(** ** C54 *)
(** Reading with the path and format used for writing looks for the format that was written exactly when the format is "capnp", or is left out and
    the path does not end in ".dat". *)
Theorem C54_formats_agree : forall path fmt,
  read_format fmt = Ok (write_format path fmt) <-> fmt = "capnp"%string \/ (fmt = ""%string /\ ~ exists p, path = (p ++ ".dat")%string).
Proof.
  intros path fmt. unfold read_format, write_format. rewrite <- ends_with_spec.
  destruct (String.eqb_spec fmt "") as [->|N0].
  - cbn [orb]. destruct (ends_with path ".dat") eqn:E; cbn [String.eqb Ascii.eqb Bool.eqb].
    + split; [discriminate|]. intros [H|(_ & H)]; [discriminate|]. exfalso; auto.
    + split; [intros _; right; split; [auto|discriminate]|]. intros _. destruct (_ || _); reflexivity.
  - cbn [orb]. destruct (String.eqb_spec fmt "capnp") as [->|N1].
    + split; [auto|]. intros _. reflexivity.
    + split; [|intros [H|(H & _)]; contradiction]. destruct (_ || _); discriminate.
Qed.
Print Assumptions C54_formats_agree.
(** In every other case reading fails: with a runtime_error for "dat", "turboseti" and unknown names (the latter were written as capnp), *)
Theorem C54_other_formats_are_refused_refuted : forall path fmt, fmt <> "capnp"%string -> fmt <> ""%string ->
  read_format fmt = Throw RuntimeError /\ (write_format path fmt = Dat <-> fmt = "dat"%string).
Proof.
  intros path fmt H0 H1. unfold read_format, write_format. rewrite (proj2 (String.eqb_neq _ _) H0), (proj2 (String.eqb_neq _ _) H1). cbn [orb].
  split; [destruct (_ || _); reflexivity|]. destruct (String.eqb_spec fmt "dat") as [->|N]; split; intros Q; auto; first [contradiction | destruct (String.eqb fmt "capnp"); discriminate].
Qed.
Print Assumptions C54_other_formats_are_refused_refuted.
(** and when a text file is taken for capnp, whatever it holds after the first characters of its header: the scan reader throws. *)
Theorem C54_dat_read_as_capnp_throws_refuted : forall P (hold : list hit -> P) dec size rest,
  read_scan_bytes hold dec size (35 :: 32 :: 45 :: 45 :: rest) = Throw OtherExn.
Proof.
  intros. unfold read_scan_bytes. destruct (Z.ltb_spec (zlen (35 :: 32 :: 45 :: 45 :: rest)) 8); [reflexivity|].
  unfold segments. change (firstn 4 (35 :: 32 :: 45 :: 45 :: rest)) with [35; 32; 45; 45]. vm_compute (512 <=? _). reflexivity.
Qed.
Print Assumptions C54_dat_read_as_capnp_throws_refuted.
Example C54_cases : write_format "hits.dat" "" = Dat /\ read_format "" = Ok Capnp /\ write_format "hits.txt" "turboseti" = Capnp /\
  read_format "turboseti" = Throw RuntimeError /\ read_format "" = Ok (write_format "voyager.cp" "").
Proof. vm_compute. repeat split. Qed.

(** ** C58 *)
(** Without -o every scan is written to the file named after the first input, one after the other: the hits of the last scan are all that is left,
    and no other file changes. *)
Theorem C58_last_scan_only_refuted : forall S (hits : S -> outcome (list hit)) save name i inputs scans fmt fs bytes b,
  name i <> ""%string -> name i <> "-"%string -> name i <> "stdout"%string ->
  Forall2 (fun s c => (exists hs, hits s = Ok hs) /\ save (name i) "capnp"%string s = Ok c) scans (bytes ++ [b]) ->
  exists fs', cli_loop hits save name (i :: inputs) scans "" fmt fs [] = Ok (true, fs', []) /\ look fs' (name i) = Some b /\
    forall q, q <> name i -> look fs' q = look fs q.
Proof.
  intros S hits save name i inputs scans fmt fs bytes b H1 H2 H3 F.
  assert (Hne : scans <> []) by (intros ->; inversion F; destruct bytes; discriminate).
  rewrite (loop_named hits save name scans (i :: inputs) i fmt fs [] (bytes ++ [b])) by auto.
  destruct (loop_fixed hits save name scans (i :: inputs) (name i) "capnp" fs [] (bytes ++ [b]) H1 H2 H3 F) as (fs' & A & B & C).
  exists fs'. split; [exact A|]. split; [|exact B]. rewrite C, map_app. cbn [map]. apply last_last.
Qed.
Print Assumptions C58_last_scan_only_refuted.
(** The same with -o. *)
Theorem C58_explicit_path : forall S (hits : S -> outcome (list hit)) save name path inputs scans fmt fs bytes b,
  path <> ""%string -> path <> "-"%string -> path <> "stdout"%string ->
  Forall2 (fun s c => (exists hs, hits s = Ok hs) /\ save path fmt s = Ok c) scans (bytes ++ [b]) ->
  exists fs', cli_loop hits save name inputs scans path fmt fs [] = Ok (true, fs', []) /\ look fs' path = Some b /\
    forall q, q <> path -> look fs' q = look fs q.
Proof.
  intros S hits save name path inputs scans fmt fs bytes b H1 H2 H3 F.
  destruct (loop_fixed hits save name scans inputs path fmt fs [] (bytes ++ [b]) H1 H2 H3 F) as (fs' & A & B & C).
  exists fs'. split; [exact A|]. split; [|exact B]. rewrite C, map_app. cbn [map]. apply last_last.
Qed.
Print Assumptions C58_explicit_path.
(** Failures never reach the caller: the loop returns normally whatever scan::hits and the writers throw. *)
Theorem C58_errors_are_not_reported : forall S (hits : S -> outcome (list hit)) save name inputs scans path fmt fs e,
  cli_loop hits save name inputs scans path fmt fs [] <> Throw e.
Proof. intros. apply loop_never_throws. Qed.
Print Assumptions C58_errors_are_not_reported.
Example C58_case : cli_loop (fun n : Z => if n =? 9 then Throw OutOfRange else Ok []) (fun _ _ n => Ok [n]) (fun i => (i ++ ".capnp")%string)
    ["a"; "b"; "c"]%string [1; 2; 3] "" "" [] [] = Ok (true, [("a.capnp", [3]); ("a.capnp", [2]); ("a.capnp", [1])]%string, []) /\
  cli_loop (fun n : Z => if n =? 9 then Throw OutOfRange else Ok []) (fun _ _ n => Ok [n]) (fun i => (i ++ ".capnp")%string)
    ["a"; "b"; "c"]%string [1; 9; 3] "" "" [] [] = Ok (false, [("a.capnp", [1])]%string, []).
Proof. vm_compute. split; reflexivity. Qed.

(** ** C71: scan files *)
(** A scan all of whose channels have been read: the scan read back has the same number of channels, frequencies, source, position and times, and
    its hits are the scan's hits, kept as in a hits file.  [hold]: any representation of a channel that was given its hits.  [hits_of]:
    coarse_channel::hits.  [size]: the words of the encoded message. *)
Theorem C71_scan_comes_back : forall P valid (hits_of : chan f64 P -> outcome (list hit)) hold size s h m sh1 hs sh2,
  (forall hs a b c d e f g, hits_of (Chan (Processed (hold hs)) a b c d e f g) = Ok hs) ->
  scan_message valid hits_of s h = (Ok m, sh1) -> size m <= 8 * 2 ^ 20 ->
  (forall i, 0 <= i < to_int32 (s_num s) -> lookup (to_int32 (i + s_start s)) (s_cache s) <> None) ->
  scan_hits ops64 valid hits_of s h = (Ok hs, sh2) -> Forall narrow_width hs -> 0 < to_int32 (s_num s) ->
  exists s' h' hs', read_scan_file hold size m = Ok (s', h') /\ fst (scan_hits ops64 valid hits_of s' h') = Ok hs' /\ Forall2 comes_back hs hs' /\
    s_num s' = to_int32 (s_num s) /\ s_fch1 s' = s_fch1 s /\ s_foff s' = s_foff s /\ a_source (s_about s') = a_source (s_about s) /\
    a_raj (s_about s') = a_raj (s_about s) /\ a_dej (s_about s') = a_dej (s_about s) /\
    a_tsamp (s_about s') = a_tsamp (s_about s) /\ a_tstart (s_about s') = a_tstart (s_about s).
Proof.
  intros P valid hits_of hold size s h m sh1 hs sh2 Hb H Hz Hc Hh B Hn. unfold scan_hits in Hh.
  assert (Ef : filter (cached s) (zrange (to_int32 (s_num s))) = zrange (to_int32 (s_num s))).
  { apply DriftAgree.filter_all. intros i Hi. apply in_zrange in Hi. unfold cached. specialize (Hc i Hi). destruct (lookup _ _); congruence. }
  rewrite <- Ef in Hh.
  destruct (scan_round valid hits_of hold Hb s h m sh1 hs sh2 H Hh B Hn) as (s' & h' & R1 & R2 & R3 & R4 & R5 & R6 & R7 & R8 & R9 & R10 & _).
  exists s', h', (map reread hs). unfold read_scan_file. rewrite (proj2 (Z.ltb_ge _ _) Hz). rewrite R2. repeat split; auto using reread_list.
Qed.
Print Assumptions C71_scan_comes_back.

(** A scan with two channels that hold hits; the second is not in the scan's map when [only_first]. *)
Definition simple_hits (c : chan f64 (list hit)) : outcome (list hit) := match c_body c with Processed p => Ok p | Window _ _ => Throw LogicError end.
Definition sample_about : about f64 :=
  About (Some 20) (Some 32) (Some 1) "Voyager" (Some (f64_of_Z 12)) (Some (f64_of_Z 17)) (Some 6) (f64_of_Z 18) (f64_of_Z 59000) 1 None None.
Definition sample_heap : heap f64 (list hit) :=
  [Chan (Processed [sample 100 4 0; sample 200 4 0]) (f64_of_Z 8421) (f64_of_Z (-1)) 1048576 16 sample_about 0 cpu;
   Chan (Processed [sample 300 4 1]) (f64_of_Z 8420) (f64_of_Z (-1)) 1048576 16 sample_about 1 cpu].
Definition sample_scan (only_first : bool) : scan f64 (list hit) :=
  Scan (if only_first then [(0, 0%nat)] else [(0, 0%nat); (1, 1%nat)]) None [] (f64_of_Z 8421) (f64_of_Z (-1)) 2097152 (Some 1048576) 2 0 16 sample_about cpu.
Example C71_case :
  (forall hs a b c d e f g, simple_hits (Chan (Processed hs) a b c d e f g) = Ok hs) /\
  (exists m sh, scan_message (fun _ => true) simple_hits (sample_scan false) sample_heap = (Ok m, sh)) /\
  (forall i, 0 <= i < to_int32 (s_num (sample_scan false)) -> lookup (to_int32 (i + 0)) (s_cache (sample_scan false)) <> None) /\
  match fst (scan_message (fun _ => true) simple_hits (sample_scan false) sample_heap) with
  | Ok m => match read_scan_file (fun hs => hs) (fun m => 9 * zlen (flat_map cm_hits (sm_channels m))) m with
            | Ok (s', h') => match fst (scan_hits ops64 (fun _ => true) simple_hits s' h') with
                             | Ok hs => map (fun h => f64eq (h_time h) (f64_of_Z 200)) hs = [false; true; false] | _ => False end
            | _ => False end
  | _ => False end.
Proof.
  split; [reflexivity|]. split; [eexists; eexists; reflexivity|]. split.
  - intros i Hi. change (to_int32 (s_num (sample_scan false))) with 2 in Hi. assert (i = 0 \/ i = 1) as [-> | ->] by lia; discriminate.
  - vm_compute. reflexivity.
Qed.

(** A channel that nobody read before writing is not written: the file holds the hits of the channels in the scan's map only. *)
Theorem C71_unread_channels_are_dropped_refuted : forall P valid (hits_of : chan f64 P -> outcome (list hit)) hold s h m sh1 hs sh2,
  (forall hs a b c d e f g, hits_of (Chan (Processed (hold hs)) a b c d e f g) = Ok hs) ->
  scan_message valid hits_of s h = (Ok m, sh1) ->
  gather ops64 valid hits_of s h (filter (fun i => match lookup (to_int32 (i + s_start s)) (s_cache s) with Some _ => true | None => false end) (zrange (to_int32 (s_num s)))) [] = (Ok hs, sh2) ->
  Forall narrow_width hs -> 0 < to_int32 (s_num s) ->
  exists s' h' hs', scan_of_message hold m = Ok (s', h') /\ fst (scan_hits ops64 valid hits_of s' h') = Ok hs' /\ Forall2 comes_back hs hs' /\
    forall i, 0 <= i < to_int32 (s_num s) -> lookup (to_int32 (i + s_start s)) (s_cache s) = None ->
      exists c, nth_error h' (Z.to_nat i) = Some c /\ hits_of c = Ok [] /\ c_fch1 c = f64_of_Z 0 /\ c_foff c = f64_of_Z 0 /\ c_nchans c = 0.
Proof.
  intros P valid hits_of hold s h m sh1 hs sh2 Hb H Hh B Hn.
  destruct (scan_written valid hits_of _ _ _ _ H) as (H0 & M & _).
  destruct (messages_gather valid hits_of _ _ _ _ [] _ _ M) as (hss & ms' & G' & Ms & L & C & N). cbn in Ms. subst ms'.
  destruct (scan_round valid hits_of hold Hb s h m sh1 hs sh2 H Hh B Hn) as (s' & h' & R1 & R2 & _).
  exists s', h', (map reread hs). rewrite R2. split; [exact R1|]. split; [reflexivity|]. split; [apply reread_list|].
  intros i Hi Hl.
  assert (E : nth_error (sm_channels m) (Z.to_nat i) = Some no_channel).
  { apply (N (Z.to_nat i) i); [|unfold cached; rewrite Hl; reflexivity]. unfold zrange.
    rewrite nth_error_map. rewrite (nth_error_nth' (seq 0 (Z.to_nat (to_int32 (s_num s)))) 0%nat) by (rewrite seq_length; lia).
    rewrite seq_nth by lia. cbn [option_map]. f_equal. lia. }
  unfold scan_of_message in R1. destruct (each (channel_of_message hold) (sm_channels m)) as [cs| |] eqn:Ec; try discriminate. cbn [obind] in R1.
  assert (Eh : h' = cs).
  { destruct (scan_of_channels _ cs) as [s0| |]; try discriminate. cbn [obind] in R1. injection R1 as _ <-. reflexivity. }
  subst cs. apply each_Forall2 in Ec.
  assert (X : exists c, nth_error h' (Z.to_nat i) = Some c /\ channel_of_message hold no_channel = Ok c).
  { clear -Ec E. revert E. generalize (Z.to_nat i). induction Ec as [|a c l l' Ha _ IH]; intros [|k] E; cbn [nth_error] in *; try discriminate; eauto. injection E as ->. eauto. }
  destruct X as (c & X1 & X2). exists c. split; [exact X1|]. cbn in X2. injection X2 as <-. cbn. rewrite Hb. repeat split.
Qed.
Print Assumptions C71_unread_channels_are_dropped_refuted.
Example C71_unread_case :
  (exists m sh, scan_message (fun _ => true) simple_hits (sample_scan true) sample_heap = (Ok m, sh)) /\
  match fst (scan_message (fun _ => true) simple_hits (sample_scan true) sample_heap) with
  | Ok m => match scan_of_message (fun hs => hs) m with
            | Ok (s', h') => match fst (scan_hits ops64 (fun _ => true) simple_hits s' h') with Ok hs => List.length hs = 2%nat | _ => False end
            | _ => False end
  | _ => False end.
Proof. split; [eexists; eexists; reflexivity|]. vm_compute. reflexivity. Qed.

(** A scan that was read from a file cannot be written again (the telescope is not restored), and a file of a scan without channels cannot be
    read. *)
Theorem C71_not_written_twice : forall P valid (hits_of : chan f64 P -> outcome (list hit)) hold m s h h2,
  scan_of_message hold m = Ok (s, h) -> fst (scan_message valid hits_of s h2) = Throw BadOptionalAccess.
Proof.
  intros P valid hits_of hold m s h h2 H. unfold scan_of_message in H. destruct (each _ _) as [cs| |]; try discriminate. cbn [obind] in H.
  unfold scan_of_channels in H. destruct (lookup 0 _); try discriminate. destruct (nth_error cs n); try discriminate. cbn in H. injection H as <- <-. reflexivity.
Qed.
Print Assumptions C71_not_written_twice.
Theorem C71_no_channels : forall P (hold : list hit -> P) md, scan_of_message hold (ScanMsg md []) = Throw OutOfRange.
Proof. reflexivity. Qed.
Print Assumptions C71_no_channels.
(** A scan with more than 932067 hits can be written but not read back, whatever else its message holds: a hit takes nine words. *)
Theorem C71_many_hits_refuted : forall P valid (hits_of : chan f64 P -> outcome (list hit)) (hold : list hit -> P) size s h m sh1 hs sh2,
  (forall m, 9 * zlen (flat_map cm_hits (sm_channels m)) <= size m) ->
  scan_message valid hits_of s h = (Ok m, sh1) ->
  (forall i, 0 <= i < to_int32 (s_num s) -> lookup (to_int32 (i + s_start s)) (s_cache s) <> None) ->
  scan_hits ops64 valid hits_of s h = (Ok hs, sh2) -> 932067 < zlen hs ->
  read_scan_file hold size m = Throw OtherExn.
Proof.
  intros P valid hits_of hold size s h m sh1 hs sh2 Hz H Hc Hh Hn. destruct (scan_written valid hits_of _ _ _ _ H) as (H0 & M & _).
  destruct (messages_gather valid hits_of _ _ _ _ [] _ _ M) as (hss & ms' & G' & Ms & L & C & N). cbn in Ms. subst ms'.
  assert (Ef : filter (cached s) (zrange (to_int32 (s_num s))) = zrange (to_int32 (s_num s))).
  { apply DriftAgree.filter_all. intros i Hi. apply in_zrange in Hi. unfold cached. specialize (Hc i Hi). destruct (lookup _ _); congruence. }
  unfold scan_hits in Hh. rewrite Ef, Hh in G'. injection G' as -> _. cbn [app] in Hn.
  specialize (Hz m). rewrite flat_map_concat_map, C in Hz. unfold zlen in *. rewrite map_length in Hz.
  unfold read_scan_file. rewrite (proj2 (Z.ltb_lt _ _)) by lia. reflexivity.
Qed.
Print Assumptions C71_many_hits_refuted.
Example C71_many_case : exists s h m sh hs sh2, scan_message (fun _ => true) simple_hits s h = (Ok m, sh) /\
  scan_hits ops64 (fun _ => true) simple_hits s h = (Ok hs, sh2) /\ 932067 < zlen hs /\ s_num s = 1 /\ lookup 0 (s_cache s) = Some 0%nat.
Proof.
  set (hs := repeat (sample 100 4 0) (Z.to_nat 932068)).
  exists (Scan [(0, 0%nat)] None [] (f64_of_Z 8421) (f64_of_Z (-1)) 1048576 (Some 1048576) 1 0 16 sample_about cpu),
    [Chan (Processed hs) (f64_of_Z 8421) (f64_of_Z (-1)) 1048576 16 sample_about 0 cpu].
  eexists; eexists; exists hs; eexists. split; [reflexivity|]. split; [reflexivity|].
  split; [unfold zlen, hs; rewrite repeat_length; lia|]. split; reflexivity.
Qed.

(** ** C72: event files *)
(** For every encoding of lists of signals that the library may use ([codec]: what it wrote it decodes and leaves the rest, an incomplete message
    or one above the limit of 8 Mi words raises an exception). *)
Theorem C72_events_come_back : forall enc dec es, codec enc dec -> Forall (fun e => Forall narrow_width (ev_hits e)) es ->
  Forall (fun e => 3 + 22 * zlen (ev_hits e) <= 8 * 2 ^ 20) es ->
  exists es', read_events dec (write_events enc es) = Ok es' /\ Forall2 (fun e e' => Forall2 comes_back (ev_hits e) (ev_hits e')) es es'.
Proof.
  intros enc dec es C B F. exists (map reread_event es). split; [apply events_whole; auto|].
  clear. induction es; cbn [map]; constructor; auto. apply reread_list.
Qed.
Print Assumptions C72_events_come_back.
Definition sample_event (hs : list hit) : event := Event hs (f64_of_Z 8421) (f32_of_Z 9) (f32_of_Z 3) (f32_of_Z 12) (f64_of_Z 1) (f64_of_Z 100) (f64_of_Z 400).
Example C72_case : exists enc dec, codec enc dec /\
  match read_events dec (write_events enc [sample_event [sample 100 4 0; sample 200 4 0]; sample_event [sample 300 4 0]]) with
  | Ok [a; b] => map (fun h => f64eq (h_time h) (f64_of_Z 200)) (ev_hits a) = [false; true] /\ List.length (ev_hits b) = 1%nat | _ => False end.
Proof.
  exists (toy_enc (2 ^ 22) (2 ^ 51)), (toy_dec (fun _ => None)). split; [apply toy_codec; lia|]. vm_compute. split; reflexivity.
Qed.
(** The summary of an event is not stored: frequency, power, width, snr, drift rate, start and end of every event read are zero. *)
Theorem C72_summaries_are_lost_refuted : forall enc dec es es', codec enc dec -> Forall (fun e => Forall narrow_width (ev_hits e)) es ->
  Forall (fun e => 3 + 22 * zlen (ev_hits e) <= 8 * 2 ^ 20) es -> read_events dec (write_events enc es) = Ok es' ->
  Forall (fun e => is_z64 (ev_freq e) 0 && is_z64 (ev_drift e) 0 && is_z64 (ev_start e) 0 && is_z64 (ev_end e) 0 &&
                   f32eq (ev_power e) (f32_of_Z 0) && f32eq (ev_band e) (f32_of_Z 0) && f32eq (ev_snr e) (f32_of_Z 0) = true) es'.
Proof.
  intros enc dec es es' C B F H. rewrite (events_whole enc dec C) in H by auto. injection H as <-. apply Forall_forall. intros e He.
  apply in_map_iff in He as (e0 & <- & _). vm_compute. reflexivity.
Qed.
Print Assumptions C72_summaries_are_lost_refuted.
(** A file cut anywhere yields the events that are complete. *)
Theorem C72_truncated : forall enc dec es k, codec enc dec -> Forall (fun e => Forall narrow_width (ev_hits e)) es ->
  Forall (fun e => 3 + 22 * zlen (ev_hits e) <= 8 * 2 ^ 20) es -> (k < List.length (write_events enc es))%nat ->
  exists es1 e es2 es', es = es1 ++ e :: es2 /\ (List.length (write_events enc es1) <= k < List.length (write_events enc (es1 ++ [e])))%nat /\
    read_events dec (firstn k (write_events enc es)) = Ok es' /\ Forall2 (fun e e' => Forall2 comes_back (ev_hits e) (ev_hits e')) es1 es'.
Proof.
  intros enc dec es k C B F K. destruct (cut_somewhere enc es k K) as (es1 & e & es2 & j & E & J & D & Ek).
  exists es1, e, es2, (map reread_event es1). split; [exact E|].
  assert (B1 : Forall narrow_bins es1) by (subst es; apply Forall_app in B; tauto).
  assert (F1 : Forall few es1) by (subst es; apply Forall_app in F; tauto).
  split; [|split].
  - unfold write_events in *. rewrite flat_map_app, app_length. cbn [flat_map]. rewrite app_nil_r. lia.
  - rewrite D. apply (events_cut enc dec C); auto.
  - clear. induction es1; cbn [map]; constructor; auto. apply reread_list.
Qed.
Print Assumptions C72_truncated.
(** An event of more than 381300 hits ends the reading: it and every later event are dropped without an error. *)
Theorem C72_large_event_hides_the_rest_refuted : forall enc dec es e es', codec enc dec -> Forall (fun e => Forall narrow_width (ev_hits e)) es ->
  Forall (fun e => zlen (ev_hits e) <= 381300) es -> 381300 < zlen (ev_hits e) ->
  exists got, read_events dec (write_events enc (es ++ e :: es')) = Ok got /\ List.length got = List.length es.
Proof.
  intros enc dec es e es' C B F N. exists (map reread_event es). rewrite map_length. split; [|reflexivity]. apply events_stop; auto.
  - eapply Forall_impl; [|exact F]. intros x Hx. cbv beta in Hx. unfold few. lia.
  - unfold few. lia.
Qed.
Print Assumptions C72_large_event_hides_the_rest_refuted.
Example C72_large_case : exists enc dec e, codec enc dec /\ 381300 < zlen (ev_hits e).
Proof.
  exists (toy_enc (2 ^ 22) (2 ^ 51)), (toy_dec (fun _ => None)), (sample_event (repeat (sample 100 4 0) (Z.to_nat 400000))). split; [apply toy_codec; lia|].
  cbn [sample_event ev_hits]. unfold zlen. rewrite repeat_length. lia.
Qed.

(** ** C73: targets and cadences *)
(** The scans of a target, and the targets of a cadence, are stored in order, each as its own scan message. *)
Theorem C73_targets_keep_their_scans : forall P valid (hits_of : chan f64 P -> outcome (list hit)) (hold : list hit -> P) ts h ms h',
  target_messages valid hits_of ts h = (Ok ms, h') ->
  Forall2 (fun t tm => Forall2 (fun s m => exists h0, fst (scan_message valid hits_of s h0) = Ok m) (t_scans t) tm) ts ms /\
  forall got, targets_of_messages hold ms = Ok got -> Forall2 (fun tm g => Forall2 (fun m sh => scan_of_message hold m = Ok sh) tm g) ms got.
Proof.
  intros P valid hits_of hold ts h ms h' H. split; [eapply targets_in_order; eauto|]. intros got G. unfold targets_of_messages in G. apply each_Forall2 in G.
  clear H. induction G as [|tm g l l' Hg _ IH]; constructor; [apply each_Forall2; exact Hg|exact IH].
Qed.
Print Assumptions C73_targets_keep_their_scans.
Example C73_case : exists ms h', target_messages (fun _ => true) simple_hits [Target [sample_scan false; sample_scan true] "Voyager" cpu; Target [sample_scan false] "OFF" cpu] sample_heap = (Ok ms, h') /\
  match targets_of_messages (fun hs : list hit => hs) ms with Ok [[_; _]; [_]] => True | _ => False end.
Proof. eexists; eexists. split; [reflexivity|]. vm_compute. exact I. Qed.
