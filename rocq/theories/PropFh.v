(** C112: bliss_find_hits on the CPU. *)
From Verif Require Import NdMemFacts NdProofs NdProofs2 RedProofs2 RedProofs3 FlagProofs FlagProofs3 PropFlag FhModel PropLax.
From Coq Require Import ZifyBool ZifyNat Lia Reals String List.
From Flocq Require Import Core BinarySingleNaN.
Import ListNotations.
Local Open Scope Z_scope.

Section Steps.
  Context {F R : Type} (O : numops F) (valid : Z -> bool).
  Notation channel := (chan F (contents R)).
  Variables (read : list Z -> list Z -> outcome (arr f32)) (new_mask : list Z -> list Z -> outcome (arr Z)) (r0 : R).
  Variables (xa xb : Z -> Z) (lowest : f32) (junk : Z -> f32) (gpu_normalize : arr f32 -> outcome (arr f32)) (gpu_sigmaclip : arr f32 -> outcome (arr Z)).
  Variables (zero : f64) (add : f64 -> f32 -> f64) (fin : f64 -> Z -> f32 * f32) (jm : Z -> f32 * f32) (clip : arr (f32 * f32) -> outcome (arr Z)) (jz : Z -> Z).
  Notation clipping := (sigmaclip_step read new_mask r0 xa xb gpu_sigmaclip zero add fin jm clip jz).
  Notation normalizing := (normalize_step read new_mask r0 xa xb lowest junk gpu_normalize).
  Notation flagging := (flag_step read r0).

  Definition bad {A} (r : outcome A) : Prop := forall a, r <> Ok a.
  Lemma clip_cpu (c : channel) : is_cpu (c_device c) = true -> bad (clipping c) /\ (forall d m, data_of read c = Ok d -> mask_of new_mask c = Ok m -> clipping c = Throw RuntimeError).
  Proof.
    intros Hd. split.
    - intros a. unfold sigmaclip_step. destruct (data_of read c) as [d| |]; cbn [obind]; try discriminate. destruct (mask_of new_mask c) as [m| |]; cbn [obind]; try discriminate. rewrite Hd. discriminate.
    - intros d m Ed Em. unfold sigmaclip_step. rewrite Ed, Em. cbn [obind]. rewrite Hd. reflexivity.
  Qed.
  Lemma norm_device (c c' : channel) : normalizing c = Ok c' -> c_device c' = c_device c.
  Proof. unfold normalize_step. destruct (data_of read c); cbn [obind]; try discriminate. destruct (if is_cpu (c_device c) then _ else _); cbn [obind]; try discriminate. intros Q. now injection Q as <-. Qed.
  Lemma flag_device f (c c' : channel) : flagging f c = Ok c' -> c_device c' = c_device c.
  Proof. unfold flag_step. destruct (f c); cbn [obind]; try discriminate. intros Q. now injection Q as <-. Qed.

  Lemma run_bad (p : list (channel -> outcome channel)) m : bad m -> fold_left (fun m f => obind m f) p m = match m with Ok c => Ok c | x => x end /\ bad (fold_left (fun m f => obind m f) p m).
  Proof. revert m. induction p as [|f p IH]; intros m H; cbn [fold_left]; [split; [now destruct m|exact H]|]. destruct m as [c| |]; [destruct (H c eq_refl)| |]; cbn [obind]; apply IH; intros a; discriminate. Qed.
  (** Steps that keep the device, then one that fails on the CPU. *)
  Definition keeps (f : channel -> outcome channel) : Prop := forall c c', f c = Ok c' -> c_device c' = c_device c.
  Lemma pipe_bad p f q : Forall keeps p -> (forall c, is_cpu (c_device c) = true -> bad (f c)) -> forall c, is_cpu (c_device c) = true -> bad (run_pipe (p ++ f :: q) c).
  Proof.
    intros Hp Hf. unfold run_pipe. induction Hp as [|g p Hg _ IH]; intros c Hc; cbn [List.app fold_left obind]; [apply run_bad; now apply Hf|].
    destruct (g c) as [c'| |] eqn:E; [apply IH; now rewrite (Hg c c' E)| |]; apply run_bad; intros a; discriminate.
  Qed.
  Lemma read_bad (s : scan F (contents R)) h i : is_cpu (s_device s) = true -> (forall c, is_cpu (c_device c) = true -> bad (run_pipe (s_pipe s) c)) -> bad (fst (read_channel O valid s h i)).
  Proof.
    intros Hd Hp. unfold read_channel. destruct (_ || _); [intros a; discriminate|].
    assert (Sv : forall s' h' a, s_device s' = s_device s -> s_pipe s' = s_pipe s -> bad (fst (serve valid s' h' a))).
    { intros s' h' a Ed Ep. unfold serve. destruct (nth_error h' a) as [c|]; [|intros x; discriminate]. rewrite Ed. unfold chan_set_device. destruct (refused valid (s_device s)); cbn [fst]; [intros x; discriminate|]. rewrite Ep. now apply Hp. }
    destruct (lookup _ _) as [a|]; [now apply Sv|]. destruct (let! c := new_chan O s i in chan_set_device valid (s_device s) c); cbn [fst]; [now apply Sv|intros x; discriminate|intros x; discriminate].
  Qed.
End Steps.

Lemma prepared {F R} ts (s : scan F (contents R)) : fold_left (fun s f => add_transform s f) ts s = with_pipe s (s_pipe s ++ ts).
Proof. revert s. induction ts as [|f ts IH]; intros s; cbn [fold_left]; [rewrite app_nil_r; destruct s; reflexivity|]. rewrite IH. unfold add_transform, with_pipe. cbn. now rewrite <- app_assoc. Qed.
Lemma gather_bad {F R A} (O : numops F) valid (hits_of : chan F (contents R) -> outcome (list A)) (s : scan F (contents R)) h n : 1 <= n -> bad (fst (read_channel O valid s h 0)) ->
  fst (gather O valid hits_of s h (zrange n) []) = match fst (read_channel O valid s h 0) with Throw e => Throw e | _ => UB end.
Proof.
  intros Hn Hb. assert (Q : exists r, zrange n = 0 :: r) by (unfold zrange; destruct (Z.to_nat n) as [|k] eqn:E; [lia|]; cbn; eauto). destruct Q as (r & ->). cbn [gather]. unfold and_then. destruct (fst (read_channel O valid s h 0)) as [c| |] eqn:E; [destruct (Hb c eq_refl)| |]; reflexivity.
Qed.

Section Cpu.
  Context {F R : Type} (O : numops F) (valid : Z -> bool).
  Notation channel := (chan F (contents R)).
  Variables (read : list Z -> list Z -> outcome (arr f32)) (new_mask : list Z -> list Z -> outcome (arr Z)) (r0 : R).
  Variables (xa xb : Z -> Z) (lowest : f32) (junk : Z -> f32) (gpu_normalize : arr f32 -> outcome (arr f32)) (gpu_sigmaclip : arr f32 -> outcome (arr Z)).
  Variables (zero : f64) (add : f64 -> f32 -> f64) (fin : f64 -> Z -> f32 * f32) (jm : Z -> f32 * f32) (clip : arr (f32 * f32) -> outcome (arr Z)) (jz : Z -> Z).
  Variables (rolloff kurtosis : channel -> outcome (outcome (arr Z))) (noise integrate search keep : channel -> outcome channel).
  Variables (hits_of : channel -> outcome (list hit)) (save : string -> string -> scan F (contents R) * heap F (contents R) -> outcome (list Z)) (name : string -> string).
  Notation pipe := (pipeline read new_mask r0 xa xb lowest junk gpu_normalize gpu_sigmaclip zero add fin jm clip jz rolloff kurtosis noise integrate search keep).
  Notation prog := (program O valid read new_mask r0 xa xb lowest junk gpu_normalize gpu_sigmaclip zero add fin jm clip jz rolloff kurtosis noise integrate search keep hits_of save name).
  Lemma pipe_split taps : exists p q, pipe taps = p ++ sigmaclip_step read new_mask r0 xa xb gpu_sigmaclip zero add fin jm clip jz :: q /\ Forall keeps p.
  Proof.
    destruct taps; cbn [pipeline List.app]; [exists [normalize_step read new_mask r0 xa xb lowest junk gpu_normalize; flag_step read r0 kurtosis]|exists [normalize_step read new_mask r0 xa xb lowest junk gpu_normalize; flag_step read r0 rolloff; flag_step read r0 kurtosis]]; eexists; (split; [reflexivity|]);
      repeat constructor; intros c c' E; first [eapply norm_device, E|eapply flag_device, E].
  Qed.
  Lemma first_read_bad taps (s : scan F (contents R)) h i : s_pipe s = [] -> is_cpu (s_device s) = true -> bad (fst (read_channel O valid (with_pipe s (pipe taps)) h i)).
  Proof.
    intros _ Hd. destruct (pipe_split taps) as (p & q & -> & Kp). apply read_bad; [exact Hd|]. intros c Hc. cbn [s_pipe with_pipe]. apply pipe_bad; [exact Kp| |exact Hc]. intros c' Hc'. now apply clip_cpu.
  Qed.
  Lemma report_first taps inputs (s : scan F (contents R)) h rest path fmt fs : s_pipe s = [] -> is_cpu (s_device s) = true -> 1 <= s_num s < 2 ^ 31 ->
    prog taps inputs ((s, h) :: rest) path fmt fs = match fst (read_channel O valid (with_pipe s (pipe taps)) h 0) with Throw _ => Ok (false, fs, []) | _ => UB end.
  Proof.
    intros Hp Hd Hn. unfold program, report, prepare. cbn [map fst snd]. rewrite prepared, Hp. cbn [List.app cli_loop fst snd]. unfold scan_hits. cbn [s_num with_pipe]. replace (to_int32 (s_num s)) with (s_num s) by (unfold to_int32; rewrite Z.mod_small; lia).
    rewrite gather_bad by (try lia; now apply first_read_bad). pose proof (first_read_bad taps s h 0 Hp Hd) as Hb. destruct (fst (read_channel O valid (with_pipe s (pipe taps)) h 0)) as [c| |]; [destruct (Hb c eq_refl)|reflexivity|reflexivity].
  Qed.
End Cpu.
(** C112: on the CPU the program reports no hit for any input: it changes no file, prints no hit and returns normally (or is undefined). *)
Theorem C112_no_report_on_the_cpu_refuted : forall F R (O : numops F) valid read new_mask (r0 : R) xa xb lowest junk gn gs zero add fin jm clip jz rolloff kurtosis noise integrate search keep hits_of save name
    taps inputs s h rest path fmt fs, s_pipe s = [] -> is_cpu (s_device s) = true -> 1 <= s_num s < 2 ^ 31 ->
  let r := program O valid read new_mask r0 xa xb lowest junk gn gs zero add fin jm clip jz rolloff kurtosis noise integrate search keep hits_of save name taps inputs ((s, h) :: rest) path fmt fs in
  r = Ok (false, fs, []) \/ r = UB.
Proof. intros. unfold r. rewrite report_first by assumption. destruct (fst (read_channel _ _ _ _ _)); auto. Qed.
Print Assumptions C112_no_report_on_the_cpu_refuted.

(** A flagger that succeeds whenever data and mask can be read. *)
Definition flags {F R} (read : list Z -> list Z -> outcome (arr f32)) new_mask (f : chan F (contents R) -> outcome (outcome (arr Z))) : Prop :=
  forall c d m, data_of read c = Ok d -> mask_of new_mask c = Ok m -> exists m', f c = Ok (Ok m').
Lemma read_through {F R} (O : numops F) valid (s : scan F (contents R)) h i p c : fst (read_channel O valid (with_pipe s []) h i) = Ok c -> fst (read_channel O valid (with_pipe s p) h i) = run_pipe p c /\ c_device c = s_device s.
Proof.
  unfold read_channel. cbn [s_num s_start s_cache s_device with_pipe]. destruct (_ || _); [discriminate|]. change (new_chan O (with_pipe s p) i) with (new_chan O (with_pipe s []) i).
  assert (Sv : forall cache h' a, fst (serve valid (with_cache (with_pipe s []) cache) h' a) = Ok c -> fst (serve valid (with_cache (with_pipe s p) cache) h' a) = run_pipe p c /\ c_device c = s_device s).
  { intros cache h' a. unfold serve. destruct (nth_error h' a) as [c0|]; [|discriminate]. cbn [s_device with_cache with_pipe]. unfold chan_set_device. destruct (refused valid (s_device s)); [discriminate|]. cbn [fst s_pipe with_cache with_pipe run_pipe fold_left]. intros Q. injection Q as <-. split; reflexivity. }
  destruct (lookup _ _) as [a|]; [exact (Sv (s_cache s) h a)|]. destruct (let! c0 := new_chan O (with_pipe s []) i in chan_set_device valid (s_device s) c0) as [c0| |]; [|discriminate|discriminate]. apply (Sv ((to_int32 (i + s_start s), List.length h) :: s_cache s)).
Qed.
(** C112: with readable, finite and nonnegative samples in the first channel it is no undefined behaviour either (reads behind a shape apart, C111), but the exception of sigma clipping. *)
Theorem C112_cpu_run : forall F R (O : numops F) valid read new_mask (r0 : R) xa xb lowest junk gn gs zero add fin jm clip jz rolloff kurtosis noise integrate search keep hits_of save name
    taps inputs s h rest path fmt fs c d m T C f, s_pipe s = [] -> is_cpu (s_device s) = true -> 1 <= s_num s < 2 ^ 31 ->
  fst (read_channel O valid s h 0) = Ok c -> data_of read c = Ok d -> mask_of new_mask c = Ok m -> flags read new_mask rolloff -> flags read new_mask kurtosis ->
  arr_is d [T; C] f -> 1 <= T -> 1 <= C -> T * C < 2 ^ 31 -> is_finite lowest = true -> (B2R lowest <= 0)%R ->
  (forall t c, 0 <= t < T -> 0 <= c < C -> is_finite (f [t; c]) = true /\ (0 <= B2R (f [t; c]))%R) ->
  program O valid read new_mask r0 xa xb lowest junk gn gs zero add fin jm clip jz rolloff kurtosis noise integrate search keep hits_of save name taps inputs ((s, h) :: rest) path fmt fs = Ok (false, fs, []).
Proof.
  intros F R O valid read new_mask r0 xa xb lowest junk gn gs zero add fin jm clip jz rolloff kurtosis noise integrate search keep hits_of save name taps inputs s h rest path fmt fs c d m T C f Hp Hd Hn Hr Ed Em Fr Fk A HT HC Hb Fl Ll Hf.
  rewrite report_first by assumption. assert (Es : s = with_pipe s []) by (destruct s; cbn in *; now subst). rewrite Es in Hr. destruct (read_through O valid s h 0 (pipeline read new_mask r0 xa xb lowest junk gn gs zero add fin jm clip jz rolloff kurtosis noise integrate search keep taps) c Hr) as (-> & Dv).
  destruct (C111_normalize xa xb lowest junk d T C f A HT HC Hb Fl Ll Hf) as (n & _ & _ & En & _). clear A Hf.
  set (c1 := set_data new_mask r0 c (Ok n)). assert (S1 : normalize_step read new_mask r0 xa xb lowest junk gn c = Ok c1). { unfold normalize_step. rewrite Ed. cbn [obind]. rewrite Dv, Hd. rewrite En. reflexivity. }
  assert (G : forall fl (c0 : chan F (contents R)) d0 m0, flags read new_mask fl -> is_cpu (c_device c0) = true -> data_of read c0 = Ok d0 -> mask_of new_mask c0 = Ok m0 -> exists c' : chan F (contents R), flag_step read r0 fl c0 = Ok c' /\ is_cpu (c_device c') = true /\ data_of read c' = Ok d0 /\ exists m', mask_of new_mask c' = Ok m').
  { intros fl c0 d0 m0 Hfl D0 E0 M0. destruct (Hfl c0 d0 m0 E0 M0) as (m' & Q). exists (set_mask read r0 c0 (Ok m')). unfold flag_step. rewrite Q. cbn [obind]. repeat split; [exact D0|exact E0|]. exists m'. reflexivity. }
  assert (Fin : forall (c0 : chan F (contents R)) d0 m0 q, is_cpu (c_device c0) = true -> data_of read c0 = Ok d0 -> mask_of new_mask c0 = Ok m0 -> fold_left (fun m f => obind m f) (sigmaclip_step read new_mask r0 xa xb gs zero add fin jm clip jz :: q) (Ok c0) = Throw RuntimeError).
  { intros c0 d0 m0 q D0 E0 M0. cbn [fold_left obind]. rewrite (proj2 (clip_cpu read new_mask r0 xa xb gs zero add fin jm clip jz c0 D0) d0 m0 E0 M0). apply run_bad. intros x; discriminate. }
  assert (D1 : is_cpu (c_device c1) = true) by (unfold c1; cbn; now rewrite Dv). assert (E1 : data_of read c1 = Ok n) by reflexivity. assert (M1 : mask_of new_mask c1 = Ok m) by exact Em. clearbody c1.
  unfold run_pipe. destruct taps; cbn [pipeline List.app fold_left]; cbn [obind]; rewrite S1; cbn [obind].
  - destruct (G kurtosis c1 n m Fk D1 E1 M1) as (c2 & -> & D2 & E2 & m2 & M2). pose proof (Fin c2 n m2 [noise; integrate; search; keep] D2 E2 M2) as Q. cbn [fold_left] in Q. rewrite Q. reflexivity.
  - destruct (G rolloff c1 n m Fr D1 E1 M1) as (c2 & -> & D2 & E2 & m2 & M2). cbn [obind]. destruct (G kurtosis c2 n m2 Fk D2 E2 M2) as (c3 & -> & D3 & E3 & m3 & M3). pose proof (Fin c3 n m3 [noise; integrate; search; keep] D3 E3 M3) as Q. cbn [fold_left] in Q. rewrite Q. reflexivity.
Qed.
Print Assumptions C112_cpu_run.
(** A scan of one channel of 2 x 3 samples, on the CPU or on a GPU. *)
Definition c112_ops : numops Z := Ops Z.add Z.sub Z.mul Z.div Z.abs Z.ltb (fun z => z) Ok.
Definition c112_about : about Z := About None (Some 32) (Some 1) "Voyager1" None None None 18 59000 1 None None.
Definition c112_samples : mem f32 := map f32_of_Z [3; 1; 4; 1; 5; 9].
Definition c112_chan : chan Z (contents unit) := Chan (Processed (Contents (Ok (dense [2; 3], c112_samples)) (Ok (dense [2; 3], [0; 0; 0; 0; 0; 0])) tt)) 8000 1 3 2 c112_about 0 (Dev DevCPU 0).
Definition c112_scan (d : dev) : scan Z (contents unit) := Scan [(0, 0%nat)] None [] 8000 1 3 (Some 3) 1 0 2 c112_about d.
Definition c112_run (d : dev) (fs : files) := program c112_ops (fun _ => true) (fun _ _ => Throw RuntimeError) (fun _ _ => Throw RuntimeError) tt (fun _ => 5) (fun _ => 7) (f32_of_Z (-1)) (fun _ => f32_of_Z 0) Ok
  (fun d => Ok (dense [2; 3], [0; 0; 0; 0; 0; 64])) (f64_of_Z 0) (fun s _ => s) (fun _ _ => (f32_of_Z 0, f32_of_Z 0)) (fun _ => (f32_of_Z 0, f32_of_Z 0)) (fun _ => UB) (fun _ => 0)
  (fun c => Ok (mask_of (fun _ _ => UB) c)) (fun c => Ok (mask_of (fun _ _ => UB) c)) Ok Ok Ok Ok (fun _ => Ok []) (fun _ _ _ => Ok [1; 2; 3]) (fun n => n) false ["a.h5"%string] [(c112_scan d, [c112_chan])] "hits.dat"%string "dat"%string fs.
Example C112_case : s_pipe (c112_scan (Dev DevCPU 0)) = [] /\ is_cpu (s_device (c112_scan (Dev DevCPU 0))) = true /\
  (forall fs, c112_run (Dev DevCPU 0) fs = Ok (false, fs, [])) /\ (forall fs, c112_run (Dev DevCUDA 0) fs = Ok (true, ("hits.dat"%string, [1; 2; 3]) :: fs, [])).
Proof.
  split; [reflexivity|]. split; [reflexivity|]. split; [|reflexivity]. intros fs. destruct C111_normalize_case as (A & Fl & Ll & Hf).
  eapply (C112_cpu_run Z unit c112_ops) with (c := c112_chan) (d := (dense [2; 3], c112_samples)) (T := 2) (C := 3); [reflexivity|reflexivity|cbn; lia|reflexivity|reflexivity|reflexivity| | |exact A|lia|lia|lia|exact Fl|exact Ll|exact Hf].
  - intros c d m _ Em. exists m. unfold mask_of in *. destruct (c_body c); [discriminate Em|now rewrite Em].
  - intros c d m _ Em. exists m. unfold mask_of in *. destruct (c_body c); [discriminate Em|now rewrite Em].
Qed.
