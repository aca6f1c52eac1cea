(** Scans: statements over files and histories, assembled from the invariants. *)
From Verif Require Import BaseFacts H5Proofs ScanProofs ScanHist CadenceProofs.
From Verif Require Export ScanModel.
From Coq Require Import Reals Lra.
Local Open Scope Z_scope.
Local Open Scope list_scope.

Lemma shape_three f sh : get_data_shape f = Ok sh -> exists a b c, sh = [a; b; c].
Proof.
  intros E. apply get_data_shape_ok in E. destruct E as (? & n & t & c & _ & _ & _ & _ & _ & _ & _ & ->).
  unfold shape_of. destruct (_ && _); repeat eexists.
Qed.

Section Main.
Context {F P : Type} (O : numops F) (valid : Z -> bool).
Notation scan := (scan F P).
Notation chan := (chan F P).

Lemma scan_of_file_fields f a req (s : scan) : scan_of_file O f a req = Ok s ->
  exists T feeds other fine foff, get_data_shape f = Ok [T; feeds; other] /\ s_fine s = Some fine /\ at_foff a = Some foff /\
    s_foff s = foff /\ s_cache s = [] /\ s_file s = Some f /\ s_pipe s = [] /\ s_start s = 0 /\ s_device s = Dev DevCPU 0 /\
    a_nbits (s_about s) = at_nbits a /\ a_nifs (s_about s) = at_nifs a /\ s_steps s = T /\ at_fch1 a = Some (s_fch1 s) /\
    h_nchans f = Some (s_nchans s) /\
    (if req =? 0 then s_num s * fine = to_int32 (s_nchans s) else fine = req /\ s_num s = Z.quot (s_nchans s) req).
Proof.
  unfold scan_of_file. intros E.
  destruct (at_fch1 a) as [fch1|]; cbn [required obind] in E; [|discriminate].
  destruct (at_foff a) as [foff|]; cbn [required obind] in E; [|discriminate].
  destruct (at_source a); cbn [required obind] in E; [|discriminate].
  destruct (at_dej a); cbn [required obind] in E; [|discriminate].
  destruct (at_raj a); cbn [required obind] in E; [|discriminate].
  destruct (at_telescope a); cbn [required obind] in E; [|discriminate].
  destruct (at_tsamp a); cbn [required obind] in E; [|discriminate].
  destruct (at_tstart a); cbn [required obind] in E; [|discriminate].
  destruct (get_data_shape f) as [sh|e|] eqn:SH; cbn [obind] in E; try discriminate.
  destruct (shape_three f sh SH) as (T & feeds & other & ->). cbn [zget znth nth_error Z.ltb Z.to_nat obind] in E.
  change (zget [T; feeds; other] 0) with (Ok T) in E. cbn [obind] in E.
  destruct (h_nchans f) as [n|]; [|discriminate].
  destruct (Z.eqb_spec req 0) as [->|R].
  - destruct (infer_number_coarse_channels O (to_int32 n) (o_mul O (o_of O 1000000) foff) f2) as [[nc fi]|e|] eqn:I;
      cbn [obind] in E; try discriminate.
    injection E as <-. cbn. exists T, feeds, other, fi, foff. repeat split. now apply infer_product in I.
  - cbn [obind] in E. injection E as <-. cbn. exists T, feeds, other, req, foff. repeat split.
Qed.

(** The unprocessed channel number g of an opened file. *)
Definition file_channel (f : h5) (root : scan) (g : Z) (d : dev) (c : chan) : Prop :=
  exists fine T feeds other, s_fine root = Some fine /\ get_data_shape f = Ok [T; feeds; other] /\
    c_body c = Window [0; 0; fine * g] [T; feeds; fine] /\ c_foff c = s_foff root /\ c_nchans c = fine /\ c_steps c = T /\
    c_about c = s_about root /\ c_number c = g /\ c_device c = d.

Definition in_int (s : scan) : Prop := 0 <= s_start s /\ s_start s + s_num s < 2 ^ 31.

Section Freq.
Context (f : h5) (a : attrs F) (req : Z) (root : scan) (at_freq : Z -> F -> Prop).
Hypothesis HR : scan_of_file O f a req = Ok root.
Hypothesis H0 : at_freq 0 (s_fch1 root).
Hypothesis Hslice : forall fine, s_fine root = Some fine -> forall g x d, at_freq g x ->
  at_freq (g + d) (o_add O x (o_mul O (o_mul O (s_foff root) (o_of O fine)) (o_of O d))).
Hypothesis Hchan : forall fine, s_fine root = Some fine -> forall g x i, at_freq g x ->
  at_freq (g + i) (o_add O x (o_mul O (s_foff root) (o_of O (fine * i)))).

Lemma history_read os pool h k s i r s' h' :
  sruns O valid ([root], []) os = Some (pool, h) -> (forall t, In t pool -> in_int t) -> nth_error pool k = Some s ->
  read_channel O valid s h i = (r, (s', h')) ->
  ((i < 0 \/ s_num s < i) -> r = Throw OutOfRange /\ s' = s /\ h' = h) /\
  (0 <= i <= s_num s -> at_nbits a <> None -> at_nifs a <> None ->
   (forall fine, s_fine root = Some fine -> - 2 ^ 31 <= fine * i < 2 ^ 31) -> refused valid (s_device s) = false ->
   exists c p, file_channel f root (s_start s + i) (s_device s) c /\ at_freq (s_start s + i) (c_fch1 c) /\
     nth_error (pipes os [[]]) k = Some p /\ r = run_pipe p c /\
     lookup (s_start s + i) (s_cache s') <> None) /\
  (lookup (s_start s + i) (s_cache s) <> None -> s' = s /\ List.length h' = List.length h).
Proof.
  intros RUN IR N RD.
  destruct (scan_of_file_fields _ _ _ _ HR) as (T & feeds & other & fine & foff & SH & FI & _ & FO & CA & FL & PI & ST & DV & NB & NI & _).
  assert (Hs : forall g x d, at_freq g x -> at_freq (g + d) (o_add O x (o_mul O (o_mul O foff (o_of O fine)) (o_of O d)))).
  { intros g x d Hx. subst foff. now apply Hslice. }
  assert (Hc : forall g x j, at_freq g x -> at_freq (g + j) (o_add O x (o_mul O foff (o_of O (fine * j))))).
  { intros g x j Hx. subst foff. now apply Hchan. }
  assert (INV : inv f T feeds fine (s_about root) foff at_freq (pool, h)).
  { apply (runs_inv O valid f T feeds other fine (s_about root) foff SH at_freq Hs Hc os ([root], [])); [|exact RUN|exact IR].
    constructor; [|constructor]. split.
      + unfold good. rewrite FL, FI, FO, ST, CA. repeat split; auto. discriminate.
      + unfold int_range. assert (K : keeps ([root], @nil chan) (pool, h)) by (eapply runs_keeps; exact RUN).
        destruct (K 0%nat root eq_refl) as (t & Nt & S & M & _). apply nth_error_In, IR in Nt.
        unfold in_int in Nt. now rewrite <- S, <- M. }
  pose proof (runs_pipes O valid os _ _ RUN) as PP. cbn [fst map] in PP. rewrite PI in PP.
  pose proof (proj1 (Forall_forall _ _) INV s (nth_error_In _ _ N)) as [G I]. cbn [snd] in G.
  destruct (read_spec O valid f T feeds other fine (s_about root) foff SH at_freq Hs Hc s h i r s' h' G I RD)
    as (_ & _ & _ & A1 & A2 & A3).
  split; [exact A1|]. split.
  - intros HI B1 B2 B3 RF. rewrite <- NB in B1. rewrite <- NI in B2.
    destruct (A2 HI B1 B2 (B3 fine FI) RF) as (c & ad & RW & -> & LK & _).
    exists (with_device (s_device s) c), (s_pipe s).
    replace (s_start s + i) with (i + s_start s) by lia.
    destruct RW as (W1 & W2 & W3 & W4 & W5 & W6 & W7).
    split; [|split; [|split; [|split; [reflexivity|]]]].
    + exists fine, T, feeds, other. destruct c. cbn in *. subst foff. repeat split; auto.
    + destruct c. exact W7.
    + rewrite <- PP, nth_error_map, N. reflexivity.
    + rewrite LK. discriminate.
  - intros LK. replace (s_start s + i) with (i + s_start s) in LK by lia.
    destruct (lookup (i + s_start s) (s_cache s)) as [ad|]; [|congruence]. now apply (A3 ad).
Qed.

(** Later reads of the same channel by the same scan create no new channel object. *)
Lemma history_cached os1 pool h k s i r s' h' os2 pool2 h2 s2 r3 s3 h3 :
  sruns O valid ([root], []) os1 = Some (pool, h) -> nth_error pool k = Some s ->
  read_channel O valid s h i = (r, (s', h')) -> r <> UB ->
  0 <= i <= s_num s -> at_nbits a <> None -> at_nifs a <> None ->
  (forall fine, s_fine root = Some fine -> - 2 ^ 31 <= fine * i < 2 ^ 31) -> refused valid (s_device s) = false ->
  sruns O valid (upd pool k (fun _ => s'), h') os2 = Some (pool2, h2) -> (forall t, In t pool2 -> in_int t) ->
  nth_error pool2 k = Some s2 -> read_channel O valid s2 h2 i = (r3, (s3, h3)) ->
  s3 = s2 /\ List.length h3 = List.length h2.
Proof.
  intros R1 N1 RD NU HI B1 B2 B3 RF R2 IR2 N2 RD2.
  assert (K2 : keeps (upd pool k (fun _ => s'), h') (pool2, h2)) by (eapply runs_keeps; exact R2).
  assert (ST : sstep O valid (pool, h) (SRead k i) = Some (upd pool k (fun _ => s'), h')).
  { cbn. rewrite N1, RD. cbn. destruct r; [reflexivity|reflexivity|congruence]. }
  assert (IR1 : forall t, In t pool -> in_int t).
  { assert (K1 : keeps (pool, h) (upd pool k (fun _ => s'), h')) by (eapply step_keeps; exact ST).
    eapply (keeps_range (pool, h)); [eapply keeps_trans; [exact K1|exact K2]|exact IR2]. }
  destruct (history_read _ _ _ _ _ _ _ _ _ R1 IR1 N1 RD) as (_ & A2 & _).
  destruct (A2 HI B1 B2 B3 RF) as (c & p & _ & _ & _ & _ & LK).
  assert (N1' : nth_error (upd pool k (fun _ => s')) k = Some s') by (eapply nth_upd; exact N1).
  destruct (K2 k s' N1') as (s2' & N2' & S2 & M2 & L2). cbn [fst] in N2'. rewrite N2 in N2'. injection N2' as <-.
  assert (RUN : forall (os : list (sop F P)) w w1, sruns O valid w os = Some w1 -> forall os' , sruns O valid w (os ++ os') = sruns O valid w1 os').
  { induction os as [|o os IH]; intros w w1 E os'; cbn in E |- *; [now injection E as <-|].
    destruct (sstep O valid w o); [|discriminate]. now apply IH. }
  assert (R12 : sruns O valid ([root], []) (os1 ++ SRead k i :: os2) = Some (pool2, h2)).
  { rewrite (RUN _ _ _ R1). cbn [sruns]. rewrite ST. exact R2. }
  destruct (history_read _ _ _ _ _ _ _ _ _ R12 IR2 N2 RD2) as (_ & _ & A3). apply A3.
  assert (ES : s_start s' = s_start s).
  { destruct (read_older O valid s h i r s' h' RD) as (E & _). exact E. }
  rewrite S2, ES. destruct (lookup (s_start s + i) (s_cache s')) as [ad|] eqn:LL; [|congruence].
  rewrite (L2 _ _ LL). discriminate.
Qed.
End Freq.

(** A channel read through two scans that were copied (or sliced) before either had read it: two objects. *)
Lemma two_copies (s s2 : scan) h i r s' h' r2 s2' h2' c c2 :
  lookup (to_int32 (i + s_start s)) (s_cache s) = None -> lookup (to_int32 (i + s_start s2)) (s_cache s2) = None ->
  0 <= i <= s_num s -> 0 <= i <= s_num s2 ->
  refused valid (s_device s) = false -> refused valid (s_device s2) = false ->
  new_chan O s i = Ok c -> new_chan O s2 i = Ok c2 ->
  read_channel O valid s h i = (r, (s', h')) -> read_channel O valid s2 h' i = (r2, (s2', h2')) ->
  List.length h2' = (2 + List.length h)%nat.
Proof.
  intros L1 L2 I1 I2 F1 F2 C1 C2 R1 R2.
  assert (G : forall (t : scan) g j q t' g' c0, lookup (to_int32 (j + s_start t)) (s_cache t) = None -> 0 <= j <= s_num t ->
    refused valid (s_device t) = false -> new_chan O t j = Ok c0 -> read_channel O valid t g j = (q, (t', g')) ->
    List.length g' = S (List.length g)).
  { intros t g j q t' g' c0 L I FF C R. unfold read_channel in R.
    replace ((j <? 0) || (s_num t <? j)) with false in R by lia. rewrite L, C in R. cbn [obind] in R.
    unfold chan_set_device in R. rewrite FF in R.
    destruct (serve_spec valid _ _ _ _ _ _ R) as (_ & _ & LN & _). rewrite LN, app_length. cbn. lia. }
  rewrite (G _ _ _ _ _ _ _ L2 I2 F2 C2 R2), (G _ _ _ _ _ _ _ L1 I1 F1 C1 R1). reflexivity.
Qed.

(** data() on an unprocessed channel reads the file every time. *)
Lemma data_reads_every_time held f (c : chan) o n : c_body c = Window o n -> forall m log,
  Nat.iter m (fun l => snd (channel_data held f c l)) log = log ++ repeat o m.
Proof.
  intros E. induction m as [|m IH]; intros log; cbn [Nat.iter repeat]; [now rewrite app_nil_r|].
  assert (G : forall l, snd (channel_data held f c l) = l ++ [o]) by (intros l; unfold channel_data; now rewrite E).
  change (Nat.iter (S m) ?g log) with (g (Nat.iter m g log)). rewrite IH, G, <- app_assoc.
  f_equal. clear. induction m; [reflexivity|]. cbn. now rewrite IHm.
Qed.
End Main.

(** Exact frequencies. *)
Lemma history_read_freq {P} valid f a req (root : scan R P) os pool h k s i r s' h' fine :
  scan_of_file opsR f a req = Ok root -> s_fine root = Some fine ->
  sruns opsR valid ([root], []) os = Some (pool, h) -> (forall t, In t pool -> in_int t) -> nth_error pool k = Some s ->
  read_channel opsR valid s h i = (r, (s', h')) ->
  0 <= i <= s_num s -> at_nbits a <> None -> at_nifs a <> None -> - 2 ^ 31 <= fine * i < 2 ^ 31 ->
  refused valid (s_device s) = false ->
  exists c p, file_channel f root (s_start s + i) (s_device s) c /\
     c_fch1 c = (s_fch1 root + s_foff root * IZR (fine * (s_start s + i)))%R /\
     nth_error (pipes os [[]]) k = Some p /\ r = run_pipe p c.
Proof.
  intros HR FI RUN IR N RD HI B1 B2 B3 RF.
  destruct (history_read opsR valid f a req root (fun g x => x = (s_fch1 root + s_foff root * IZR (fine * g))%R)) with (1 := HR)
    (os := os) (pool := pool) (h := h) (k := k) (s := s) (i := i) (r := r) (s' := s') (h' := h') as (_ & A & _); auto.
  - cbn. rewrite Z.mul_0_r. lra.
  - intros fine' E g x d ->. rewrite FI in E. injection E as <-. cbn. rewrite !mult_IZR, plus_IZR. ring.
  - intros fine' E g x d ->. rewrite FI in E. injection E as <-. cbn. rewrite !mult_IZR, plus_IZR. ring.
  - destruct (A HI B1 B2) as (c & p & C1 & C2 & C3 & C4 & _); [|exact RF|].
    + intros fine' E. rewrite FI in E. injection E as <-. exact B3.
    + exists c, p. auto.
Qed.
