(** Scan files: what comes back. *)
From Coq Require Import ZArith Lia.
From Verif Require Import FileModel FileBits FileProofs BaseFacts.
Local Open Scope Z_scope.
Local Open Scope list_scope.

Section ScanFiles.
Context {P : Type} (valid : Z -> bool) (hits_of : chan f64 P -> outcome (list hit)) (hold : list hit -> P).
Hypothesis back : forall hs a b c d e f g, hits_of (Chan (Processed (hold hs)) a b c d e f g) = Ok hs.
Notation chan := (chan f64 P). Notation scan := (scan f64 P). Notation heap := (heap f64 P).
Notation peak := (peak_channel valid). Notation read := (read_channel ops64 valid).
Notation gather := (gather ops64 valid hits_of). Notation messages := (channel_messages valid hits_of).

Definition cached (s : scan) (i : Z) : bool := match lookup (to_int32 (i + s_start s)) (s_cache s) with Some _ => true | None => false end.

Lemma serve_scan (s : scan) (h : heap) a : fst (snd (serve valid s h a)) = s.
Proof. unfold serve. destruct (nth_error h a); [|reflexivity]. destruct (chan_set_device valid (s_device s) c); reflexivity. Qed.

Lemma messages_gather is : forall (s : scan) (h : heap) accm acch ms sh',
  messages s h is accm = (Ok ms, sh') ->
  exists hss ms', gather s h (filter (cached s) is) acch = (Ok (acch ++ concat hss), sh') /\ ms = accm ++ ms' /\
    List.length ms' = List.length is /\
    concat (map cm_hits ms') = map to_signal (concat hss) /\
    (forall k i, nth_error is k = Some i -> cached s i = false -> nth_error ms' k = Some no_channel).
Proof.
  clear back hold. induction is as [|i is IH]; intros s h accm acch ms sh' H.
  - cbn in H. injection H as <- <-. exists [], []. cbn. rewrite !app_nil_r. repeat split; auto. intros [|k] j; discriminate.
  - cbn [channel_messages] in H. unfold and_then in H. unfold peak_channel in H.
    destruct ((i <? 0) || (s_num s <? i)) eqn:Ei; [discriminate|].
    cbn [filter]. unfold cached at 1. destruct (lookup (to_int32 (i + s_start s)) (s_cache s)) as [a|] eqn:El.
    + pose proof (serve_scan s h a) as Es. destruct (serve valid s h a) as [[c|e|] [s1 h1]] eqn:Ev; cbn in H, Es; try discriminate. subst s1.
      destruct (channel_message hits_of c) as [m|e|] eqn:Ec; try discriminate.
      assert (Eh : exists hs, hits_of c = Ok hs /\ cm_hits m = map to_signal hs).
      { unfold channel_message in Ec. destruct (value (a_dej (c_about c))); try discriminate. cbn in Ec.
        destruct (value (a_raj (c_about c))); try discriminate. cbn in Ec. destruct (value (a_telescope (c_about c))); try discriminate. cbn in Ec.
        destruct (hits_of c) as [hs|e|]; try discriminate. cbn in Ec. injection Ec as <-. eauto. }
      destruct Eh as (hs & Eh & Em).
      destruct (IH s h1 (accm ++ [m]) (acch ++ hs) ms sh' H) as (hss & ms' & G & M & L & C & N).
      exists (hs :: hss), (m :: ms'). repeat split.
      * cbn [ScanModel.gather]. unfold read_channel. rewrite Ei, El, Ev. unfold and_then. cbn [fst snd]. rewrite Eh, G. cbn [concat]. rewrite app_assoc. reflexivity.
      * rewrite M, <- app_assoc. reflexivity.
      * cbn [List.length]. lia.
      * cbn [map concat]. rewrite C, Em, map_app. reflexivity.
      * intros [|k] j; cbn [nth_error]; [|apply N]. intros Q; injection Q as <-. unfold cached. rewrite El. discriminate.
    + cbn in H. destruct (IH s h (accm ++ [no_channel]) acch ms sh' H) as (hss & ms' & G & M & L & C & N).
      exists hss, (no_channel :: ms'). repeat split; auto.
      * rewrite M, <- app_assoc. reflexivity.
      * cbn [List.length]. lia.
      * intros [|k] j; cbn [nth_error]; [reflexivity|apply N].
Qed.

(** ** Reading *)
Lemma lookup_seq n i : (i < n)%nat -> forall b, lookup (Z.of_nat (b + i)) (map (fun k => (Z.of_nat k, k)) (seq b n)) = Some (b + i)%nat.
Proof.
  revert i; induction n as [|n IH]; intros i Hi b; [lia|]. cbn [seq map lookup]. destruct i as [|i].
  - rewrite Nat.add_0_r, Z.eqb_refl. reflexivity.
  - rewrite (proj2 (Z.eqb_neq _ _)) by lia. replace (b + S i)%nat with (S b + i)%nat by lia. apply IH. lia.
Qed.
Lemma lookup_seq0 n i : (i < n)%nat -> lookup (Z.of_nat i) (map (fun k => (Z.of_nat k, k)) (seq 0 n)) = Some i.
Proof. intros H. apply (lookup_seq n i H 0). Qed.

Definition cpu : dev := Dev DevCPU 0.
Lemma each_Forall2 {A B} (f : A -> outcome B) l l' : each f l = Ok l' <-> Forall2 (fun a b => f a = Ok b) l l'.
Proof.
  revert l'; induction l as [|a l IH]; intros l'.
  - cbn. split; [intros H; injection H as <-; constructor|intros H; inversion H; reflexivity].
  - cbn [each]. split.
    + destruct (f a) as [b| |] eqn:Ea; cbn; try discriminate. destruct (each f l) as [bs| |] eqn:El; cbn; try discriminate.
      intros H; injection H as <-. constructor; auto. apply IH; reflexivity.
    + intros H; inversion H as [|x y q w Hx Hq]; subst. rewrite Hx. cbn. rewrite (proj2 (IH _) Hq). reflexivity.
Qed.
Lemma channel_back m hs : each of_signal (cm_hits m) = Ok hs ->
  exists c, channel_of_message hold m = Ok c /\ hits_of c = Ok hs /\ c_device c = cpu /\
    c_fch1 c = b_fch1 (cm_md m) /\ c_foff c = b_foff (cm_md m) /\ c_nchans c = b_nchans (cm_md m) /\ c_steps c = b_nsteps (cm_md m) /\ c_number c = 0.
Proof. intros H. unfold channel_of_message. rewrite H. cbn. eexists. split; [reflexivity|]. rewrite back. repeat split. Qed.
Lemma channels_back ms hss : Forall2 (fun m hs => each of_signal (cm_hits m) = Ok hs) ms hss ->
  exists cs, each (channel_of_message hold) ms = Ok cs /\ Forall2 (fun c hs => hits_of c = Ok hs /\ c_device c = cpu) cs hss /\
    Forall2 (fun m c => c_fch1 c = b_fch1 (cm_md m) /\ c_foff c = b_foff (cm_md m) /\ c_nchans c = b_nchans (cm_md m) /\ c_steps c = b_nsteps (cm_md m) /\ c_number c = 0) ms cs.
Proof.
  induction 1 as [|m hs ms hss Hm _ (cs & E & F & G)].
  - exists []. repeat split; constructor.
  - destruct (channel_back m hs Hm) as (c & C1 & C2 & C3 & C4). exists (c :: cs). cbn [each]. rewrite C1. cbn. rewrite E. cbn. repeat split; constructor; auto.
Qed.

Lemma skipn_cons_nth {A} (l : list A) k x : nth_error l k = Some x -> skipn k l = x :: skipn (S k) l.
Proof. revert k; induction l as [|y l IH]; intros [|k] H; cbn [nth_error] in H; try discriminate. { injection H as ->. reflexivity. } cbn [skipn]. rewrite (IH k H). reflexivity. Qed.
Lemma upd_same {A} (l : list A) a c : nth_error l a = Some c -> upd l a (fun _ => c) = l.
Proof. revert a; induction l as [|x l IH]; intros [|a] H; cbn in *; try discriminate. { injection H as ->. reflexivity. } f_equal. auto. Qed.
Lemma with_cpu (c : chan) : c_device c = cpu -> with_device cpu c = c.
Proof. destruct c; cbn. intros ->. reflexivity. Qed.

Lemma gather_read (cs : heap) (hss : list (list hit)) (s : scan) :
  Forall2 (fun c hs => hits_of c = Ok hs /\ c_device c = cpu) cs hss ->
  s_cache s = map (fun k => (Z.of_nat k, k)) (seq 0 (List.length cs)) -> s_num s = zlen cs -> s_start s = 0 -> s_pipe s = [] -> s_device s = cpu ->
  zlen cs < 2 ^ 31 ->
  forall k n acc, (k + n = List.length cs)%nat ->
    gather s cs (map Z.of_nat (seq k n)) acc = (Ok (acc ++ concat (skipn k hss)), (s, cs)).
Proof.
  intros F Ec En E0 Ep Ed Hn k n; revert k; induction n as [|n IH]; intros k acc Hk.
  - cbn. rewrite skipn_all2; [cbn; rewrite app_nil_r; reflexivity|].
    assert (L : List.length cs = List.length hss) by (clear -F; induction F; cbn; lia). lia.
  - cbn [seq map ScanModel.gather]. unfold read_channel, and_then.
    assert (L : List.length cs = List.length hss) by (clear -F; induction F; cbn; lia).
    unfold zlen in *. rewrite En, E0, Ec, Z.add_0_r.
    replace ((Z.of_nat k <? 0) || (Z.of_nat (List.length cs) <? Z.of_nat k)) with false by (symmetry; apply Bool.orb_false_iff; split; apply Z.ltb_ge; lia).
    rewrite int32_exact by (unfold int32; lia). rewrite lookup_seq0 by lia. unfold serve.
    assert (Hx : exists c hs, nth_error cs k = Some c /\ nth_error hss k = Some hs /\ hits_of c = Ok hs /\ c_device c = cpu).
    { clear -F Hk. assert (k < List.length cs)%nat by lia. clear Hk. revert k H; induction F as [|c hs cs hss (A & B) _ IH]; intros k H; cbn in H; [lia|].
      destruct k as [|k]; cbn [nth_error]; [eauto 8|]. apply IH. lia. }
    destruct Hx as (c & hs & X1 & X2 & X3 & X4). rewrite X1, Ed, Ep. cbn [chan_set_device].
    replace (chan_set_device valid cpu c) with (Ok c) by (unfold chan_set_device, refused; cbn; rewrite with_cpu; auto).
    unfold run_pipe. cbn [fold_left fst snd]. rewrite X3, upd_same by auto. rewrite IH by lia.
    rewrite <- app_assoc. f_equal. f_equal. f_equal. rewrite (skipn_cons_nth hss k hs) by auto. reflexivity.
Qed.

Lemma zrange_seq n : 0 <= n -> zrange n = map Z.of_nat (seq 0 (Z.to_nat n)).
Proof. reflexivity. Qed.

(** Reading a scan message whose signals convert. *)
Lemma scan_read m hss : Forall2 (fun m hs => each of_signal (cm_hits m) = Ok hs) (sm_channels m) hss -> hss <> [] -> zlen hss < 2 ^ 31 ->
  exists s h, scan_of_message hold m = Ok (s, h) /\ scan_hits ops64 valid hits_of s h = (Ok (concat hss), (s, h)) /\
    s_num s = zlen hss /\ s_fch1 s = b_fch1 (sm_md m) /\ s_foff s = b_foff (sm_md m) /\
    a_source (s_about s) = b_source (sm_md m) /\ a_raj (s_about s) = Some (b_ra (sm_md m)) /\ a_dej (s_about s) = Some (b_dec (sm_md m)) /\
    a_tsamp (s_about s) = b_tsamp (sm_md m) /\ a_tstart (s_about s) = b_tstart (sm_md m) /\ a_telescope (s_about s) = None /\
    (forall c0, nth_error (sm_channels m) 0 = Some c0 -> s_nchans s = b_nchans (cm_md c0) * zlen hss /\ s_steps s = b_nsteps (cm_md c0)) /\
    s_cache s = map (fun k => (Z.of_nat k, k)) (seq 0 (List.length hss)) /\ s_start s = 0 /\
    Forall2 (fun m c => c_fch1 c = b_fch1 (cm_md m) /\ c_foff c = b_foff (cm_md m) /\ c_nchans c = b_nchans (cm_md m) /\ c_steps c = b_nsteps (cm_md m) /\ c_number c = 0) (sm_channels m) h.
Proof.
  intros F Hne Hn. destruct (channels_back _ _ F) as (cs & E & F' & G).
  assert (L : List.length cs = List.length hss) by (clear -F'; induction F'; cbn; lia).
  unfold scan_of_message. rewrite E. cbn [obind].
  destruct cs as [|c cs]; [destruct hss; [congruence|discriminate]|].
  unfold scan_of_channels. cbn [List.length seq map lookup]. cbn [Z.of_nat Z.eqb nth_error obind].
  set (mp := (0, 0%nat) :: map (fun k => (Z.of_nat k, k)) (seq 1 (List.length cs))).
  eexists; eexists; split; [reflexivity|].
  match goal with |- scan_hits _ _ _ ?s ?h = _ /\ _ => set (s0 := s); set (h0 := h) end.
  assert (Em : mp = map (fun k => (Z.of_nat k, k)) (seq 0 (List.length h0))) by reflexivity.
  assert (Lz : zlen mp = zlen h0) by (rewrite Em; unfold zlen; rewrite map_length, seq_length; reflexivity).
  assert (Lh : zlen h0 = zlen hss) by (unfold zlen; rewrite <- L; reflexivity).
  split.
  { unfold scan_hits. change (s_num s0) with (zlen mp). rewrite Lz, int32_exact by (unfold int32; unfold zlen in *; lia).
    rewrite zrange_seq by (unfold zlen; lia). unfold zlen. rewrite Nat2Z.id.
    rewrite (gather_read h0 hss s0 F'); auto; unfold zlen in *; try lia. }
  assert (HG : forall c0, nth_error (sm_channels m) 0 = Some c0 -> c_nchans c = b_nchans (cm_md c0) /\ c_steps c = b_nsteps (cm_md c0)).
  { intros c0 H0. clear -G H0. destruct (sm_channels m) as [|c1 l]; [discriminate|]. injection H0 as ->. inversion G; subst. tauto. }
  split; [change (s_num s0) with (zlen mp); lia|]. do 8 (split; [reflexivity|]). split; [|split; [|split; [reflexivity|exact G]]].
  - intros c0 H0. destruct (HG c0 H0) as (N & S). change (s_nchans s0) with (c_nchans c * zlen mp). change (s_steps s0) with (c_steps c). rewrite Lz, Lh, N, S. auto.
  - change (s_cache s0) with mp. rewrite Em. unfold h0. rewrite L. reflexivity.
Qed.

Lemma concat_split (ms : list channel_msg) (hss : list hit) :
  concat (map cm_hits ms) = map to_signal hss -> Forall (fun h => Z.abs (h_bins h) <= 2 ^ 24) hss ->
  exists rs, Forall2 (fun m hs => each of_signal (cm_hits m) = Ok hs) ms rs /\ concat rs = map reread hss.
Proof.
  revert hss; induction ms as [|m ms IH]; intros hss H B.
  - cbn in H. destruct hss; [|discriminate]. exists []. split; constructor.
  - cbn [map concat] in H.
    assert (H1 : cm_hits m = map to_signal (firstn (List.length (cm_hits m)) hss)).
    { rewrite <- firstn_map, <- H, firstn_app, Nat.sub_diag, firstn_O, app_nil_r, firstn_all. reflexivity. }
    assert (H2 : concat (map cm_hits ms) = map to_signal (skipn (List.length (cm_hits m)) hss)).
    { rewrite <- skipn_map, <- H, skipn_app, Nat.sub_diag, skipn_all, skipn_O. reflexivity. }
    rewrite <- (firstn_skipn (List.length (cm_hits m)) hss) in B. apply Forall_app in B as (B1 & B2).
    destruct (IH _ H2 B2) as (rs & R1 & R2). exists (map reread (firstn (List.length (cm_hits m)) hss) :: rs). split.
    + constructor; auto. rewrite H1 at 1. rewrite each_map. apply each_ok. intros h Hh. apply signal_round. rewrite Forall_forall in B1. auto.
    + cbn [concat]. rewrite R2, <- map_app, firstn_skipn. reflexivity.
Qed.

(** Writing. *)
Lemma scan_written s h m sh' : scan_message valid hits_of s h = (Ok m, sh') ->
  0 <= to_int32 (s_num s) /\ messages s h (zrange (to_int32 (s_num s))) [] = (Ok (sm_channels m), sh') /\
  exists raj dej tel, a_raj (s_about s) = Some raj /\ a_dej (s_about s) = Some dej /\ a_telescope (s_about s) = Some tel /\
    sm_md m = Filterbank (a_source (s_about s)) (s_fch1 s) (s_foff s) (a_tstart (s_about s)) (a_tsamp (s_about s)) raj dej (to_int32 tel) (to_int32 (s_steps s)) (to_int32 (s_nchans s)).
Proof.
  unfold scan_message. destruct (a_dej (s_about s)) as [dej|]; cbn; [|discriminate]. destruct (a_raj (s_about s)) as [raj|]; cbn; [|discriminate].
  destruct (a_telescope (s_about s)) as [tel|]; cbn; [|discriminate].
  destruct (Z.ltb_spec (to_int32 (s_num s)) 0); [discriminate|].
  destruct (messages s h (zrange (to_int32 (s_num s))) []) as [[ms|e|] sh] eqn:E; cbn; try discriminate. intros Q; injection Q as <- <-.
  cbn. split; [auto|]. split; [reflexivity|]. exists raj, dej, tel. auto.
Qed.

Theorem scan_round s h m sh' hs sh'' :
  scan_message valid hits_of s h = (Ok m, sh') ->
  gather s h (filter (cached s) (zrange (to_int32 (s_num s)))) [] = (Ok hs, sh'') ->
  Forall (fun h => Z.abs (h_bins h) <= 2 ^ 24) hs -> 0 < to_int32 (s_num s) ->
  exists s2 h2, scan_of_message hold m = Ok (s2, h2) /\
    scan_hits ops64 valid hits_of s2 h2 = (Ok (map reread hs), (s2, h2)) /\ s_num s2 = to_int32 (s_num s) /\
    s_fch1 s2 = s_fch1 s /\ s_foff s2 = s_foff s /\ a_source (s_about s2) = a_source (s_about s) /\
    a_raj (s_about s2) = a_raj (s_about s) /\ a_dej (s_about s2) = a_dej (s_about s) /\
    a_tsamp (s_about s2) = a_tsamp (s_about s) /\ a_tstart (s_about s2) = a_tstart (s_about s) /\ a_telescope (s_about s2) = None.
Proof.
  intros H G B Hn. destruct (scan_written _ _ _ _ H) as (H0 & M & raj & dej & tel & R & D & T & Md).
  destruct (messages_gather _ _ _ _ [] _ _ M) as (hss & ms' & G' & Ms & L & C & _). cbn in Ms. subst ms'.
  rewrite G in G'. injection G' as -> <-. cbn [app] in *.
  destruct (concat_split _ _ C B) as (rs & R1 & R2).
  assert (Lr : List.length rs = Z.to_nat (to_int32 (s_num s))).
  { transitivity (List.length (sm_channels m)); [clear -R1; induction R1; cbn; lia|]. rewrite L. unfold zrange. rewrite map_length, seq_length. reflexivity. }
  pose proof (to_int32_int32 (s_num s)) as I32. unfold int32 in I32.
  destruct (scan_read m rs R1) as (s2 & h2 & E & S1 & S2 & S3 & S4 & S5 & S6 & S7 & S8 & S9 & S10 & _).
  { intros ->. cbn in Lr. lia. } { unfold zlen. lia. }
  exists s2, h2. split; auto. rewrite S1, R2. rewrite Md in *. cbn in *. rewrite R, D. unfold zlen in S2. repeat split; auto. lia.
Qed.
End ScanFiles.
