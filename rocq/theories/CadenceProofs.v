(** Observation targets and cadences: consistency, names, devices; flaggers applied to copies. *)
From Verif Require Import BaseFacts H5Proofs HitFacts ScanProofs ScanHist.
From Verif Require Export ScanModel.
From Coq Require Import Reals Lra.
Local Open Scope Z_scope.
Local Open Scope list_scope.

(** ** Consistency *)
Lemma positive_float (x : f64) : Bsign x = false -> is_finite_strict x = true -> (0 < B2R x)%R.
Proof.
  destruct x as [ | | |s m e B]; cbn; try discriminate. intros -> _. now apply Float_prop.F2R_gt_0.
Qed.

Lemma micro_positive : (0 < B2R (dec ops64 1 6))%R.
Proof. apply positive_float; vm_compute; reflexivity. Qed.

Lemma near_self (x : f64) : is_finite x = true -> near ops64 x x = true.
Proof.
  intros Hx. unfold near. cbn [ops64 o_lt o_abs o_sub]. unfold f64lt, sub64.
  pose proof (Bminus_correct 53 1024 _ _ mode_NE x x Hx Hx) as H.
  rewrite Rminus_diag_eq in H by reflexivity. rewrite round_0 in H by auto with typeclass_instances.
  rewrite Rabs_R0 in H. rewrite Rlt_bool_true in H by apply bpow_gt_0.
  destruct H as (HR & HF & _).
  assert (HM : is_finite (dec ops64 1 6) = true) by (vm_compute; reflexivity).
  rewrite Bcompare_correct; [|rewrite is_finite_Babs; exact HF|exact HM].
  rewrite B2R_Babs, HR, Rabs_R0. rewrite Rcompare_Lt; [reflexivity|apply micro_positive].
Qed.

Lemma validate_false {P} (s : scan f64 P) ss :
  is_finite (s_fch1 s) = true \/ is_finite (s_foff s) = true -> validate ops64 (s :: ss) = false.
Proof.
  intros H. unfold validate. cbn [existsb].
  assert (M : mismatch ops64 s s = true).
  { unfold mismatch. destruct H as [H|H]; rewrite (near_self _ H); [reflexivity|now rewrite orb_true_r]. }
  now rewrite M.
Qed.

(** With exact arithmetic the same, for every scan. *)
Lemma validate_false_R {P} (s : scan R P) ss : validate opsR (s :: ss) = false.
Proof.
  unfold validate. cbn [existsb].
  assert (M : mismatch opsR s s = true).
  { unfold mismatch, near. cbn. rewrite Rlt_bool_true; [reflexivity|].
    unfold dec. cbn. rewrite Rminus_diag_eq, Rabs_R0 by reflexivity. apply Rdiv_lt_0_compat; [lra|].
    apply IZR_lt. reflexivity. }
  now rewrite M.
Qed.

(** ** Names *)
Lemma append_nil_r s : (s ++ "")%string = s. Proof. induction s; cbn; congruence. Qed.
Lemma append_assoc a b c : ((a ++ b) ++ c)%string = (a ++ (b ++ c))%string. Proof. induction a; cbn; congruence. Qed.
Lemma append_nonempty a b : a <> ""%string -> (a ++ b)%string <> ""%string. Proof. destruct a; cbn; congruence. Qed.

Lemma join_prefix names : forall acc, acc <> ""%string -> exists q, join_names acc names = (acc ++ q)%string.
Proof.
  induction names as [|n ns IH]; intros acc H; cbn [join_names]; [exists ""%string; now rewrite append_nil_r|].
  destruct (String.eqb_spec n ""); [auto|].
  destruct (String.eqb_spec acc ""); [contradiction|].
  destruct (String.eqb_spec acc n); [auto|].
  destruct (IH (acc ++ "::" ++ n)%string) as [q E]; [now apply append_nonempty|].
  exists ("::" ++ n ++ q)%string. rewrite E, !append_assoc. reflexivity.
Qed.

Lemma join_contains names : forall acc, acc <> ""%string -> forall m, In m names -> m <> ""%string ->
  exists p q, join_names acc names = (p ++ m ++ q)%string.
Proof.
  induction names as [|n ns IH]; intros acc H m [].
  - subst n. intros Hm. cbn [join_names].
    destruct (String.eqb_spec m ""); [contradiction|].
    destruct (String.eqb_spec acc ""); [contradiction|].
    destruct (String.eqb_spec acc m) as [->|].
    + destruct (join_prefix ns m Hm) as [q E]. exists ""%string, q. exact E.
    + destruct (join_prefix ns (acc ++ "::" ++ m)%string) as [q E]; [now apply append_nonempty|].
      exists (acc ++ "::")%string, q. rewrite E, !append_assoc. reflexivity.
  - intros Hm. cbn [join_names].
    destruct (String.eqb_spec n ""); [auto|].
    destruct (String.eqb_spec acc ""); [contradiction|].
    destruct (String.eqb_spec acc n); [auto|]. apply IH; auto. now apply append_nonempty.
Qed.

Definition named (names : list string) : list string := filter (fun n => negb (String.eqb n "")) names.

Lemma join_named names : forall acc, join_names acc names = join_names acc (named names).
Proof.
  induction names as [|n ns IH]; intros acc; [reflexivity|]. cbn [join_names named filter].
  destruct (String.eqb n "") eqn:E; cbn [negb]; [apply IH|]. cbn [join_names]. rewrite E.
  destruct (String.eqb acc ""); [apply IH|]. destruct (String.eqb acc n); apply IH.
Qed.
Lemma named_nonempty names m : In m (named names) -> m <> ""%string.
Proof. intros I. apply filter_In in I. destruct I as [_ I]. destruct (String.eqb_spec m ""); [discriminate|assumption]. Qed.

Lemma join_same n : n <> ""%string -> forall names, (forall m, In m names -> m = n) -> join_names n names = n.
Proof.
  intros Hn. induction names as [|m ns IH]; intros H; [reflexivity|]. cbn [join_names].
  rewrite (H m) by now left.
  destruct (String.eqb_spec n ""); [contradiction|]. rewrite String.eqb_refl. apply IH. intros k I. apply H. now right.
Qed.

Lemma target_name_spec names :
  match named names with
  | [] => target_name names = "unknown"%string
  | n :: rest =>
    ((forall m, In m rest -> m = n) -> target_name names = n) /\
    (exists q, target_name names = (n ++ q)%string) /\
    (forall m, In m (n :: rest) -> exists p q, target_name names = (p ++ m ++ q)%string)
  end.
Proof.
  unfold target_name. rewrite join_named. destruct (named names) as [|n rest] eqn:E; [reflexivity|].
  assert (Hn : n <> ""%string) by (apply (named_nonempty names); rewrite E; now left).
  assert (J : join_names "" (n :: rest) = join_names n rest).
  { cbn [join_names]. destruct (String.eqb_spec n ""); [contradiction|]. reflexivity. }
  rewrite J. destruct (join_prefix rest n Hn) as [q Q].
  assert (NE : String.eqb (join_names n rest) "" = false).
  { rewrite Q. apply String.eqb_neq. now apply append_nonempty. }
  rewrite NE. split; [|split].
  - intros H. now apply join_same.
  - now exists q.
  - intros m [<-|I]; [exists ""%string, q; exact Q|]. apply join_contains; auto.
    apply (named_nonempty names). rewrite E. now right.
Qed.

(** ** Devices *)
Section Devices.
Context {F P : Type} (valid : Z -> bool).
Notation scan := (scan F P).
Notation heap := (heap F P).

Definition closed (h : heap) (s : scan) : Prop := forall k a, In (k, a) (s_cache s) -> nth_error h a <> None.
Definition on_device (d : dev) (h : heap) (m : list (Z * nat)) : Prop :=
  forall k a c, In (k, a) m -> nth_error h a = Some c -> c_device c = d.
Definition device_stays (d : dev) (h h' : heap) : Prop :=
  List.length h' = List.length h /\
  forall a c', nth_error h' a = Some c' -> exists c, nth_error h a = Some c /\ (c' = c \/ c' = with_device d c).

Lemma stays_refl d h : device_stays d h h.
Proof. split; [reflexivity|]. intros a c E. exists c. auto. Qed.
Lemma stays_trans d h1 h2 h3 : device_stays d h1 h2 -> device_stays d h2 h3 -> device_stays d h1 h3.
Proof.
  intros [L1 H1] [L2 H2]. split; [congruence|]. intros a c E. destruct (H2 _ _ E) as (c2 & E2 & C2).
  destruct (H1 _ _ E2) as (c1 & E1 & C1). exists c1. split; [exact E1|].
  destruct C1 as [->| ->], C2 as [->| ->]; auto.
Qed.
Lemma stays_upd d (h : heap) a c : nth_error h a = Some c -> device_stays d h (upd h a (fun _ => with_device d c)).
Proof.
  intros E. split; [apply upd_length|]. intros b c' E'. destruct (Nat.eq_dec a b) as [<-|N].
  - rewrite (nth_error_upd_same _ _ _ _ E) in E'. injection E' as <-. exists c. auto.
  - rewrite nth_error_upd_other in E' by auto. exists c'. auto.
Qed.
Lemma stays_on d h h' m : device_stays d h h' -> on_device d h m -> on_device d h' m.
Proof.
  intros [_ H] Q k a c I E. destruct (H _ _ E) as (c0 & E0 & [->| ->]); [eapply Q; eauto|reflexivity].
Qed.
Lemma stays_closed d h h' s : device_stays d h h' -> closed h s -> closed h' s.
Proof.
  intros [L _] C k a I. specialize (C k a I). rewrite nth_error_Some in C |- *. lia.
Qed.

Lemma set_all_ok d m : refused valid d = false -> forall h, (forall k a, In (k, a) m -> nth_error h a <> None) ->
  exists h', set_all valid d h m = (Ok tt, h') /\ device_stays d h h' /\ on_device d h' m.
Proof.
  intros RF. induction m as [|[k a] m IH]; intros h C.
  - exists h. split; [reflexivity|]. split; [apply stays_refl|]. intros ? ? ? [].
  - cbn [set_all]. destruct (nth_error h a) as [c|] eqn:E; [|exfalso; exact (C k a (or_introl eq_refl) E)].
    unfold chan_set_device. rewrite RF. set (h1 := upd h a (fun _ => with_device d c)).
    assert (ST : device_stays d h h1) by now apply stays_upd.
    destruct (IH h1) as (h' & E' & S' & Q').
    { intros k' a' I. destruct ST as [L _]. specialize (C k' a' (or_intror I)). rewrite nth_error_Some in C |- *. lia. }
    exists h'. split; [exact E'|]. split; [eapply stays_trans; eauto|].
    intros k' a' c' [I|I] N; [|eapply Q'; eauto]. injection I as <- <-.
    destruct S' as [_ S']. destruct (S' _ _ N) as (c0 & N0 & [->| ->]); [|reflexivity].
    unfold h1 in N0. rewrite (nth_error_upd_same _ _ _ _ E) in N0. injection N0 as <-. reflexivity.
Qed.

Lemma scan_set_ok d s h : refused valid d = false -> closed h s ->
  exists h', scan_set_device valid s h d = (Ok tt, (with_scan_device s d, h')) /\ device_stays d h h' /\ on_device d h' (s_cache s).
Proof.
  intros RF C. unfold scan_set_device. rewrite RF. destruct (set_all_ok d (s_cache s) RF h C) as (h' & E & S & Q).
  exists h'. rewrite E. auto.
Qed.

Lemma scans_set_ok d ss : refused valid d = false -> forall h, Forall (closed h) ss ->
  exists h', scans_set_device valid ss h d = (Ok tt, (map (fun s => with_scan_device s d) ss, h')) /\
    device_stays d h h' /\ Forall (fun s => on_device d h' (s_cache s)) ss.
Proof.
  intros RF. induction ss as [|s ss IH]; intros h C.
  - exists h. split; [reflexivity|]. split; [apply stays_refl|constructor].
  - apply Forall_cons_iff in C. destruct C as [C Cs]. destruct (scan_set_ok d s h RF C) as (h1 & E1 & S1 & Q1).
    destruct (IH h1) as (h' & E' & S' & Q').
    { eapply Forall_impl; [|exact Cs]. intros t. now apply (stays_closed d). }
    exists h'. cbn [scans_set_device]. rewrite E1. cbn [fst snd]. rewrite E'. cbn [fst snd map].
    split; [reflexivity|]. split; [eapply stays_trans; eauto|]. constructor; [eapply stays_on; eauto|exact Q'].
Qed.

Definition moved (d : dev) (t : target F P) : target F P := Target (map (fun s => with_scan_device s d) (t_scans t)) (t_name t) d.

Lemma target_set_ok d t h : refused valid d = false -> Forall (closed h) (t_scans t) ->
  exists h', target_set_device valid t h d = (Ok tt, (moved d t, h')) /\ device_stays d h h' /\
    Forall (fun s => on_device d h' (s_cache s)) (t_scans t).
Proof.
  intros RF C. unfold target_set_device. rewrite RF. destruct (scans_set_ok d (t_scans t) RF h C) as (h' & E & S & Q).
  exists h'. rewrite E. auto.
Qed.

Lemma targets_set_ok d ts : refused valid d = false -> forall h, Forall (fun t => Forall (closed h) (t_scans t)) ts ->
  exists h', targets_set_device valid ts h d = (Ok tt, (map (moved d) ts, h')) /\ device_stays d h h' /\
    Forall (fun t => Forall (fun s => on_device d h' (s_cache s)) (t_scans t)) ts.
Proof.
  intros RF. induction ts as [|t ts IH]; intros h C.
  - exists h. split; [reflexivity|]. split; [apply stays_refl|constructor].
  - apply Forall_cons_iff in C. destruct C as [C Cs]. destruct (target_set_ok d t h RF C) as (h1 & E1 & S1 & Q1).
    destruct (IH h1) as (h' & E' & S' & Q').
    { eapply Forall_impl; [|exact Cs]. intros t0. apply Forall_impl. intros s. now apply (stays_closed d). }
    exists h'. cbn [targets_set_device]. rewrite E1. cbn [fst snd]. rewrite E'. cbn [fst snd map].
    split; [reflexivity|]. split; [eapply stays_trans; eauto|].
    constructor; [|exact Q']. eapply Forall_impl; [|exact Q1]. intros s. now apply stays_on.
Qed.

Lemma cadence_set_ok d k h : refused valid d = false ->
  Forall (fun t => Forall (closed h) (t_scans t)) (k_targets k) ->
  exists h', cadence_set_device valid k h d = (Ok tt, (Cadence (map (moved d) (k_targets k)) d, h')) /\ device_stays d h h' /\
    Forall (fun t => Forall (fun s => on_device d h' (s_cache s)) (t_scans t)) (k_targets k).
Proof.
  intros RF C. unfold cadence_set_device. rewrite RF. destruct (targets_set_ok d (k_targets k) RF h C) as (h' & E & S & Q).
  exists h'. rewrite E. auto.
Qed.
End Devices.

(** ** A flagger applied to the channels of a scan one by one *)
Section Copies.
Context {F P : Type} (O : numops F) (valid : Z -> bool).
Notation scan := (scan F P).
Notation chan := (chan F P).

(** The scan and the stored channels after the loop do not depend on what the flagger computes. *)
Lemma flag_copies_blind (f g : chan -> outcome chan) is : forall s h,
  (forall c, exists c', f c = Ok c') -> (forall c, exists c', g c = Ok c') ->
  flag_copies O valid f s h is = flag_copies O valid g s h is.
Proof.
  induction is as [|i is IH]; intros s h Hf Hg; [reflexivity|]. cbn [flag_copies]. unfold and_then.
  destruct (read_channel O valid s h i) as [r [s' h']]. cbn [fst snd]. destruct r as [c|e|]; auto.
  destruct (Hf c) as [c1 ->]. destruct (Hg c) as [c2 ->]. auto.
Qed.

Lemma flag_copies_pipe (f : chan -> outcome chan) is : forall s h r s' h',
  flag_copies O valid f s h is = (r, (s', h')) -> s_pipe s' = s_pipe s /\ (forall t, r = Ok t -> t = s').
Proof.
  induction is as [|i is IH]; intros s h r s' h'; cbn [flag_copies].
  - intros [= <- <- <-]. split; [reflexivity|]. now intros t [= <-].
  - unfold and_then. destruct (read_channel O valid s h i) as [r1 [s1 h1]] eqn:E. cbn [fst snd].
    assert (PI : s_pipe s1 = s_pipe s) by (eapply read_pipe; exact E).
    destruct r1 as [c|e|]; [|intros [= <- <- <-]; split; [exact PI|discriminate]|intros [= <- <- <-]; split; [exact PI|discriminate]].
    destruct (f c) as [c'|e|].
    + intros E'. destruct (IH _ _ _ _ _ E') as [P1 R1]. split; [congruence|exact R1].
    + intros [= <- <- <-]. split; [exact PI|discriminate].
    + intros [= <- <- <-]. split; [exact PI|discriminate].
Qed.
End Copies.

(** ** All hits of a scan *)
(** [read_all s h is cs s' h']: the channels is of the scan can be read one after the other, giving cs. *)
Fixpoint read_all {F P} (O : numops F) valid (s : scan F P) h is cs s' h' : Prop :=
  match is, cs with
  | [], [] => s = s' /\ h = h'
  | i :: is', c :: cs' => fst (read_channel O valid s h i) = Ok c /\
      read_all O valid (fst (snd (read_channel O valid s h i))) (snd (snd (read_channel O valid s h i))) is' cs' s' h'
  | _, _ => False
  end.

Section AllHits.
Context {F P A : Type} (O : numops F) (valid : Z -> bool) (hits_of : chan F P -> outcome (list A)).
Definition hits_or_skip (c : chan F P) : list A := match hits_of c with Ok l => l | _ => [] end.

(** If every channel can be read and its hits fail at most with a logic error, the result is the
    concatenation over the channels in order. *)
Lemma gather_spec is : forall s h acc cs,
  (forall c, hits_of c <> UB) -> (forall c e, hits_of c = Throw e -> is_logic e = true) ->
  forall s' h',
  read_all O valid s h is cs s' h' ->
  gather O valid hits_of s h is acc = (Ok (acc ++ flat_map hits_or_skip cs), (s', h')).
Proof.
  induction is as [|i is IH]; intros s h acc cs NU NL s' h' R; destruct cs as [|c cs]; try contradiction.
  - destruct R as [<- <-]. cbn. now rewrite app_nil_r.
  - destruct R as [E R]. cbn [gather]. unfold and_then. rewrite E. cbn [flat_map].
    unfold hits_or_skip at 1. destruct (hits_of c) as [l|e|] eqn:H.
    + rewrite (IH _ _ (acc ++ l) cs NU NL s' h' R). now rewrite app_assoc.
    + rewrite (NL c e H). rewrite (IH _ _ acc cs NU NL s' h' R). reflexivity.
    + now destruct (NU c).
Qed.
End AllHits.
