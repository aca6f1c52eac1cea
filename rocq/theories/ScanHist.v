(** Scans: all histories of reads, slices, copies, transforms and device changes over one file. *)
From Verif Require Import BaseFacts H5Proofs ScanProofs.
From Verif Require Export ScanModel.
From Coq Require Import Reals Lra.
Local Open Scope Z_scope.
Local Open Scope list_scope.

Section Hist.
Context {F P : Type} (O : numops F) (valid : Z -> bool).
Notation scan := (scan F P).
Notation chan := (chan F P).
Notation heap := (heap F P).

Context (f : h5) (T feeds other fine : Z) (A : about F) (foff : F) (HS : get_data_shape f = Ok [T; feeds; other]).
(** What is known about the frequency of channel number g; closed under slicing and reading. *)
Context (at_freq : Z -> F -> Prop).
Hypothesis Hslice : forall g x d, at_freq g x -> at_freq (g + d) (o_add O x (o_mul O (o_mul O foff (o_of O fine)) (o_of O d))).
Hypothesis Hchan : forall g x i, at_freq g x -> at_freq (g + i) (o_add O x (o_mul O foff (o_of O (fine * i)))).

(** The unprocessed channel number g of the file. *)
Definition raw (g : Z) (c : chan) : Prop :=
  c_body c = Window [0; 0; fine * g] [T; feeds; fine] /\ c_foff c = foff /\ c_nchans c = fine /\ c_steps c = T /\
  c_about c = A /\ c_number c = g /\ at_freq g (c_fch1 c).

Definition int_range (s : scan) : Prop := 0 <= s_start s /\ s_start s + s_num s < 2 ^ 31.

Definition good (s : scan) (h : heap) : Prop :=
  s_file s = Some f /\ s_fine s = Some fine /\ s_about s = A /\ s_foff s = foff /\ at_freq (s_start s) (s_fch1 s) /\
  (forall k a, lookup k (s_cache s) = Some a -> exists c, nth_error h a = Some c /\ raw k c).

(** The heap only grows, and old channels keep everything but the device. *)
Definition extends (h h' : heap) : Prop :=
  forall a c, nth_error h a = Some c -> exists d, nth_error h' a = Some (with_device d c).

Lemma with_device_same (c : chan) : with_device (c_device c) c = c. Proof. now destruct c. Qed.
Lemma extends_refl h : extends h h.
Proof. intros a c E. exists (c_device c). now rewrite with_device_same. Qed.
Lemma extends_trans h1 h2 h3 : extends h1 h2 -> extends h2 h3 -> extends h1 h3.
Proof.
  intros H1 H2 a c E. apply H1 in E. destruct E as [d E]. apply H2 in E. destruct E as [d' E].
  exists d'. rewrite E. reflexivity.
Qed.
Lemma extends_app h t : extends h (h ++ t).
Proof.
  intros a c E. exists (c_device c). rewrite with_device_same, nth_error_app1; auto. apply nth_error_Some. congruence.
Qed.
Lemma extends_upd h a c d : nth_error h a = Some c -> extends h (upd h a (fun _ => with_device d c)).
Proof.
  intros E b c' E'. destruct (Nat.eq_dec a b) as [<-|N].
  - rewrite E in E'. injection E' as <-. exists d. now apply nth_error_upd_same with (f := fun _ => with_device d c) in E.
  - exists (c_device c'). rewrite with_device_same, nth_error_upd_other; auto.
Qed.

Lemma raw_device g c d : raw g c -> raw g (with_device d c).
Proof. unfold raw. now destruct c. Qed.

Lemma good_extends s h h' : good s h -> extends h h' -> good s h'.
Proof.
  intros (G1 & G2 & G3 & G4 & G5 & G6) E. repeat split; auto.
  intros k a L. destruct (G6 _ _ L) as (c & N & R). destruct (E _ _ N) as [d N'].
  exists (with_device d c). split; [exact N'|]. now apply raw_device.
Qed.

(** Two scans that differ at most in their cache (which may have grown). *)
Definition grown (s s' : scan) : Prop :=
  s_file s' = s_file s /\ s_pipe s' = s_pipe s /\ s_fch1 s' = s_fch1 s /\ s_foff s' = s_foff s /\ s_nchans s' = s_nchans s /\
  s_fine s' = s_fine s /\ s_num s' = s_num s /\ s_start s' = s_start s /\ s_steps s' = s_steps s /\ s_about s' = s_about s /\
  s_device s' = s_device s /\ (forall k a, lookup k (s_cache s) = Some a -> lookup k (s_cache s') = Some a).

Lemma grown_refl s : grown s s. Proof. repeat split; auto. Qed.
Lemma grown_insert s k a : lookup k (s_cache s) = None -> grown s (with_cache s ((k, a) :: s_cache s)).
Proof.
  intros N. repeat split; auto. intros k' a' L. cbn. destruct (Z.eqb_spec k' k) as [->|]; [congruence|auto].
Qed.

Lemma serve_spec s h a : forall r s' h', serve valid s h a = (r, (s', h')) ->
  s' = s /\ extends h h' /\ List.length h' = List.length h /\
  (forall c, nth_error h a = Some c ->
     r = (if refused valid (s_device s) then Throw RuntimeError else run_pipe (s_pipe s) (with_device (s_device s) c))).
Proof.
  unfold serve. intros r s' h'. destruct (nth_error h a) as [c|] eqn:E.
  - unfold chan_set_device. destruct (refused valid (s_device s)).
    + intros [= <- <- <-]. repeat split; auto using extends_refl.
    + intros [= <- <- <-]. repeat split; auto using extends_upd, upd_length. intros ? [= <-]. reflexivity.
  - intros [= <- <- <-]. repeat split; auto using extends_refl. discriminate.
Qed.

(** The channel that a scan makes from the file. *)
Lemma new_chan_raw s i h c : good s h -> new_chan O s i = Ok c -> raw (i + s_start s) c.
Proof.
  intros (G1 & G2 & G3 & G4 & G5 & _) E. unfold new_chan in E. rewrite G1, HS, G2 in E. cbn [obind] in E.
  destruct (a_nbits (s_about s)); [|discriminate]. destruct (a_nifs (s_about s)); [|discriminate].
  destruct (_ && _); [|discriminate]. cbn in E. injection E as <-. unfold raw. cbn.
  repeat split; auto. rewrite G4. replace (i + s_start s) with (s_start s + i) by lia. now apply Hchan.
Qed.

Lemma new_chan_defined s i h : good s h -> a_nbits A <> None -> a_nifs A <> None -> - 2 ^ 31 <= fine * i < 2 ^ 31 ->
  exists c, new_chan O s i = Ok c.
Proof.
  intros (G1 & G2 & G3 & G4 & G5 & _) N1 N2 B. unfold new_chan. rewrite G1, HS, G2, G3. cbn [obind].
  destruct (a_nbits A); [|congruence]. destruct (a_nifs A); [|congruence].
  replace ((- 2 ^ 31 <=? fine * i) && (fine * i <? 2 ^ 31)) with true by lia. cbn. eexists. reflexivity.
Qed.

Lemma read_spec s h i r s' h' : good s h -> int_range s -> read_channel O valid s h i = (r, (s', h')) ->
  grown s s' /\ extends h h' /\ good s' h' /\
  ((i < 0 \/ s_num s < i) -> r = Throw OutOfRange /\ s' = s /\ h' = h) /\
  (0 <= i <= s_num s -> a_nbits A <> None -> a_nifs A <> None -> - 2 ^ 31 <= fine * i < 2 ^ 31 ->
   refused valid (s_device s) = false ->
   exists c a, raw (i + s_start s) c /\ r = run_pipe (s_pipe s) (with_device (s_device s) c) /\
     lookup (i + s_start s) (s_cache s') = Some a /\ nth_error h' a = Some (with_device (s_device s) c)) /\
  (forall a, lookup (i + s_start s) (s_cache s) = Some a -> s' = s /\ List.length h' = List.length h).
Proof.
  intros G IR E. unfold read_channel in E.
  destruct ((i <? 0) || (s_num s <? i)) eqn:B.
  { injection E as <- <- <-. split; [apply grown_refl|]. split; [apply extends_refl|]. split; [exact G|].
    split; [auto|]. split; [lia|]. auto. }
  assert (K : to_int32 (i + s_start s) = i + s_start s) by (apply to_int32_small; destruct IR; lia).
  rewrite K in E. destruct (lookup (i + s_start s) (s_cache s)) as [a|] eqn:L.
  - pose proof (serve_spec s h a _ _ _ E) as (-> & EX & LN & R).
    split; [apply grown_refl|]. split; [exact EX|]. split; [eapply good_extends; eauto|].
    split; [lia|]. split; [|auto]. intros HI NB NI FI RF.
    destruct G as (G1 & G2 & G3 & G4 & G5 & G6). destruct (G6 _ _ L) as (c & N & RW).
    exists c, a. rewrite (R c N), RF. split; [exact RW|]. split; [reflexivity|]. split; [exact L|].
    unfold serve in E. rewrite N in E. unfold chan_set_device in E. rewrite RF in E. injection E as <- <-.
    exact (nth_error_upd_same _ _ (fun _ => with_device (s_device s) c) _ N).
  - destruct (new_chan O s i) as [c|e|] eqn:NC; cbn [obind] in E.
    2,3: injection E as <- <- <-; (split; [apply grown_refl|]); (split; [apply extends_refl|]); (split; [exact G|]);
         (split; [lia|]); (split; [|discriminate]); intros _ NB NI FI _;
         destruct (new_chan_defined s i h G NB NI FI) as [c' E']; congruence.
    pose proof (new_chan_raw s i h c G NC) as RW.
    unfold chan_set_device in E. destruct (refused valid (s_device s)) eqn:RF.
    { injection E as <- <- <-. split; [apply grown_refl|]. split; [apply extends_refl|]. split; [exact G|].
      split; [lia|]. split; [|discriminate]. intros; discriminate. }
    set (c1 := with_device (s_device s) c) in *.
    set (s1 := with_cache s ((i + s_start s, List.length h) :: s_cache s)) in *.
    pose proof (serve_spec s1 (h ++ [c1]) (List.length h) _ _ _ E) as (-> & EX & LN & R).
    assert (GR : grown s s1) by (apply grown_insert; exact L).
    assert (N : nth_error (h ++ [c1]) (List.length h) = Some c1) by (rewrite nth_error_app2, Nat.sub_diag; auto; lia).
    assert (EX0 : extends h (h ++ [c1])) by apply extends_app.
    assert (G1 : good s1 (h ++ [c1])).
    { destruct (good_extends _ _ _ G EX0) as (Q1 & Q2 & Q3 & Q4 & Q5 & Q6). repeat split; auto.
      intros k a. unfold s1. cbn. destruct (Z.eqb_spec k (i + s_start s)) as [->|].
      - intros [= <-]. exists c1. split; [exact N|]. now apply raw_device.
      - apply Q6. }
    split; [exact GR|]. split; [eapply extends_trans; eauto|]. split; [eapply good_extends; eauto|].
    split; [lia|]. split; [|discriminate]. intros HI NB NI FI _.
    exists c1, (List.length h). split; [now apply raw_device|].
    rewrite (R c1 N). unfold s1 at 1. cbn [s_device with_cache]. rewrite RF.
    split; [reflexivity|]. split; [unfold s1; cbn; now rewrite Z.eqb_refl|].
    unfold serve in E. rewrite N in E. unfold chan_set_device in E. unfold s1 at 1 in E. cbn [s_device with_cache] in E.
    rewrite RF in E. injection E as _ <-.
    exact (nth_error_upd_same _ _ (fun _ => with_device (s_device s) c1) _ N).
Qed.

Lemma peak_spec s h i r s' h' : good s h -> peak_channel valid s h i = (r, (s', h')) -> s' = s /\ extends h h'.
Proof.
  intros G E. unfold peak_channel in E. destruct (_ || _); [injection E as <- <- <-; auto using extends_refl|].
  destruct (lookup _ _) as [a|]; [|injection E as <- <- <-; auto using extends_refl].
  destruct (serve valid s h a) as [r0 [s0 h0]] eqn:S. cbn in E. injection E as <- <- <-.
  now destruct (serve_spec s h a _ _ _ S) as (-> & EX & _).
Qed.

Lemma set_all_extends d m : forall h r h', set_all valid d h m = (r, h') -> extends h h'.
Proof.
  induction m as [|[k a] m IH]; intros h r h' E; cbn in E; [injection E as <- <-; apply extends_refl|].
  destruct (nth_error h a) as [c|] eqn:N; [|injection E as <- <-; apply extends_refl].
  unfold chan_set_device in E. destruct (refused valid d); [injection E as <- <-; apply extends_refl|].
  eapply extends_trans; [apply extends_upd; exact N|]. eapply IH; exact E.
Qed.

Lemma set_device_spec s h d r s' h' : scan_set_device valid s h d = (r, (s', h')) -> s' = with_scan_device s d /\ extends h h'.
Proof.
  unfold scan_set_device. destruct (refused valid d); [intros [= <- <- <-]; auto using extends_refl|].
  destruct (set_all valid d h (s_cache s)) as [r0 h0] eqn:E. cbn. intros [= <- <- <-]. split; [reflexivity|].
  eapply set_all_extends; eauto.
Qed.

Lemma good_slice s h st n s' : good s h -> slice_scan O s st n = Ok s' -> good s' h.
Proof.
  intros (G1 & G2 & G3 & G4 & G5 & G6) E.
  destruct (slice_fields _ _ _ _ _ E) as (fine' & E1 & E2 & _ & _ & E5 & E6 & E7 & E8 & _ & E10 & _ & E12 & _).
  rewrite G2 in E1. injection E1 as <-.
  unfold good. rewrite E8, E2, E12, E10, E7, E5, E6, G4. repeat split; auto.
Qed.

(** ** Pools *)
Definition inv (w : list scan * heap) : Prop := Forall (fun s => good s (snd w) /\ int_range s) (fst w).

Lemma Forall_upd {B} (Q : B -> Prop) l k x : Forall Q l -> Q x -> Forall Q (upd l k (fun _ => x)).
Proof.
  intros H; revert k; induction H as [|y l Hy H IH]; intros k Hx; [destruct k; constructor|].
  destruct k; constructor; auto.
Qed.
Lemma nth_upd {B} (l : list B) k (x y : B) : nth_error l k = Some y -> nth_error (upd l k (fun _ => x)) k = Some x.
Proof. revert k; induction l; intros [|k]; cbn; try discriminate; auto. Qed.
Lemma good_all_extends (pool : list scan) h h' : extends h h' ->
  Forall (fun s => good s h /\ int_range s) pool -> Forall (fun s => good s h' /\ int_range s) pool.
Proof. intros E. apply Forall_impl. intros s [G I]. split; [eapply good_extends; eauto|exact I]. Qed.

Lemma grown_range s s' : grown s s' -> int_range s -> int_range s'.
Proof. intros (_ & _ & _ & _ & _ & _ & N & S & _). unfold int_range. now rewrite N, S. Qed.

Lemma step_inv w o w' : inv w -> sstep O valid w o = Some w' ->
  (forall s, In s (fst w') -> int_range s) -> inv w'.
Proof.
  destruct w as [pool h]. unfold inv. cbn [fst snd]. intros I E R.
  destruct o as [k i|k i|k g|k st n|k|k d]; cbn [sstep fst snd] in E;
    destruct (nth_error pool k) as [s|] eqn:N; try discriminate;
    pose proof (nth_error_In _ _ N) as Hin; pose proof (proj1 (Forall_forall _ _) I s Hin) as [G IR].
  - destruct (read_channel O valid s h i) as [r [s' h']] eqn:RD. cbn [fst snd] in E.
    destruct (read_spec _ _ _ _ _ _ G IR RD) as (GR & EX & G' & _).
    destruct r; try discriminate; injection E as <-; cbn [fst snd];
      (apply Forall_upd; [eapply good_all_extends; eauto|split; [exact G'|eapply grown_range; eauto]]).
  - destruct (peak_channel valid s h i) as [r [s' h']] eqn:RD. cbn [fst snd] in E.
    destruct (peak_spec _ _ _ _ _ _ G RD) as (-> & EX).
    destruct r; try discriminate; injection E as <-; cbn [fst snd];
      (apply Forall_upd; [eapply good_all_extends; eauto|split; [eapply good_extends; eauto|exact IR]]).
  - injection E as <-. cbn [fst snd]. apply Forall_upd; [exact I|]. split; [exact G|exact IR].
  - destruct (slice_scan O s st n) as [s'|e|] eqn:SL; try discriminate. injection E as <-. cbn [fst snd] in *.
    apply Forall_app. split; [exact I|]. constructor; [|constructor]. split; [eapply good_slice; eauto|].
    apply R, in_or_app. right. left. reflexivity.
  - injection E as <-. cbn [fst snd]. apply Forall_app. split; [exact I|]. constructor; [|constructor]. split; assumption.
  - destruct (scan_set_device valid s h d) as [r [s' h']] eqn:RD. cbn [fst snd] in E.
    destruct (set_device_spec _ _ _ _ _ _ RD) as (-> & EX).
    assert (G' : good (with_scan_device s d) h') by (eapply good_extends; [|exact EX]; exact G).
    destruct r; try discriminate; injection E as <-; cbn [fst snd];
      (apply Forall_upd; [eapply good_all_extends; eauto|split; [exact G'|exact IR]]).
Qed.

(** Scans are never removed from the pool; they keep their range, and what they have cached stays. *)
Definition older (s s' : scan) : Prop :=
  s_start s' = s_start s /\ s_num s' = s_num s /\ (forall k a, lookup k (s_cache s) = Some a -> lookup k (s_cache s') = Some a).
Definition keeps (w w' : list scan * heap) : Prop :=
  forall k s, nth_error (fst w) k = Some s -> exists s', nth_error (fst w') k = Some s' /\ older s s'.

Lemma older_refl s : older s s. Proof. repeat split; auto. Qed.
Lemma keeps_upd (pool : list scan) h h' k s s' : nth_error pool k = Some s -> older s s' ->
  keeps (pool, h) (upd pool k (fun _ => s'), h').
Proof.
  intros N H j t Nj. cbn [fst] in *. destruct (Nat.eq_dec k j) as [<-|].
  - rewrite N in Nj. injection Nj as <-. exists s'. split; [eapply nth_upd; eauto|exact H].
  - exists t. split; [rewrite nth_error_upd_other; auto|apply older_refl].
Qed.
Lemma keeps_app (pool : list scan) h h' t : keeps (pool, h) (pool ++ t, h').
Proof.
  intros k s N. exists s. split; [|apply older_refl]. cbn [fst] in *. rewrite nth_error_app1; auto. apply nth_error_Some. congruence.
Qed.

Lemma read_older s h i r s' h' : read_channel O valid s h i = (r, (s', h')) -> older s s'.
Proof.
  unfold read_channel. destruct (_ || _); [intros [= <- <- <-]; apply older_refl|].
  destruct (lookup (to_int32 (i + s_start s)) (s_cache s)) as [a|] eqn:L.
  - intros E. now destruct (serve_spec _ _ _ _ _ _ E) as (-> & _); apply older_refl.
  - destruct (let! c := new_chan O s i in chan_set_device valid (s_device s) c) as [c|e|].
    + intros E. destruct (serve_spec _ _ _ _ _ _ E) as (-> & _).
      destruct (grown_insert s _ (List.length h) L) as (_ & _ & _ & _ & _ & _ & N & S & _ & _ & _ & K). now repeat split.
    + intros [= <- <- <-]; apply older_refl.
    + intros [= <- <- <-]; apply older_refl.
Qed.
Lemma peak_older s h i r s' h' : peak_channel valid s h i = (r, (s', h')) -> older s s'.
Proof.
  unfold peak_channel. destruct (_ || _); [intros [= <- <- <-]; apply older_refl|].
  destruct (lookup _ _) as [a|]; [|intros [= <- <- <-]; apply older_refl].
  destruct (serve valid s h a) as [r0 [s0 h0]] eqn:S. cbn. intros [= <- <- <-].
  destruct (serve_spec s h a _ _ _ S) as (-> & _). apply older_refl.
Qed.

Lemma step_keeps w o w' : sstep O valid w o = Some w' -> keeps w w'.
Proof.
  destruct w as [pool h]. intros E.
  destruct o as [k i|k i|k g|k st n|k|k d]; cbn [sstep fst snd] in E;
    destruct (nth_error pool k) as [s|] eqn:N; try discriminate.
  - destruct (read_channel O valid s h i) as [r [s' h']] eqn:RD. cbn [fst snd] in E. apply read_older in RD.
    destruct r; try discriminate; injection E as <-; eapply keeps_upd; eauto.
  - destruct (peak_channel valid s h i) as [r [s' h']] eqn:RD. cbn [fst snd] in E. apply peak_older in RD.
    destruct r; try discriminate; injection E as <-; eapply keeps_upd; eauto.
  - injection E as <-. eapply keeps_upd; eauto. repeat split; auto.
  - destruct (slice_scan O s st n); try discriminate. injection E as <-. apply keeps_app.
  - injection E as <-. apply keeps_app.
  - destruct (scan_set_device valid s h d) as [r [s' h']] eqn:RD. cbn [fst snd] in E.
    destruct (set_device_spec _ _ _ _ _ _ RD) as (-> & _).
    destruct r; try discriminate; injection E as <-; (eapply keeps_upd; [eauto|repeat split; auto]).
Qed.

Lemma keeps_refl w : keeps w w.
Proof. intros k s N. exists s. split; [exact N|apply older_refl]. Qed.
Lemma keeps_trans w1 w2 w3 : keeps w1 w2 -> keeps w2 w3 -> keeps w1 w3.
Proof.
  intros H1 H2 k s N. destruct (H1 _ _ N) as (s2 & N2 & A1 & B1 & C1). destruct (H2 _ _ N2) as (s3 & N3 & A2 & B2 & C2).
  exists s3. split; [exact N3|]. repeat split; try congruence. auto.
Qed.
Lemma runs_keeps os : forall w w', sruns O valid w os = Some w' -> keeps w w'.
Proof.
  induction os as [|o os IH]; intros w w' E; cbn in E; [injection E as <-; apply keeps_refl|].
  destruct (sstep O valid w o) as [w1|] eqn:S; [|discriminate].
  eapply keeps_trans; [eapply step_keeps; eauto|eapply IH; eauto].
Qed.

Lemma keeps_range w w' : keeps w w' -> (forall s, In s (fst w') -> int_range s) -> forall s, In s (fst w) -> int_range s.
Proof.
  intros K R s I. apply In_nth_error in I. destruct I as [k N]. destruct (K _ _ N) as (s' & N' & S & M & _).
  apply nth_error_In, R in N'. unfold int_range in *. now rewrite <- S, <- M.
Qed.

Lemma runs_inv os : forall w w', inv w -> sruns O valid w os = Some w' -> (forall s, In s (fst w') -> int_range s) -> inv w'.
Proof.
  induction os as [|o os IH]; intros w w' I E R; cbn in E; [injection E as <-; exact I|].
  destruct (sstep O valid w o) as [w1|] eqn:S; [|discriminate].
  apply (IH w1); auto. eapply step_inv; eauto. eapply keeps_range; [eapply runs_keeps; eauto|exact R].
Qed.

(** ** The transforms a scan applies: those registered on it, after those it was copied with *)
Fixpoint pipes (os : list (sop F P)) (ps : list (list (chan -> outcome chan))) : list (list (chan -> outcome chan)) :=
  match os with
  | [] => ps
  | o :: os' =>
    pipes os' (match o with
               | SAdd k g => upd ps k (fun p => p ++ [g])
               | SSlice k _ _ | SCopy k => match nth_error ps k with Some p => ps ++ [p] | None => ps end
               | _ => ps
               end)
  end.

Lemma map_upd_const {B C} (g : B -> C) l k (x y : B) : nth_error l k = Some y -> g x = g y -> map g (upd l k (fun _ => x)) = map g l.
Proof. revert k; induction l as [|z l IH]; intros [|k] N E; cbn in *; try discriminate; [injection N as ->; now rewrite E|]. now rewrite (IH k). Qed.
Lemma map_upd {B C} (g : B -> C) l k (x : B) q y : nth_error l k = Some y -> g x = q (g y) -> map g (upd l k (fun _ => x)) = upd (map g l) k q.
Proof. revert k; induction l as [|z l IH]; intros [|k] N E; cbn in *; try discriminate; [injection N as ->; now rewrite E|]. now rewrite (IH k). Qed.

Lemma read_pipe (s : scan) h i r (s' : scan) h' : read_channel O valid s h i = (r, (s', h')) -> s_pipe s' = s_pipe s.
Proof.
  unfold read_channel. destruct (_ || _); [now intros [= <- <- <-]|].
  destruct (lookup _ _) as [a|].
  - intros E. now destruct (serve_spec _ _ _ _ _ _ E) as (-> & _).
  - destruct (let! c := new_chan O s i in chan_set_device valid (s_device s) c) as [c|e|]; try now intros [= <- <- <-].
    intros E. now destruct (serve_spec _ _ _ _ _ _ E) as (-> & _).
Qed.
Lemma peak_same (s : scan) h i r (s' : scan) h' : peak_channel valid s h i = (r, (s', h')) -> s' = s.
Proof.
  unfold peak_channel. destruct (_ || _); [now intros [= <- <- <-]|].
  destruct (lookup _ _) as [a|]; [|now intros [= <- <- <-]].
  destruct (serve valid s h a) as [r0 [s0 h0]] eqn:S. cbn. intros [= <- <- <-]. now destruct (serve_spec s h a _ _ _ S) as (-> & _).
Qed.

Lemma runs_pipes os : forall w w', sruns O valid w os = Some w' -> map (fun s : scan => s_pipe s) (fst w') = pipes os (map (fun s : scan => s_pipe s) (fst w)).
Proof.
  induction os as [|o os IH]; intros w w' E; cbn in E; [now injection E as <-|].
  destruct (sstep O valid w o) as [w1|] eqn:S; [|discriminate]. rewrite (IH _ _ E). cbn [pipes]. f_equal.
  destruct w as [pool h]. clear E IH.
  destruct o as [k i|k i|k g|k st n|k|k d]; cbn [sstep fst snd] in S;
    destruct (nth_error pool k) as [s|] eqn:N; try discriminate; cbn [fst].
  - destruct (read_channel O valid s h i) as [r [s' h']] eqn:RD. cbn [fst snd] in S. apply read_pipe in RD.
    destruct r; try discriminate; injection S as <-; cbn [fst]; eapply map_upd_const; eauto.
  - destruct (peak_channel valid s h i) as [r [s' h']] eqn:RD. cbn [fst snd] in S. apply peak_same in RD. subst s'.
    destruct r; try discriminate; injection S as <-; cbn [fst]; eapply map_upd_const; eauto.
  - injection S as <-. cbn [fst]. eapply map_upd; eauto.
  - destruct (slice_scan O s st n) as [s'|e|] eqn:SL; try discriminate. injection S as <-. cbn [fst].
    destruct (slice_fields _ _ _ _ _ SL) as (_ & _ & _ & _ & _ & _ & _ & _ & _ & PI & _).
    rewrite map_app, nth_error_map, N. cbn [map option_map]. now rewrite PI.
  - injection S as <-. cbn [fst]. rewrite map_app, nth_error_map, N. reflexivity.
  - destruct (scan_set_device valid s h d) as [r [s' h']] eqn:RD. cbn [fst snd] in S.
    destruct (set_device_spec _ _ _ _ _ _ RD) as (-> & _).
    destruct r; try discriminate; injection S as <-; cbn [fst]; (eapply map_upd_const; [eauto|reflexivity]).
Qed.
End Hist.
