(** Event files, targets, formats and the command line loop. *)
From Coq Require Import ZArith Lia String.
From Verif Require Import FileModel FileBits FileProofs FileScanProofs BaseFacts.
Local Open Scope Z_scope.
Local Open Scope list_scope.

(** ** Events *)
Definition reread_event (e : event) : event :=
  Event (map reread (ev_hits e)) zero64 (f32_of_Z 0) (f32_of_Z 0) (f32_of_Z 0) zero64 zero64 zero64.
Definition narrow_bins (e : event) : Prop := Forall (fun h => Z.abs (h_bins h) <= 2 ^ 24) (ev_hits e).
Lemma event_round e : narrow_bins e -> event_of_signals (event_signals e) = Ok (reread_event e).
Proof.
  intros H. unfold event_of_signals, event_signals. rewrite each_map, (each_ok _ reread); [reflexivity|].
  intros h Hh. apply signal_round. unfold narrow_bins in H. rewrite Forall_forall in H. auto.
Qed.

Section Events.
Context (enc : list signal -> list Z) (dec : list Z -> option (list signal * list Z)).
Definition small (gs : list signal) : Prop := event_words gs <= 8 * 2 ^ 20.
Record codec : Prop := {
  dec_enc : forall gs rest, Forall in_schema gs -> small gs -> dec (enc gs ++ rest) = Some (gs, rest);
  dec_big : forall gs rest, Forall in_schema gs -> ~ small gs -> dec (enc gs ++ rest) = None;
  dec_cut : forall gs k, Forall in_schema gs -> (k < List.length (enc gs))%nat -> dec (firstn k (enc gs)) = None }.
Hypothesis C : codec.
Lemma enc_nonempty gs : Forall in_schema gs -> small gs -> (0 < List.length (enc gs))%nat.
Proof.
  intros S H. destruct (enc gs) eqn:E; [|cbn; lia]. exfalso. pose proof (dec_enc C gs [] S H) as A. rewrite E in A. cbn in A.
  set (g0 := signal_of_words []). assert (S0 : Forall in_schema [g0]) by (repeat constructor; unfold int32; vm_compute; intuition discriminate).
  assert (H0 : small [g0]) by (vm_compute; discriminate).
  pose proof (dec_cut C [g0] 0 S0). cbn [firstn] in H1.
  destruct (enc [g0]) eqn:E0.
  - pose proof (dec_enc C [g0] [] S0 H0) as B. rewrite E0 in B. cbn in B.
    pose proof (dec_enc C [g0; g0] [] ltac:(repeat constructor; unfold int32; vm_compute; intuition discriminate) ltac:(vm_compute; discriminate)) as D.
    destruct (enc [g0; g0]) eqn:E1; [cbn in D; congruence|].
    pose proof (dec_cut C [g0; g0] 0 ltac:(repeat constructor; unfold int32; vm_compute; intuition discriminate)) as X. rewrite E1 in X. cbn in X. rewrite X in B by lia. discriminate.
  - cbn in H1. rewrite H1 in A by lia. discriminate.
Qed.
Lemma dec_nil : dec [] = None.
Proof.
  set (g0 := signal_of_words []). assert (S0 : Forall in_schema [g0]) by (repeat constructor; unfold int32; vm_compute; intuition discriminate).
  assert (H0 : small [g0]) by (vm_compute; discriminate). apply (dec_cut C [g0] 0 S0). apply enc_nonempty; auto.
Qed.
Lemma stream_app gss r fuel : Forall (Forall in_schema) gss -> Forall small gss -> (List.length gss <= fuel)%nat ->
  read_stream dec fuel (flat_map enc gss ++ r) = gss ++ read_stream dec (fuel - List.length gss) r.
Proof.
  intros H; revert fuel; induction H as [|g gs Hg _ IH]; intros fuel Hs Hf; [cbn; rewrite Nat.sub_0_r; reflexivity|].
  destruct fuel as [|fuel]; cbn [List.length] in *; [lia|]. inversion Hs; subst. cbn [flat_map read_stream]. rewrite <- app_assoc.
  rewrite (dec_enc C) by auto. cbn [app Nat.sub]. f_equal. apply IH; auto. lia.
Qed.
Lemma stream_none fuel r : dec r = None -> read_stream dec fuel r = [].
Proof. intros H. destruct fuel; cbn; [reflexivity|]. rewrite H. reflexivity. Qed.
Lemma stream_length gss : Forall (Forall in_schema) gss -> Forall small gss -> (List.length gss <= List.length (flat_map enc gss))%nat.
Proof.
  induction gss as [|g gs IH]; intros H S; [cbn; lia|]. inversion H; inversion S; subst. cbn [flat_map List.length]. rewrite app_length.
  pose proof (enc_nonempty g). specialize (IH H3 H7). pose proof (H0 H2 H6). lia.
Qed.
Lemma events_schema es : Forall (Forall in_schema) (map event_signals es).
Proof. apply Forall_forall. intros gs H. apply in_map_iff in H as (e & <- & _). apply all_in_schema. Qed.
Lemma write_flat es : write_events enc es = flat_map enc (map event_signals es).
Proof. unfold write_events. rewrite !flat_map_concat_map, map_map. reflexivity. Qed.
Lemma each_events es : Forall narrow_bins es -> each event_of_signals (map event_signals es) = Ok (map reread_event es).
Proof. intros H. rewrite each_map. apply each_ok. intros e He. apply event_round. rewrite Forall_forall in H. auto. Qed.

Definition few (e : event) : Prop := 3 + 22 * zlen (ev_hits e) <= 8 * 2 ^ 20.
Lemma few_small es : Forall few es -> Forall small (map event_signals es).
Proof. intros H. apply Forall_forall. intros gs Hg. apply in_map_iff in Hg as (e & <- & He). rewrite Forall_forall in H. specialize (H e He).
  unfold small, event_words, few in *. unfold zlen in *. unfold event_signals. rewrite map_length. auto. Qed.
(** What is read of a file that starts with small events followed by bytes that do not decode. *)
Lemma events_then es r : Forall narrow_bins es -> Forall few es -> dec r = None -> read_events dec (write_events enc es ++ r) = Ok (map reread_event es).
Proof.
  intros B F D. unfold read_events. rewrite write_flat. rewrite stream_app; auto using events_schema, few_small.
  2: { rewrite app_length. pose proof (stream_length _ (events_schema es) (few_small es F)). lia. }
  rewrite stream_none by auto. rewrite app_nil_r. apply each_events; auto.
Qed.
Lemma events_whole es : Forall narrow_bins es -> Forall few es -> read_events dec (write_events enc es) = Ok (map reread_event es).
Proof. intros B F. rewrite <- (app_nil_r (write_events enc es)). apply events_then; auto. apply dec_nil. Qed.
Lemma events_stop es e es' : Forall narrow_bins es -> Forall few es -> ~ few e -> read_events dec (write_events enc (es ++ e :: es')) = Ok (map reread_event es).
Proof.
  intros B F N. replace (write_events enc (es ++ e :: es')) with (write_events enc es ++ enc (event_signals e) ++ write_events enc es').
  - apply events_then; auto. apply (dec_big C). { apply all_in_schema. } intros S. apply N. unfold small, event_words, zlen, event_signals in S. rewrite map_length in S. exact S.
  - unfold write_events. rewrite flat_map_app. reflexivity.
Qed.
Lemma events_cut es e k : Forall narrow_bins es -> Forall few es -> (k < List.length (enc (event_signals e)))%nat ->
  read_events dec (write_events enc es ++ firstn k (enc (event_signals e))) = Ok (map reread_event es).
Proof. intros B F K. apply events_then; auto. apply (dec_cut C); auto. apply all_in_schema. Qed.
(** Every cut of a file falls in one of the messages or at its end. *)
Lemma cut_somewhere es k : (k < List.length (write_events enc es))%nat ->
  exists es1 e es2 j, es = es1 ++ e :: es2 /\ (j < List.length (enc (event_signals e)))%nat /\
    firstn k (write_events enc es) = write_events enc es1 ++ firstn j (enc (event_signals e)) /\ k = (List.length (write_events enc es1) + j)%nat.
Proof.
  revert k; induction es as [|e es IH]; intros k Hk; unfold write_events in *; [cbn in Hk; lia|]. cbn [flat_map] in *. rewrite app_length in Hk.
  set (m := enc (event_signals e)) in *. destruct (Nat.lt_ge_cases k (List.length m)) as [H|H].
  - exists [], e, es, k. repeat split; auto. rewrite firstn_app. replace (k - List.length m)%nat with 0%nat by lia. rewrite firstn_O, app_nil_r. reflexivity.
  - destruct (IH (k - List.length m)%nat) as (es1 & e' & es2 & j & A & B & D & E); [lia|].
    exists (e :: es1), e', es2, j. subst es. repeat split; auto.
    + rewrite firstn_app, D. cbn [flat_map]. rewrite <- app_assoc. f_equal. apply firstn_all2. auto.
    + cbn [flat_map]. rewrite app_length. fold m. lia.
Qed.
End Events.

(** A codec. *)
Section Toy.
Variables (p32 p64 : Z) (other : list Z -> option (signal * list Z)).
Hypotheses (Q32 : 0 < p32 < 2 ^ 23) (Q64 : 0 < p64 < 2 ^ 52).
Definition toy_enc (gs : list signal) : list Z :=
  if event_words gs <=? 8 * 2 ^ 20 then le 8 (zlen gs) ++ flat_map (message p32 p64) gs else le 8 (2 ^ 63).
Definition toy_dec (b : list Z) : option (list signal * list Z) :=
  if zlen b <? 8 then None else
  let n := of_le (firstn 8 b) in
  if 8 * 2 ^ 20 <? 3 + 22 * n then None
  else if zlen b <? 8 + 104 * n then None
  else Some (read_signals other (Z.to_nat n) (firstn (Z.to_nat (104 * n)) (skipn 8 b)), skipn (Z.to_nat (8 + 104 * n)) b).
Lemma skip_more {A} (a b : nat) (l : list A) : skipn (a + b) l = skipn a (skipn b l).
Proof. revert l; induction b as [|b IH]; intros l; [rewrite Nat.add_0_r; reflexivity|]. rewrite Nat.add_succ_r. destruct l; cbn [skipn]; [destruct a; reflexivity|apply IH]. Qed.
Lemma toy_codec : codec toy_enc toy_dec.
Proof.
  assert (Z0 : forall gs : list signal, 0 <= zlen gs) by (intros; unfold zlen; lia).
  assert (Lm : forall gs, zlen (flat_map (message p32 p64) gs) = 104 * zlen gs) by (intros; unfold zlen; rewrite flat_length; lia).
  assert (L8 : forall z, zlen (le 8 z) = 8) by (intros; unfold zlen; rewrite le_length; reflexivity).
  split.
  - intros gs rest S H. unfold small in H. unfold toy_enc. rewrite (proj2 (Z.leb_le _ _) H). unfold event_words in H. pose proof (Z0 gs).
    unfold toy_dec. rewrite <- app_assoc, !zlen_app, L8, Lm. assert (0 <= zlen rest) by (unfold zlen; lia).
    rewrite (proj2 (Z.ltb_ge _ 8)) by lia. rewrite take8, drop8, of_le_word by lia. cbv zeta.
    rewrite (proj2 (Z.ltb_ge _ _)) by lia. rewrite (proj2 (Z.ltb_ge _ (8 + 104 * zlen gs))) by lia.
    replace (Z.to_nat (104 * zlen gs)) with (List.length (flat_map (message p32 p64) gs)) by (rewrite flat_length; unfold zlen; lia).
    rewrite firstn_app, Nat.sub_diag, firstn_O, app_nil_r, firstn_all. rewrite whole; auto. 2: { unfold zlen. lia. }
    f_equal. f_equal. replace (Z.to_nat (8 + 104 * zlen gs)) with (List.length (flat_map (message p32 p64) gs) + 8)%nat by (rewrite flat_length; unfold zlen; lia).
    rewrite skip_more, drop8, skipn_app, skipn_all, Nat.sub_diag. reflexivity.
  - intros gs rest S H. unfold small in H. unfold toy_enc. rewrite (proj2 (Z.leb_gt _ _)) by lia. unfold toy_dec. rewrite zlen_app, L8.
    assert (0 <= zlen rest) by (unfold zlen; lia). rewrite (proj2 (Z.ltb_ge _ 8)) by lia. rewrite take8. rewrite of_le_word by lia. reflexivity.
  - intros gs k S Hk. unfold toy_dec. unfold zlen at 1. rewrite firstn_length, Nat.min_l by lia.
    destruct (Z.ltb_spec (Z.of_nat k) 8); [reflexivity|]. unfold toy_enc in *. destruct (Z.leb_spec (event_words gs) (8 * 2 ^ 20)) as [H0|H0].
    + rewrite app_length, le_length, flat_length in Hk. rewrite firstn_firstn, Nat.min_l by lia. rewrite take8. unfold event_words in H0. pose proof (Z0 gs).
      rewrite of_le_word by lia. cbv zeta. rewrite (proj2 (Z.ltb_ge _ _)) by lia. unfold zlen at 1. rewrite firstn_length, app_length, le_length, flat_length.
      rewrite (proj2 (Z.ltb_lt _ _)) by (unfold zlen; lia). reflexivity.
    + rewrite le_length in Hk. lia.
Qed.
End Toy.

(** ** Targets and cadences *)
Section Targets.
Context {P : Type} (valid : Z -> bool) (hits_of : chan f64 P -> outcome (list hit)).
Lemma scans_in_order ss : forall h ms h', scan_messages valid hits_of ss h = (Ok ms, h') ->
  Forall2 (fun s m => exists h0, fst (scan_message valid hits_of s h0) = Ok m) ss ms.
Proof.
  induction ss as [|s ss IH]; intros h ms h' H; cbn [scan_messages] in H.
  - injection H as <- <-. constructor.
  - destruct (scan_message valid hits_of s h) as [[m|e|] (s1 & h1)] eqn:E; cbn [fst snd] in H; try discriminate.
    destruct (scan_messages valid hits_of ss h1) as [[ms1|e|] h2] eqn:E1; cbn [fst snd omap] in H; try discriminate.
    injection H as <- <-. constructor; eauto. exists h. rewrite E. reflexivity.
Qed.
Lemma targets_in_order ts : forall h ms h', target_messages valid hits_of ts h = (Ok ms, h') ->
  Forall2 (fun t tm => Forall2 (fun s m => exists h0, fst (scan_message valid hits_of s h0) = Ok m) (t_scans t) tm) ts ms.
Proof.
  induction ts as [|t ts IH]; intros h ms h' H; cbn [target_messages] in H.
  - injection H as <- <-. constructor.
  - destruct (scan_messages valid hits_of (t_scans t) h) as [[m|e|] h1] eqn:E; cbn [fst snd] in H; try discriminate.
    destruct (target_messages valid hits_of ts h1) as [[ms1|e|] h2] eqn:E1; cbn [fst snd omap] in H; try discriminate.
    injection H as <- <-. constructor; eauto. eapply scans_in_order; eauto.
Qed.
End Targets.

(** ** Formats *)
Lemma substring_suffix p q : substring (String.length p) (String.length q) (p ++ q)%string = q.
Proof. induction p as [|c p IH]; cbn [String.append String.length substring]; [|exact IH]. induction q; cbn; [reflexivity|]. rewrite IHq at 1. reflexivity. Qed.
Lemma string_length_app p q : String.length (p ++ q)%string = (String.length p + String.length q)%nat.
Proof. induction p; cbn; congruence. Qed.
Lemma substring_all q : substring 0 (String.length q) q = q.
Proof. induction q; cbn; congruence. Qed.
Lemma split_at n s : (n <= String.length s)%nat -> s = (substring 0 n s ++ substring n (String.length s - n) s)%string.
Proof.
  revert s; induction n as [|n IH]; intros s H.
  - rewrite Nat.sub_0_r, substring_all. destruct s; reflexivity.
  - destruct s as [|c s]; cbn [String.length] in *; [lia|]. cbn. f_equal. apply IH. lia.
Qed.
Lemma ends_with_spec str suf : ends_with str suf = true <-> exists p, str = (p ++ suf)%string.
Proof.
  unfold ends_with. rewrite Bool.andb_true_iff, Nat.leb_le, String.eqb_eq. split.
  - intros (L & E). exists (substring 0 (String.length str - String.length suf) str).
    rewrite <- E at 2. replace (String.length suf) with (String.length str - (String.length str - String.length suf))%nat at 3 by lia. apply split_at. lia.
  - intros (p & ->). rewrite string_length_app. split; [lia|]. replace (String.length p + String.length suf - String.length suf)%nat with (String.length p) by lia. apply substring_suffix.
Qed.

(** ** The command line loop *)
Lemma look_cons fs p b q : look ((p, b) :: fs) q = if String.eqb q p then Some b else look fs q.
Proof. reflexivity. Qed.
Section Cli.
Context {S : Type} (hits : S -> outcome (list hit)) (save : string -> string -> S -> outcome (list Z)) (name : string -> string).
Notation loop := (cli_loop hits save name).
Lemma loop_fixed scans : forall inputs path fmt fs printed bytes,
  path <> ""%string -> path <> "-"%string -> path <> "stdout"%string ->
  Forall2 (fun s b => (exists hs, hits s = Ok hs) /\ save path fmt s = Ok b) scans bytes ->
  exists fs', loop inputs scans path fmt fs printed = Ok (true, fs', printed) /\
    (forall q, q <> path -> look fs' q = look fs q) /\ look fs' path = last (map Some bytes) (look fs path).
Proof.
  induction scans as [|s scans IH]; intros inputs path fmt fs printed bytes H1 H2 H3 F; inversion F as [|? b ? bs ((hs & Hh) & Hs) F']; subst.
  - exists fs. repeat split; auto.
  - cbn [cli_loop]. rewrite Hh. rewrite (proj2 (String.eqb_neq _ _) H1). cbn [obind]. rewrite (proj2 (String.eqb_neq _ _) H2), (proj2 (String.eqb_neq _ _) H3).
    cbn [orb]. rewrite Hs. destruct (IH (tl inputs) path fmt ((path, b) :: fs) printed bs H1 H2 H3 F') as (fs' & A & B & C).
    exists fs'. repeat split; auto.
    + intros q Hq. rewrite B by auto. cbn [look]. rewrite (proj2 (String.eqb_neq _ _) Hq). reflexivity.
    + rewrite C. cbn [look map]. rewrite String.eqb_refl. destruct bs as [|b' bs]; [reflexivity|]. cbn [map].
      assert (Q : forall l (d d' x : option (list Z)), last (x :: l) d = last (x :: l) d') by (induction l; intros; cbn in *; auto). 
      change (last (Some b :: Some b' :: map Some bs) (look fs path)) with (last (Some b' :: map Some bs) (look fs path)). apply Q.
Qed.
Lemma loop_named scans inputs i fmt fs printed bytes :
  inputs = i :: tl inputs -> name i <> ""%string -> name i <> "-"%string -> name i <> "stdout"%string -> scans <> [] ->
  Forall2 (fun s b => (exists hs, hits s = Ok hs) /\ save (name i) "capnp" s = Ok b) scans bytes ->
  loop inputs scans "" fmt fs printed = loop inputs scans (name i) "capnp" fs printed.
Proof.
  intros Ei H1 H2 H3 Hne F. destruct scans as [|s scans]; [congruence|]. inversion F as [|? b ? bs ((hs & Hh) & Hs) F']; subst.
  cbn [cli_loop]. rewrite Hh. cbn [String.eqb]. rewrite Ei. rewrite (proj2 (String.eqb_neq _ _) H1). cbn [obind tl]. reflexivity.
Qed.
Lemma loop_never_throws scans : forall inputs path fmt fs printed e, loop inputs scans path fmt fs printed <> Throw e.
Proof.
  induction scans as [|s scans IH]; intros inputs path fmt fs printed e; cbn [cli_loop]; [discriminate|].
  destruct (hits s); try discriminate.
  destruct (String.eqb path ""); [destruct inputs as [|i inputs]; [discriminate|]|]; cbn [obind];
    (destruct (_ || _); [apply IH|]; destruct (save _ _ s); try discriminate; apply IH).
Qed.
End Cli.
