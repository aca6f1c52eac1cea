(** Property C87: reading dat files. *)
From Coq Require Import Reals Lra ZArith Lia List.
From Flocq Require Import Core BinarySingleNaN.
From Verif Require Import Base HitModel DriftFloatProofs DatModel DatText FloatErr DatProofs PropDat DatRead.
Import ListNotations.
Local Open Scope Z_scope.
Local Open Scope list_scope.

(** ** Spec: words of a line *)
Definition white : ascii -> bool := in_class Space.
Definition nonwhite (s : string) : Prop := all_chars (in_class NonSpace) s = true.
Definition word_ (s : string) : Prop := nonwhite s /\ s <> ""%string.
Fixpoint pieces (s : string) : list string :=
  match s with
  | EmptyString => [""%string]
  | String a s' => if white a then ""%string :: pieces s' else match pieces s' with [] => [String a ""] | w :: ws => String a w :: ws end
  end.
Definition words (s : string) : list string := filter (fun w => negb (String.eqb w "")) (pieces s).

Lemma pieces_app a c t : nonwhite a -> white c = true -> pieces (a ++ String c t) = a :: pieces t.
Proof.
  intros Ha Hc. induction a as [|x a IH]; cbn [String.append pieces]; [now rewrite Hc|]. unfold nonwhite in Ha. cbn [all_chars] in Ha. apply Bool.andb_true_iff in Ha as (H1 & H2).
  change (in_class NonSpace x) with (negb (white x)) in H1. destruct (white x); [discriminate|]. now rewrite IH.
Qed.
Lemma words_app a c t : word_ a -> white c = true -> words (a ++ String c t) = a :: words t.
Proof.
  intros (Ha & Hn) Hc. unfold words. rewrite pieces_app by assumption. cbn [filter]. destruct (String.eqb_spec a ""); [congruence|reflexivity].
Qed.
Lemma words_white w t : all_chars white w = true -> words (w ++ t) = words t.
Proof. induction w as [|c w IH]; cbn [all_chars String.append]; [reflexivity|]. intros H. apply Bool.andb_true_iff in H as (H1 & H2). unfold words in *. cbn [pieces]. rewrite H1. cbn [filter]. cbn. now apply IH. Qed.

(** ** The matcher *)
Definition stops (k : class) (s : string) : Prop := match s with EmptyString => True | String c _ => in_class k c = false end.
Lemma many_greedy k cont a b acc c : all_chars (in_class k) a = true -> a <> ""%string -> stops k b -> cont b (acc ++ a)%string = Some c -> many k cont (a ++ b) acc = Some c.
Proof.
  revert acc. induction a as [|x a IH]; intros acc Ha Hn Hb Hc; [congruence|]. cbn [all_chars] in Ha. apply Bool.andb_true_iff in Ha as (H1 & H2).
  cbn [String.append many]. rewrite H1. destruct a as [|y a].
  - cbn [String.append]. assert (many k cont b (acc ++ String x "") = None) as ->; [|exact Hc].
    destruct b as [|z b]; cbn [many]; [reflexivity|]. cbn in Hb. now rewrite Hb.
  - rewrite (IH (acc ++ String x "")%string); auto; [discriminate|]. rewrite app_assoc_s. exact Hc.
Qed.
Lemma run_lit s : forall r t acc, run (lit s ++ r) (s ++ t) acc = run r t (acc ++ s)%string.
Proof. induction s as [|x s IH]; intros r t acc; cbn [lit app run String.append]; [now rewrite app_empty|]. rewrite Ascii.eqb_refl, IH, app_assoc_s. reflexivity. Qed.
Lemma run_sp a b r acc c : all_chars white a = true -> a <> ""%string -> stops Space b -> run r b (acc ++ a)%string = Some c -> run (sp ++ r) (a ++ b) acc = Some c.
Proof. intros. cbn [sp app run]. now apply many_greedy. Qed.
Lemma run_word w b r acc c : word_ w -> stops NonSpace b -> run r b "" = Some c -> run (word ++ r) (w ++ b) acc = Some (w :: c).
Proof. intros (H1 & H2) Hb Hr. cbn [word app run]. apply many_greedy; auto. cbn [String.append]. now rewrite Hr. Qed.

Fixpoint derives (r : list node) (p : string) : Prop :=
  match r with
  | [] => p = ""%string
  | Chr c :: r' => exists p', p = String c p' /\ derives r' p'
  | Maybe c :: r' => derives r' p \/ exists p', p = String c p' /\ derives r' p'
  | Plus k :: r' => exists a b, p = (a ++ b)%string /\ a <> ""%string /\ all_chars (in_class k) a = true /\ derives r' b
  | _ :: r' => derives r' p
  end.
Lemma many_sound k cont : forall s acc c, many k cont s acc = Some c -> exists a b acc', s = (a ++ b)%string /\ a <> ""%string /\ all_chars (in_class k) a = true /\ cont b acc' = Some c.
Proof.
  induction s as [|x s IH]; intros acc c H; cbn [many] in H; [discriminate|]. destruct (in_class k x) eqn:Ex; [|discriminate].
  destruct (many k cont s (acc ++ String x "")) as [c'|] eqn:E.
  - cbn [orelse] in H. injection H as ->. destruct (IH _ _ E) as (a & b & acc' & -> & H1 & H2 & H3). exists (String x a), b, acc'. cbn [String.append all_chars]. rewrite Ex, H2. repeat split; auto. discriminate.
  - cbn [orelse] in H. exists (String x ""), s, (acc ++ String x "")%string. cbn [String.append all_chars]. rewrite Ex. repeat split; auto. discriminate.
Qed.
Lemma run_sound : forall r s acc c, run r s acc = Some c -> exists p t, s = (p ++ t)%string /\ derives r p.
Proof.
  induction r as [|n r IH]; intros s acc c H; [exists ""%string, s; split; reflexivity|]. destruct n as [x|x|k| |]; cbn [run] in H.
  - destruct s as [|a s]; [discriminate|]. destruct (Ascii.eqb_spec a x) as [->|]; [|discriminate]. destruct (IH _ _ _ H) as (p & t & -> & D). exists (String x p), t. split; [reflexivity|]. cbn. eauto.
  - assert (Skip : run r s acc = Some c -> exists p t, s = (p ++ t)%string /\ derives (Maybe x :: r) p).
    { intros E. destruct (IH _ _ _ E) as (p & t & -> & D). exists p, t. split; [reflexivity|]. cbn. now left. }
    destruct s as [|a s]; [auto|]. destruct (Ascii.eqb_spec a x) as [->|]; [|auto]. destruct (run r s (acc ++ String x "")) as [c'|] eqn:E; [|cbn [orelse] in H; auto].
    destruct (IH _ _ _ E) as (p & t & -> & D). exists (String x p), t. split; [reflexivity|]. cbn. right. eauto.
  - destruct (many_sound _ _ _ _ _ H) as (a & b & acc' & -> & H1 & H2 & H3). destruct (IH _ _ _ H3) as (p & t & -> & D). exists (a ++ p)%string, t. rewrite app_assoc_s. split; [reflexivity|]. cbn. exists a, p. auto.
  - destruct (IH _ _ _ H) as (p & t & -> & D). exists p, t. split; [reflexivity|exact D].
  - destruct (run r s "") as [c'|] eqn:E; [|discriminate]. destruct (IH _ _ _ E) as (p & t & -> & D). exists p, t. split; [reflexivity|exact D].
Qed.
Lemma derives_app r1 : forall r2 p, derives (r1 ++ r2) p -> exists a b, p = (a ++ b)%string /\ derives r1 a /\ derives r2 b.
Proof.
  induction r1 as [|n r1 IH]; intros r2 p H; [exists ""%string, p; repeat split; exact H|]. destruct n as [x|x|k| |]; cbn [app derives] in H.
  - destruct H as (p' & -> & H). destruct (IH _ _ H) as (a & b & -> & A & B). exists (String x a), b. cbn. eauto.
  - destruct H as [H|(p' & -> & H)]; destruct (IH _ _ H) as (a & b & -> & A & B); [exists a, b; cbn; auto|exists (String x a), b; cbn; eauto 6].
  - destruct H as (a0 & b0 & -> & H1 & H2 & H). destruct (IH _ _ H) as (a & b & -> & A & B). exists (a0 ++ a)%string, b. rewrite app_assoc_s. split; [reflexivity|]. split; [|exact B]. cbn. exists a0, a. auto.
  - apply (IH _ _ H).
  - apply (IH _ _ H).
Qed.
Lemma digit_nonwhite s : all_chars (in_class Digit) s = true -> nonwhite s.
Proof.
  apply all_impl. intros c. cbn [in_class]. rewrite Bool.andb_true_iff, !Z.leb_le. intros (A & B). apply Bool.negb_true_iff. apply Bool.orb_false_iff.
  split; [apply Z.eqb_neq; lia|]. apply Bool.andb_false_iff. right. apply Z.leb_gt. lia.
Qed.
Lemma nonwhite_app a b : nonwhite a -> nonwhite b -> nonwhite (a ++ b).
Proof. unfold nonwhite. intros A B. now rewrite all_app, A, B. Qed.
Lemma derives_int p : derives int_ p -> all_chars (in_class Digit) p = true /\ p <> ""%string.
Proof. cbn. intros (a & b & -> & H1 & H2 & ->). rewrite app_empty. auto. Qed.
Lemma int_word p : derives int_ p -> word_ p.
Proof. intros D. destruct (derives_int p D). split; [now apply digit_nonwhite|assumption]. Qed.
Lemma real_word p : derives real p -> word_ p.
Proof.
  cbn. intros (a & b & -> & H1 & H2 & b' & -> & c & d & -> & H3 & H4 & ->). split; [|destruct a; [congruence|discriminate]].
  apply nonwhite_app; [now apply digit_nonwhite|]. rewrite app_empty. change (String "." c) with ("." ++ c)%string. apply nonwhite_app; [reflexivity|now apply digit_nonwhite].
Qed.
Lemma signed_word p : derives signed_real p -> word_ p.
Proof.
  intros [D|(p' & -> & D)]; change (derives real _) in D || idtac.
  - apply real_word. exact D.
  - destruct (real_word p' D) as (A & B). split; [|discriminate]. change (String "-" p') with ("-" ++ p')%string. now apply nonwhite_app.
Qed.
(** A token followed by blanks is a word of the line. *)
Lemma token_word tok r p t : (forall a, derives tok a -> word_ a) -> derives (tok ++ sp ++ r) p -> exists a p', words (p ++ t) = a :: words (p' ++ t) /\ derives tok a /\ derives r p'.
Proof.
  intros W D. destruct (derives_app tok _ _ D) as (a & b & -> & A & B). destruct B as (w & p' & -> & Hn & Hw & B). exists a, p'. split; [|auto].
  destruct w as [|c w]; [congruence|]. cbn [all_chars] in Hw. apply Bool.andb_true_iff in Hw as (W1 & W2).
  rewrite !app_assoc_s. cbn [String.append]. rewrite words_app by auto. f_equal. now apply words_white.
Qed.

(** ** Fields of a row are words, with blanks in front *)
Definition field (f core : string) : Prop := word_ core /\ exists n, f = (spaces n ++ core)%string.
Lemma words_field f core t : field f core -> words (f ++ String tab t) = core :: words t.
Proof.
  intros (W & n & ->). rewrite app_assoc_s. rewrite words_white; [apply words_app; [exact W|reflexivity]|]. induction n; cbn [spaces all_chars]; auto.
Qed.
Lemma plain_nonwhite s : all_chars DatProofs.plain s = true -> nonwhite s.
Proof.
  apply all_impl. intros c. unfold DatProofs.plain. rewrite !Bool.orb_true_iff. intros [[H|H]|H]; [|apply Ascii.eqb_eq in H as ->; reflexivity|apply Ascii.eqb_eq in H as ->; reflexivity].
  pose proof (digit_nonwhite (String c "")) as X. unfold nonwhite in X. cbn [all_chars] in X. rewrite Bool.andb_true_r in X. 
  rewrite Bool.andb_true_r in X. exact (X H).
Qed.
Lemma padded_word w z : (1 <= w)%nat -> word_ (zero_padded w z).
Proof. intros Hw. split; [apply plain_nonwhite, plain_padded|]. intros E. pose proof (zero_padded_length w z) as L. rewrite E in L. cbn in L. lia. Qed.
Lemma integer_word z : word_ (integer z).
Proof.
  unfold integer, natural. split.
  - apply plain_nonwhite. rewrite all_app, plain_minus. apply plain_digits.
  - intros E. apply (f_equal String.length) in E. rewrite len_app, digits_length in E. destruct (digit_count_ok (Z.abs z)); [lia|]. cbn in E. lia.
Qed.
Lemma plain_body k i n : all_chars DatProofs.plain (DatText.body k i n) = true.
Proof. unfold DatText.body. rewrite !all_app, !plain_digits. reflexivity. Qed.
Lemma fixed_field {p q} w k (x : binary_float p q) : exists core, field (fixed w false k x) core.
Proof.
  assert (N : forall s n, exists core, field (spaces (w - String.length (minus s ++ DatText.body k (digit_count (n / 10 ^ Z.of_nat k)) n)) ++ (minus s ++ DatText.body k (digit_count (n / 10 ^ Z.of_nat k)) n)) core).
  { intros s n. eexists. split; [|eexists; reflexivity]. split; [apply plain_nonwhite; rewrite all_app, plain_minus; apply plain_body|].
    intros E. apply (f_equal String.length) in E. rewrite len_app, body_length in E. cbn in E. lia. }
  destruct x as [s|s| |s m e Hb].
  - apply N.
  - exists (minus s ++ "inf")%string. split; [|eexists; reflexivity]. destruct s; split; reflexivity || discriminate.
  - exists "nan"%string. split; [|eexists; reflexivity]. split; reflexivity || discriminate.
  - apply N.
Qed.
Lemma word_field w : word_ w -> field w w. Proof. intros W. split; [exact W|]. exists O. reflexivity. Qed.
Lemma row_words n h : nth_error (words (join tab (row_fields n h))) 9 = Some "0.000000"%string.
Proof.
  unfold row_fields.
  destruct (fixed_field 4 6 (h_drift h)) as (c1 & F1). destruct (fixed_field 2 6 (h_snr h)) as (c2 & F2). destruct (fixed_field 6 6 (mid_freq h)) as (c3 & F3).
  destruct (fixed_field 6 6 (h_freq h)) as (c6 & F6). destruct (fixed_field 6 6 (end_freq h)) as (c7 & F7).
  change (fixed 1 false 6 zero64) with "0.000000"%string. change (fixed 6 false 6 zero64) with "0.000000"%string.
  assert (Z : field "0.000000" "0.000000") by (apply word_field; split; [reflexivity|discriminate]).
  cbn [join]. rewrite (words_field (zero_padded 6 n) (zero_padded 6 n)) by (apply word_field, padded_word; lia).
  rewrite (words_field _ _ _ F1), (words_field _ _ _ F2), !(words_field _ _ _ F3), (words_field _ _ _ (word_field _ (integer_word (h_index h)))), (words_field _ _ _ F6), (words_field _ _ _ F7).
  rewrite !(words_field _ _ _ Z). reflexivity.
Qed.

(** No row written by the writer is recognised by the reader: it reads as any other line. *)
Lemma data_regex_tenth s c : run data_regex s "" = Some c -> exists a, nth_error (words s) 9 = Some a /\ all_chars (in_class Digit) a = true.
Proof.
  intros H. destruct (run_sound _ _ _ _ H) as (p & t & -> & D). unfold data_regex in D.
  repeat match type of D with
  | derives (signed_real ++ sp ++ _) _ => apply (token_word signed_real _ _ t signed_word) in D as (? & ? & -> & _ & D)
  | derives (real ++ sp ++ _) _ => apply (token_word real _ _ t real_word) in D as (? & ? & -> & _ & D)
  | derives (int_ ++ sp ++ int_) _ => apply (token_word int_ _ _ t int_word) in D as (a10 & ? & -> & D10 & D)
  | derives (int_ ++ sp ++ _) _ => apply (token_word int_ _ _ t int_word) in D as (? & ? & -> & _ & D)
  end.
  exists a10. split; [reflexivity|]. now apply derives_int.
Qed.
Theorem C87_rows_ignored_refuted : forall stod stoi st n h, read_line stod stoi st (join tab (row_fields n h)) = Ok (st, None).
Proof.
  intros stod stoi st n h. unfold read_line.
  assert (P : exists c s, join tab (row_fields n h) = String c s /\ Ascii.eqb c "#" = false).
  { unfold row_fields. pose proof (zero_padded_length 6 n) as L. pose proof (plain_padded 6 n) as P. destruct (zero_padded 6 n) as [|c s]; [cbn in L; lia|].
    cbn [join String.append]. do 2 eexists. split; [reflexivity|]. cbn [all_chars] in P. apply Bool.andb_true_iff in P as (P & _). destruct (Ascii.eqb_spec c "#"); [subst; discriminate|reflexivity]. }
  destruct P as (c & s & E & Hc).
  assert (run header_regex (join tab (row_fields n h)) "" = None) as -> by (rewrite E; cbn [header_regex lit app run]; now rewrite Hc).
  assert (run tstart_regex (join tab (row_fields n h)) "" = None) as -> by (rewrite E; cbn [tstart_regex lit app run]; now rewrite Hc).
  destruct (run data_regex (join tab (row_fields n h)) "") as [g|] eqn:Er; [|reflexivity].
  exfalso. destruct (data_regex_tenth _ _ Er) as (a & Ha & Hd). rewrite row_words in Ha. injection Ha as <-. discriminate.
Qed.
Print Assumptions C87_rows_ignored_refuted.
(** The reader does recognise lines: a row with one column less. *)
Example C87_rows_example : read_line (fun _ => Ok zero64) (fun _ => Ok 7) (DatScan None None None)
   ("000001" ++ String tab ("-0.25" ++ String tab ("10.5" ++ String tab ("1.0" ++ String tab ("1.0" ++ String tab ("42" ++ String tab ("1.5" ++ String tab ("1.5" ++ String tab ("0.0" ++ String tab ("3" ++ String tab "9"))))))))))
   = Ok (DatScan None None None, Some (zero64, zero64, 7, zero64, 7)).
Proof. reflexivity. Qed.

(** ** The header *)
(** What is assumed of the C library: a decimal text is read as the nearest double. *)
Definition million : Z := 10 ^ Z.of_nat 6.
Definition nearest_read (stod : string -> outcome f64) : Prop :=
  forall text z, read_decimal 6 text = Some z -> (Rabs (IZR z / IZR million) <= bpow radix2 1000)%R ->
  exists y, stod text = Ok y /\ is_finite y = true /\ B2R y = rd64 (IZR z / IZR million).

Lemma getlines_app l t : one_line l -> getlines (l ++ String newline t) = l :: getlines t.
Proof.
  intros H. induction l as [|c l IH]; cbn [String.append getlines]; [reflexivity|]. unfold one_line in H. cbn [all_chars] in H. apply Bool.andb_true_iff in H as (H1 & H2).
  destruct (Ascii.eqb c newline); [discriminate|]. now rewrite IH.
Qed.
Lemma getlines_text ls t : Forall one_line ls -> getlines (text_of ls ++ t) = ls ++ getlines t.
Proof. induction 1 as [|l ls H F IH]; [reflexivity|]. cbn [text_of app]. rewrite app_assoc_s. cbn [String.append]. rewrite getlines_app by exact H. now rewrite IH. Qed.
Lemma getlines_rows hs : forall n, getlines (rows n hs) = map (fun p => join tab (row_fields (fst p) (snd p))) (numbered n hs).
Proof.
  induction hs as [|h hs IH]; intros n; [reflexivity|]. cbn [rows numbered map fst snd]. unfold row. rewrite app_assoc_s. cbn [String.append].
  rewrite getlines_app; [now rewrite IH|]. apply join_no_newline, row_fields_sep.
Qed.
Lemma read_rows stod stoi st hs n : read_lines stod stoi st (getlines (rows n hs)) = Ok st.
Proof.
  rewrite getlines_rows. revert n. induction hs as [|h hs IH]; intros n; [reflexivity|]. cbn [numbered map read_lines fst snd].
  rewrite C87_rows_ignored_refuted. cbn [obind fst]. apply IH.
Qed.
Lemma fixed_word w k (x : f64) : is_finite x = true -> (w <= k + 2)%nat -> word_ (fixed w false k x).
Proof.
  intros Hf Hw. destruct (fixed_finite w false k x Hf (or_introl Hw)) as (i & _ & -> & _). split; [apply plain_nonwhite; rewrite all_app, plain_minus; apply plain_body|].
  intros E. apply (f_equal String.length) in E. rewrite len_app, body_length in E. cbn in E. lia.
Qed.
Lemma stops_word w b : word_ w -> stops Space (w ++ b).
Proof. intros (A & B). destruct w as [|c w]; [congruence|]. cbn [String.append stops]. unfold nonwhite in A. cbn [all_chars] in A. apply Bool.andb_true_iff in A as (A & _). change (in_class NonSpace c) with (negb (in_class Space c)) in A. destruct (in_class Space c); [discriminate|reflexivity]. Qed.
Ltac blanks a := apply (run_sp a); [reflexivity|discriminate|first [reflexivity|apply stops_word; assumption]|].
Lemma header_line T ra dec : word_ T -> word_ (ra ++ "s") -> word_ dec ->
  run header_regex ("# MJD: " ++ T ++ String tab ("RA: " ++ ra ++ "s" ++ String tab ("DEC:" ++ dec))) "" = Some [T; (ra ++ "s")%string; dec].
Proof.
  intros HT Hr Hd. replace (ra ++ "s" ++ String tab ("DEC:" ++ dec))%string with ((ra ++ "s") ++ String tab ("DEC:" ++ dec))%string by (rewrite app_assoc_s; reflexivity).
  change ("# MJD: " ++ T ++ String tab ("RA: " ++ (ra ++ "s") ++ String tab ("DEC:" ++ dec)))%string with
    ("#" ++ (" " ++ ("MJD:" ++ (" " ++ (T ++ (String tab "" ++ ("RA:" ++ (" " ++ ((ra ++ "s") ++ (String tab "" ++ ("DEC:" ++ dec)))))))))))%string.
  unfold header_regex. rewrite run_lit. blanks " "%string. rewrite run_lit. blanks " "%string. apply run_word; [exact HT|reflexivity|].
  blanks (String tab ""). rewrite run_lit. blanks " "%string. apply run_word; [exact Hr|reflexivity|]. blanks (String tab ""). rewrite run_lit.
  rewrite <- (app_empty dec) at 1. rewrite <- (app_nil_r word). apply run_word; [exact Hd|exact I|reflexivity].
Qed.
Lemma delta_line a b c : word_ a -> word_ b -> word_ c ->
  run tstart_regex ("# DELTAT: " ++ a ++ String tab ("DELTAF(Hz):  " ++ b ++ " max_drift_rate: n/a" ++ String tab ("obs_length: " ++ c))) "" = Some [a; b; "n/a"%string; c].
Proof.
  intros Ha Hb Hc.
  change ("# DELTAT: " ++ a ++ String tab ("DELTAF(Hz):  " ++ b ++ " max_drift_rate: n/a" ++ String tab ("obs_length: " ++ c)))%string with
    ("#" ++ (" " ++ ("DELTAT:" ++ (" " ++ (a ++ (String tab "" ++ ("DELTAF(Hz):" ++ ("  " ++ (b ++ (" " ++ ("max_drift_rate:" ++ (" " ++ ("n/a" ++ (String tab "" ++ ("obs_length:" ++ (" " ++ c))))))))))))))))%string.
  unfold tstart_regex. rewrite run_lit. blanks " "%string. rewrite run_lit. blanks " "%string. apply run_word; [exact Ha|reflexivity|]. blanks (String tab ""). rewrite run_lit.
  blanks "  "%string. apply run_word; [exact Hb|reflexivity|]. blanks " "%string. rewrite run_lit. blanks " "%string. apply run_word; [split; [reflexivity|discriminate]|reflexivity|].
  blanks (String tab ""). rewrite run_lit. apply (run_sp " "); [reflexivity|discriminate|rewrite <- (app_empty c); now apply stops_word|].
  rewrite <- (app_empty c) at 1. rewrite <- (app_nil_r word). apply run_word; [exact Hc|exact I|reflexivity].
Qed.

Lemma archours_word raj text : is_finite raj = true -> (0 <= B2R raj <= 32)%R -> archours raj = Ok text -> word_ (text ++ "s").
Proof.
  intros Hf Hx. destruct (archours_ok raj Hf Hx) as (h & m & s & P & Hh & Hm & Hs & Hr & Hv). unfold archours. rewrite P. cbn [omap obind fst snd]. intros [= <-]. split.
  - repeat first [apply plain_nonwhite, plain_padded|apply plain_nonwhite, plain_fixed; exact Hs|reflexivity|apply nonwhite_app].
  - pose proof (padded_word 2 h ltac:(lia)) as (_ & N). destruct (zero_padded 2 h); [congruence|discriminate].
Qed.
Lemma degrees_word dej text : is_finite dej = true -> (Rabs (B2R dej) <= 360)%R -> degrees dej = Ok text -> word_ text.
Proof.
  intros Hf Hx. destruct (degrees_ok dej Hf Hx) as (h & m & s & P & R). unfold degrees. rewrite P. cbn [omap obind fst snd]. intros [= <-].
  assert (Hs : is_finite s = true) by tauto. split.
  - repeat first [apply plain_nonwhite, plain_padded|apply plain_nonwhite, plain_fixed; exact Hs|reflexivity|apply nonwhite_app|match goal with |- nonwhite (if ?b then _ else _) => destruct b end].
  - match goal with |- context [if ?b then _ else _] => destruct b end; discriminate.
Qed.

(** Everything the theorems below say about a written file. *)
Definition written shortest id source (tstart tsamp foff : f64) steps (raj dej : f64) hs text : Prop :=
  one_line id /\ one_line source /\ word_ (shortest tstart) /\
  is_finite tsamp = true /\ (Rabs (B2R tsamp) <= bpow radix2 20)%R /\ is_finite foff = true /\ (Rabs (B2R foff) <= bpow radix2 10)%R /\
  is_finite (mul64 (f64_of_Z steps) tsamp) = true /\
  is_finite raj = true /\ (0 <= B2R raj <= 32)%R /\ is_finite dej = true /\ (Rabs (B2R dej) <= 360)%R /\
  dat_file shortest id source tstart tsamp foff steps (Some raj) (Some dej) hs = Ok text.
Lemma word_one_line w : word_ w -> one_line w.
Proof. intros (A & _). revert A. apply all_impl. intros c H. destruct (Ascii.eqb_spec c newline); [subst; discriminate|reflexivity]. Qed.
Lemma read_fixed stod (x : f64) w : nearest_read stod -> is_finite x = true -> (w <= 8)%nat -> (Rabs (B2R x) <= bpow radix2 31)%R ->
  exists y, stod (fixed w false 6 x) = Ok y /\ is_finite y = true /\ (Rabs (B2R y - B2R x) <= 8 / 10 / IZR million)%R.
Proof.
  intros N Hf Hw Hx. destruct (fixed_back w false 6 x Hf ltac:(lia) (or_introl Hw)) as (z & Hz & Hb & _). fold million in Hb.
  assert (M : IZR million = 1000000%R) by reflexivity. rewrite M in Hb.
  assert (B : (Rabs (IZR z / IZR million) <= bpow radix2 32)%R).
  { rewrite M. replace (IZR z / 1000000)%R with ((IZR z / 1000000 - B2R x) + B2R x)%R by ring. eapply Rle_trans; [apply Rabs_triang|].
    replace 32 with (1 + 31) by lia. rewrite bpow_plus. change (bpow radix2 1) with 2%R. assert (1 <= bpow radix2 31)%R by (change 1%R with (bpow radix2 0); apply bpow_le; lia). lra. }
  destruct (N _ _ Hz) as (y & E & Fy & Vy). { eapply Rle_trans; [exact B|apply bpow_le; lia]. }
  exists y. split; [exact E|]. split; [exact Fy|]. pose proof (rd64_err 32 _ ltac:(lia) B) as R. rewrite <- Vy in R. rewrite M in *.
  assert (bpow radix2 (32 - 54) <= / 4000000)%R.
  { change (32 - 54) with (- (22)). rewrite bpow_opp. change (bpow radix2 22) with 4194304%R. apply Rinv_le; lra. }
  apply Rabs_le_inv in R. apply Rabs_le_inv in Hb. apply Rabs_le. lra.
Qed.

(** Reading back a written file: the start time is exact, the sampling time is kept to a millionth of a second, and the channel width comes back in
    hertz instead of megahertz. *)
Theorem C87_header : forall stod stoi shortest id source tstart tsamp foff steps raj dej hs text,
  written shortest id source tstart tsamp foff steps raj dej hs text -> stod (shortest tstart) = Ok tstart -> nearest_read stod ->
  exists ts fo, read_dat stod stoi text = Ok (DatScan (Some tstart) (Some ts) (Some fo)) /\
    (Rabs (B2R ts - B2R tsamp) <= / 1000000)%R /\ (Rabs (B2R fo - 1000000 * B2R foff) <= / 1000000)%R.
Proof.
  intros stod stoi shortest id source tstart tsamp foff steps raj dej hs text (Hid & Hso & Hsh & Ft & Bt & Ff & Bf & Fo & Fr & Br & Fd & Bd & W) Hst N.
  unfold dat_file in W. cbn [value obind] in W. destruct (archours raj) as [ra| |] eqn:Er; try discriminate. destruct (degrees dej) as [de| |] eqn:Ed; try discriminate.
  cbn [obind] in W. apply (f_equal (fun o => match o with Ok t => t | _ => ""%string end)) in W. subst text.
  pose proof (archours_one_line _ _ Er) as Lr. pose proof (degrees_one_line _ _ Ed) as Ld. pose proof (archours_word _ _ Fr Br Er) as Wr. pose proof (degrees_word _ _ Fd Bd Ed) as Wd.
  pose proof (word_one_line _ Hsh) as Ls.
  assert (M : is_finite (mul64 foff (f64_of_Z 1000000)) = true /\ (Rabs (B2R (mul64 foff (f64_of_Z 1000000)) - 1000000 * B2R foff) <= bpow radix2 (-24))%R /\
              (Rabs (B2R (mul64 foff (f64_of_Z 1000000))) <= bpow radix2 31)%R).
  { destruct (int64_ok 1000000 ltac:(lia)) as (I1 & I2).
    assert (B : (Rabs (B2R foff * B2R (f64_of_Z 1000000)) <= bpow radix2 30)%R).
    { rewrite I2, Rabs_mult, (Rabs_pos_eq 1000000) by lra. change (bpow radix2 10) with 1024%R in Bf. change (bpow radix2 30) with 1073741824%R. pose proof (Rabs_pos (B2R foff)). lra. }
    destruct (mul64_ok foff (f64_of_Z 1000000) Ff I1 30 ltac:(lia) B) as (G1 & G2). pose proof (rd64_err 30 _ ltac:(lia) B) as E. rewrite <- G2, I2 in E.
    replace (1000000 * B2R foff)%R with (B2R foff * 1000000)%R by ring. split; [exact G1|]. split; [exact E|].
    pose proof (rd64_bound 30 _ ltac:(lia) B) as U. rewrite <- G2 in U. eapply Rle_trans; [exact U|apply bpow_le; lia]. }
  destruct M as (M1 & M2 & M3).
  destruct (read_fixed stod tsamp 6 N Ft ltac:(lia)) as (ts & E1 & F1 & V1); [eapply Rle_trans; [exact Bt|apply bpow_le; lia]|].
  destruct (read_fixed stod _ 6 N M1 ltac:(lia) M3) as (fo & E2 & F2 & V2).
  exists ts, fo. split.
  - unfold read_dat. rewrite getlines_text.
    2:{ unfold header. repeat (constructor; [repeat (first [exact Hid|exact Hso|exact Ls|exact Lr|exact Ld|apply fixed_one_line|reflexivity|
        match goal with |- one_line (String ?c (?a ++ ?b)) => change (one_line (String c "" ++ (a ++ b))); apply one_line_app end | apply one_line_app])|]). constructor. }
    unfold header. cbn [app].
    assert (Skip : forall st l ls, run header_regex l "" = None -> run tstart_regex l "" = None -> run data_regex l "" = None ->
      read_lines stod stoi st (l :: ls) = read_lines stod stoi st ls) by (intros st l ls A B C; cbn [read_lines]; unfold read_line; now rewrite A, B, C).
    rewrite !(Skip _ rule) by reflexivity. rewrite (Skip _ ("# File ID: " ++ id)%string) by reflexivity. rewrite !(Skip _ rule) by reflexivity.
    rewrite (Skip _ ("# Source:" ++ source)%string) by reflexivity.
    assert (Step : forall st l ls, read_lines stod stoi st (l :: ls) = let! r := read_line stod stoi st l in read_lines stod stoi (fst r) ls) by reflexivity.
    rewrite Step. unfold read_line at 1. rewrite header_line by assumption. cbn [group nth obind fst]. rewrite Hst. cbn [obind fst].
    rewrite Step. unfold read_line at 1.
    match goal with |- context [run header_regex ?l ""] => assert (run header_regex l "" = None) as -> by reflexivity end.
    rewrite delta_line; [|apply fixed_word; [assumption|lia]..]. cbn [group nth obind fst]. rewrite E1, E2. cbn [obind fst d_tstart].
    rewrite !Skip by reflexivity. apply read_rows.
  - assert (Mm : IZR million = 1000000%R) by reflexivity. rewrite Mm in *. split.
    + eapply Rle_trans; [exact V1|lra].
    + assert (bpow radix2 (-24) <= / 10000000)%R. { change (-24) with (- (24)). rewrite bpow_opp. change (bpow radix2 24) with 16777216%R. apply Rinv_le; lra. }
      apply Rabs_le_inv in M2. apply Rabs_le_inv in V2. apply Rabs_le. lra.
Qed.
Print Assumptions C87_header.
(** Both assumptions on the C library can be met, and files are written for which the theorem speaks. *)
Definition sample_stod (text : string) : outcome f64 :=
  match read_decimal 6 text with
  | Some z => let r := (IZR z / IZR million)%R in Ok (binary_normalize 53 1024 prec53 emax1024 mode_NE (ZnearestE (scaled_mantissa radix2 fexp64 r)) (cexp radix2 fexp64 r) false)
  | None => Ok (f64_of_Z 59000)
  end.
Lemma sample_stod_ok : nearest_read sample_stod.
Proof.
  intros text z E B. unfold sample_stod. rewrite E. set (r := (IZR z / IZR million)%R) in *. eexists. split; [reflexivity|].
  pose proof (binary_normalize_correct 53 1024 prec53 emax1024 mode_NE (ZnearestE (scaled_mantissa radix2 fexp64 r)) (cexp radix2 fexp64 r) false) as C. cbv zeta in C.
  change (F2R (Float radix2 (ZnearestE (scaled_mantissa radix2 fexp64 r)) (cexp radix2 fexp64 r))) with (rd64 r) in C.
  assert (G : generic_format radix2 fexp64 (rd64 r)) by (pose proof valid64; apply generic_format_round; [assumption|apply valid_rnd_N]).
  change (round radix2 (SpecFloat.fexp 53 1024) (round_mode mode_NE) (rd64 r)) with (rd64 (rd64 r)) in C. rewrite rd64_id in C by exact G.
  rewrite Rlt_bool_true in C; [destruct C as (V & F & _); split; assumption|].
  apply Rle_lt_trans with (bpow radix2 1000); [apply rd64_bound; [lia|exact B]|apply bpow_lt; lia].
Qed.
Example C87_header_example : nearest_read sample_stod /\ sample_stod "59000" = Ok (f64_of_Z 59000) /\
  exists text, written (fun _ => "59000"%string) "a.h5" "star" (f64_of_Z 59000) (f64_of_Z 18) (f64_of_Z 3) 16 (f64_of_Z 5) (f64_of_Z 10) [] text.
Proof.
  split; [exact sample_stod_ok|]. split; [reflexivity|].
  assert (I : forall z, 0 <= z < 2 ^ 31 -> is_finite (f64_of_Z z) = true /\ B2R (f64_of_Z z) = IZR z) by (intros; now apply int64_ok).
  destruct (I 18 ltac:(lia)) as (A1 & A2). destruct (I 3 ltac:(lia)) as (B1 & B2). destruct (I 5 ltac:(lia)) as (C1 & C2). destruct (I 10 ltac:(lia)) as (D1 & D2).
  assert (F : is_finite (mul64 (f64_of_Z 16) (f64_of_Z 18)) = true) by (vm_compute; reflexivity).
  destruct (C56_right_ascension (f64_of_Z 5) C1) as (ra & _ & Er & _); [rewrite C2; lra|].
  destruct (C56_declination (f64_of_Z 10) D1) as (sg & de & _ & Ed & _); [rewrite D2, Rabs_pos_eq; lra|].
  eexists. unfold written. rewrite A2, B2, C2, D2. split; [reflexivity|]. split; [reflexivity|]. split; [split; [reflexivity|discriminate]|].
  change (bpow radix2 20) with 1048576%R. change (bpow radix2 10) with 1024%R. rewrite !Rabs_pos_eq by lra.
  repeat (split; [assumption || lra|]). unfold dat_file. cbn [value obind]. rewrite Er, Ed. cbn [obind]. reflexivity.
Qed.

(** So the channel width of the scan read back is wrong by a factor of a million. *)
Theorem C87_channel_width_refuted : forall stod stoi shortest id source tstart tsamp foff steps raj dej hs text ts fo,
  written shortest id source tstart tsamp foff steps raj dej hs text -> stod (shortest tstart) = Ok tstart -> nearest_read stod ->
  (/ 1000000000 <= Rabs (B2R foff))%R -> read_dat stod stoi text = Ok (DatScan (Some tstart) (Some ts) (Some fo)) ->
  (999000 * Rabs (B2R foff) <= Rabs (B2R fo) <= 1001000 * Rabs (B2R foff))%R.
Proof.
  intros stod stoi shortest id source tstart tsamp foff steps raj dej hs text ts fo W S N L E.
  destruct (C87_header stod stoi shortest id source tstart tsamp foff steps raj dej hs text W S N) as (ts' & fo' & E' & _ & V).
  rewrite E in E'. injection E' as _ <-.
  assert (A : (Rabs (1000000 * B2R foff) = 1000000 * Rabs (B2R foff))%R) by (rewrite Rabs_mult, (Rabs_pos_eq 1000000) by lra; reflexivity).
  pose proof (Rabs_triang_inv (B2R fo) (1000000 * B2R foff)) as T1. pose proof (Rabs_triang_inv (1000000 * B2R foff) (B2R fo)) as T2. rewrite Rabs_minus_sym in T2. lra.
Qed.
Print Assumptions C87_channel_width_refuted.
Example C87_channel_width_example : (/ 1000000000 <= Rabs (B2R (f64_of_Z 3)))%R.
Proof. destruct (int64_ok 3 ltac:(lia)) as (_ & ->). rewrite Rabs_pos_eq; lra. Qed.
