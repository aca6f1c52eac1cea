(** C55, C56, C74: dat files. *)
From Coq Require Import Reals Lra ZArith Lia.
From Flocq Require Import Core BinarySingleNaN.
From Verif Require Import HitModel DriftFloatProofs FileProofs DatModel DatText FloatErr DatProofs.
Local Open Scope Z_scope.
Local Open Scope list_scope.

(** ** Specification *)
(** A field shows a value to six decimals. *)
Definition shows {p q} (s : string) (x : binary_float p q) : Prop :=
  is_finite x = true -> exists z, read_decimal 6 s = Some z /\ (Rabs (IZR z / 1000000 - B2R x) <= / 2 / 1000000)%R.
(** A field shows a real number to within 6e-7. *)
Definition near (s : string) (v : R) : Prop := exists z, read_decimal 6 s = Some z /\ (Rabs (IZR z / 1000000 - v) <= 6 / 10000000)%R.
(** Frequencies below 10^6 MHz, drift rates below 10^6 Hz/s and durations below 10^6 s. *)
Definition moderate (h : hit) : Prop :=
  Forall (fun x : f64 => is_finite x = true /\ (Rabs (B2R x) <= 1000000)%R) [h_freq h; h_dur h; h_drift h].
(** The cells of row [n]. *)
Definition describes (n : Z) (h : hit) (cells : list string) : Prop :=
  exists num drift snr mid1 mid2 index start stop zero1 zero2 coarse bins,
    cells = [num; drift; snr; mid1; mid2; index; start; stop; zero1; zero2; coarse; bins] /\
    read_integer num = Some n /\ (6 <= String.length num)%nat /\ shows drift (h_drift h) /\ shows snr (h_snr h) /\ mid1 = mid2 /\
    read_integer index = Some (h_index h) /\ shows start (h_freq h) /\
    read_decimal 6 zero1 = Some 0 /\ read_decimal 6 zero2 = Some 0 /\ read_integer coarse = Some (h_coarse h) /\ read_integer bins = Some (h_bins h) /\
    (moderate h -> near stop (B2R (h_freq h) + B2R (h_dur h) * B2R (h_drift h) / 1000000) /\
                   near mid1 (B2R (h_freq h) + B2R (h_dur h) * B2R (h_drift h) / 2000000)).

Lemma shows_fixed {p q} w (x : binary_float p q) : (w <= 8)%nat -> shows (fixed w false 6 x) x.
Proof. intros Hw Hf. destruct (fixed_back w false 6 x Hf ltac:(lia) (or_introl Hw)) as (z & A & B & _). exists z. auto. Qed.
Lemma near_fixed w (x : f64) v : (w <= 8)%nat -> is_finite x = true -> (Rabs (B2R x - v) <= bpow radix2 (-30))%R -> near (fixed w false 6 x) v.
Proof.
  intros Hw Hf Hv. destruct (shows_fixed w x Hw Hf) as (z & A & B). exists z. split; [auto|].
  change (bpow radix2 (-30)) with (/ 1073741824)%R in Hv. apply Rabs_le_inv in Hv. apply Rabs_le_inv in B. apply Rabs_le. lra.
Qed.
Lemma describes_row n h : describes n h (row_fields n h).
Proof.
  unfold describes, row_fields. do 12 eexists. split; [reflexivity|].
  split; [apply zero_padded_back|]. split; [apply zero_padded_length|]. split; [apply shows_fixed; lia|]. split; [apply shows_fixed; lia|]. split; [reflexivity|].
  split; [apply integer_back|]. split; [apply shows_fixed; lia|]. split; [vm_compute; reflexivity|]. split; [vm_compute; reflexivity|].
  split; [apply integer_back|]. split; [apply integer_back|]. intros M.
  inversion_clear M as [|? ? (F1 & B1) M1]. inversion_clear M1 as [|? ? (F2 & B2) M2]. inversion_clear M2 as [|? ? (F3 & B3) _].
  assert (L : (1000000 <= bpow radix2 20)%R) by (change (bpow radix2 20) with 1048576%R; lra).
  destruct (end_freq_ok h F1 F2 F3) as (E1 & E2 & E3 & E4); try lra. split; apply near_fixed; auto; try lia.
  eapply Rle_trans; [exact E2|]. apply bpow_le. lia.
Qed.

(** C55: lines end in a newline; line [i] (from 0) describes hit [i] under number [i + 1], and there are no other lines. *)
Theorem C55_one_row_per_hit hs : exists lines, split newline (table hs) = lines ++ [""%string] /\ List.length lines = List.length hs /\
  forall i h, nth_error hs i = Some h -> exists l, nth_error lines i = Some l /\ describes (Z.of_nat i + 1) h (split tab l).
Proof.
  exists (map (fun p => join tab (row_fields (fst p) (snd p))) (numbered 1 hs)). split; [apply rows_split|]. split; [rewrite map_length; apply numbered_length|].
  intros i h H. apply (numbered_nth hs 1) in H. exists (join tab (row_fields (1 + Z.of_nat i) h)). split.
  - rewrite nth_error_map, H. reflexivity.
  - rewrite row_split, Z.add_comm. apply describes_row.
Qed.
Print Assumptions C55_one_row_per_hit.

Definition dy (m e : Z) : f64 := binary_normalize 53 1024 eq_refl eq_refl mode_NE m e false.
Definition dat_hit (i : Z) : hit := Hit i (dy 17179869185 (-23)) (f64_of_Z 0) (dy 301 0) 3 (dy (-5) (-3)) (f64_of_Z 0) 16 (binary_normalize 24 128 eq_refl eq_refl mode_NE 25 0 false) (binary_normalize 24 128 eq_refl eq_refl mode_NE 1 0 false) 5 [] 7.
Example C55_two : split newline (table [dat_hit 4; dat_hit 5]) = map (join tab)
  [["000001"; "-0.625000"; "25.000000"; "2047.999906"; "2047.999906"; "4"; "2048.000000"; "2047.999812"; "0.000000"; "0.000000"; "7"; "5"];
   ["000002"; "-0.625000"; "25.000000"; "2047.999906"; "2047.999906"; "5"; "2048.000000"; "2047.999812"; "0.000000"; "0.000000"; "7"; "5"]; [""]]%string.
Proof. vm_compute. reflexivity. Qed.
Example C55_moderate : moderate (dat_hit 4).
Proof.
  assert (X : forall x : f64, f64lt (Babs x) (f64_of_Z 1000000) = true -> is_finite x = true -> is_finite x = true /\ (Rabs (B2R x) <= 1000000)%R).
  { intros x H Hf. split; [auto|]. destruct (f64_of_Z_ok 1000000 ltac:(lia)) as (I & J).
    unfold f64lt in H. rewrite Bcompare_correct in H by (auto; rewrite is_finite_Babs; auto). rewrite B2R_Babs, I in H.
    destruct (Rcompare_spec (Rabs (B2R x)) 1000000); try discriminate. lra. }
  unfold moderate. do 3 (apply Forall_cons; [apply X; vm_compute; reflexivity|]). apply Forall_nil.
Qed.

(** Lines of a file that are not comments. *)
Definition comment (l : string) : bool := match l with String c _ => Ascii.eqb c "#" | EmptyString => false end.
Definition one_line (s : string) : Prop := all_chars (fun a => negb (Ascii.eqb a newline)) s = true.
Lemma one_line_app s t : one_line s -> one_line t -> one_line (s ++ t).
Proof. unfold one_line. intros A B. rewrite all_app, A, B. reflexivity. Qed.
Lemma text_split ls t : Forall one_line ls -> split newline (text_of ls ++ t) = ls ++ split newline t.
Proof.
  induction 1 as [|l ls H F IH]; [reflexivity|]. cbn [text_of app]. rewrite app_assoc_s. cbn [String.append]. rewrite split_app by exact H. rewrite IH. reflexivity.
Qed.
Lemma plain_one_line s : all_chars plain s = true -> one_line s.
Proof. apply plain_not. reflexivity. Qed.
Lemma rows_not_comment n hs : Forall (fun l => comment l = false) (split newline (rows n hs)).
Proof.
  rewrite rows_split. apply Forall_app. split; [|repeat constructor]. apply Forall_forall. intros l H. apply in_map_iff in H as ((k & h) & <- & _).
  cbn [fst snd]. unfold row_fields. pose proof (zero_padded_length 6 k) as L. pose proof (plain_padded 6 k) as P. destruct (zero_padded 6 k) as [|c s]; [cbn in L; lia|].
  cbn [join String.append comment]. cbn [all_chars] in P. apply Bool.andb_true_iff in P as (P & _). destruct (Ascii.eqb_spec c "#"); [subst; discriminate|reflexivity].
Qed.
Lemma fixed_one_line {p q} w z k (x : binary_float p q) : one_line (fixed w z k x). Proof. apply no_sep_fixed. Qed.
Lemma padded_one_line w z : one_line (zero_padded w z). Proof. apply no_sep_padded. Qed.
Lemma archours_one_line x s : archours x = Ok s -> one_line s.
Proof.
  unfold archours, omap. destruct (archours_parts x) as [r| |]; try discriminate. cbn [obind]. intros [= <-].
  repeat first [apply padded_one_line|apply fixed_one_line|reflexivity|apply one_line_app].
Qed.
Lemma degrees_one_line x s : degrees x = Ok s -> one_line s.
Proof.
  unfold degrees, omap. destruct (degrees_parts x) as [r| |]; try discriminate. cbn [obind]. intros [= <-].
  destruct (fst (fst (fst r))); repeat first [apply padded_one_line|apply fixed_one_line|reflexivity|apply one_line_app].
Qed.

(** A reader that skips comments finds exactly the rows. *)
Theorem C55_file shortest id source tstart tsamp foff steps raj dej hs text :
  (forall x, one_line (shortest x)) -> one_line id -> one_line source ->
  dat_file shortest id source tstart tsamp foff steps raj dej hs = Ok text ->
  List.length (filter comment (split newline text)) = 9%nat /\ filter (fun l => negb (comment l)) (split newline text) = split newline (table hs).
Proof.
  intros Hsh Hid Hso. unfold dat_file. destruct (value raj) as [r| |]; try discriminate. destruct (value dej) as [d| |]; try discriminate. cbn [obind].
  destruct (archours r) as [ra| |] eqn:Er; try discriminate. destruct (degrees d) as [de| |] eqn:Ed; try discriminate. cbn [obind]. intros H.
  apply (f_equal (fun o => match o with Ok t => t | _ => ""%string end)) in H. subst text.
  apply archours_one_line in Er. apply degrees_one_line in Ed.
  rewrite text_split.
  2:{ unfold header. repeat (constructor; [repeat (first [exact Hid|exact Hso|apply Hsh|exact Er|exact Ed|apply fixed_one_line|reflexivity|
        match goal with |- one_line (String ?c (?a ++ ?b)) => change (one_line (String c "" ++ (a ++ b))); apply one_line_app end | apply one_line_app])|]). constructor. }
  pose proof (rows_not_comment 1 hs) as N. fold (table hs) in N. rewrite !filter_app. set (t := split newline (table hs)) in *.
  assert (Z1 : filter comment t = []). { clear -N. induction N as [|l t E N IH]; [reflexivity|]. cbn. rewrite E. exact IH. }
  assert (Z2 : filter (fun l => negb (comment l)) t = t). { clear -N. induction N as [|l t E N IH]; [reflexivity|]. cbn. rewrite E. cbn. now rewrite IH. }
  rewrite Z1, Z2. split; reflexivity.
Qed.
Print Assumptions C55_file.
Definition sample_file (raj dej : option f64) : outcome string :=
  dat_file (fun _ => "58000.5"%string) "a.h5" "Voyager1" (dy 1160010 (-1)) (dy 18 0) (dy (-3) (-20)) 16 raj dej [dat_hit 4].
Example C55_file_sample : match sample_file (Some (dy 137 (-3))) (Some (dy (-49) (-2))) with Ok t => split newline t | _ => [] end =
  [rule; "# File ID: a.h5"; rule; "# Source:Voyager1"; "# MJD: 58000.5" ++ String tab ("RA: 17h07m30.000ss" ++ String tab "DEC:-12d15m00.00s");
   "# DELTAT: 18.000000" ++ String tab ("DELTAF(Hz):  -2.861023 max_drift_rate: n/a" ++ String tab "obs_length: 288.000000");
   "# --------------------------"; "# " ++ join tab column_names; "# --------------------------"; join tab (row_fields 1 (dat_hit 4)); ""]%string.
Proof. vm_compute. reflexivity. Qed.

(** A scan without coordinates throws before any text is written. *)
Theorem C55_needs_coordinates shortest id source tstart tsamp foff steps raj dej hs :
  raj = None \/ (exists r, raj = Some r) /\ dej = None -> dat_file shortest id source tstart tsamp foff steps raj dej hs = Throw BadOptionalAccess.
Proof. intros [->|((r & ->) & ->)]; reflexivity. Qed.
Print Assumptions C55_needs_coordinates.
Example C55_no_declination : sample_file (Some (dy 137 (-3))) None = Throw BadOptionalAccess. Proof. reflexivity. Qed.

(** The column headed Coarse_Channel_Number never holds the coarse channel, which stands under Full_number_of_hits, and the last cell has no heading. *)
Theorem C55_coarse_channel_refuted n h :
  nth_error column_names 9 = Some "Coarse_Channel_Number"%string /\ nth_error (split tab (join tab (row_fields n h))) 9 = Some "0.000000"%string /\
  nth_error column_names 10 = Some "Full_number_of_hits"%string /\ option_map read_integer (nth_error (split tab (join tab (row_fields n h))) 10) = Some (Some (h_coarse h)) /\
  nth_error column_names 11 = None /\ option_map read_integer (nth_error (split tab (join tab (row_fields n h))) 11) = Some (Some (h_bins h)).
Proof.
  rewrite row_split. unfold row_fields. cbn [nth_error option_map]. rewrite !integer_back. repeat split; vm_compute; reflexivity.
Qed.
Print Assumptions C55_coarse_channel_refuted.
Example C55_coarse_channel_seven : option_map read_integer (nth_error (row_fields 1 (dat_hit 4)) 10) = Some (Some 7). Proof. vm_compute. reflexivity. Qed.

(** ** C56 *)
(** [(n, m, z)]: whole units, minutes and [10^-k] seconds show the non-negative number [v] to half a last digit and two per cent of it. *)
Definition recombine (k : nat) (r : Z * Z * Z) (v : R) : Prop :=
  let '(n, m, z) := r in
  0 <= n /\ 0 <= m <= 59 /\ 0 <= z <= 60 * 10 ^ Z.of_nat k /\
  (Rabs (3600 * IZR n + 60 * IZR m + IZR z / IZR (10 ^ Z.of_nat k) - 3600 * v) <= 51 / 100 / IZR (10 ^ Z.of_nat k))%R.
Lemma recombine_ok k n m (s : f64) z v : (1 <= k <= 3)%nat -> 0 <= n -> 0 <= m <= 59 -> (0 <= B2R s < 60)%R ->
  (Rabs (IZR n + IZR m / 60 + B2R s / 3600 - v) <= bpow radix2 (-46))%R ->
  (Rabs (IZR z / IZR (10 ^ Z.of_nat k) - B2R s) <= / 2 / IZR (10 ^ Z.of_nat k))%R -> recombine k (n, m, z) v.
Proof.
  intros Hk Hn Hm Hs Hv Hz. unfold recombine. change (bpow radix2 (-46)) with (/ 70368744177664)%R in Hv. apply Rabs_le_inv in Hv. apply Rabs_le_inv in Hz.
  assert (T : exists t, 10 ^ Z.of_nat k = t /\ 10 <= t <= 1000). { exists (10 ^ Z.of_nat k). split; auto. assert (K : k = 1%nat \/ k = 2%nat \/ k = 3%nat) by lia. destruct K as [->|[->| ->]]; cbn; lia. }
  destruct T as (t & Et & Ht). rewrite Et in Hz |- *. clear Et. assert (Rt : (10 <= IZR t <= 1000)%R) by (split; apply IZR_le; lia).
  assert (Iz : (IZR z / IZR t * IZR t = IZR z)%R) by (field; lra). assert (Ih : (/ 2 / IZR t * IZR t = / 2)%R) by (field; lra).
  assert (L : (- / 2 <= IZR z - B2R s * IZR t <= / 2)%R).
  { destruct Hz as (Z1 & Z2). apply (Rmult_le_compat_r (IZR t)) in Z1; [|lra]. apply (Rmult_le_compat_r (IZR t)) in Z2; [|lra].
    rewrite <- Ropp_mult_distr_l, Ih, Rmult_minus_distr_r, Iz in Z1. rewrite Ih, Rmult_minus_distr_r, Iz in Z2. lra. }
  split; [auto|]. split; [auto|]. split.
  - split.
    + assert (-1 < z); [|lia]. apply lt_IZR. assert (0 <= B2R s * IZR t)%R by (apply Rmult_le_pos; lra). lra.
    + assert (z < 60 * t + 1); [|lia]. apply lt_IZR. rewrite plus_IZR, mult_IZR. assert (B2R s * IZR t <= 60 * IZR t)%R by (apply Rmult_le_compat_r; lra). lra.
  - assert (C : (51 / 100 / IZR t = / 2 / IZR t + / 100 / IZR t)%R) by (field; lra). rewrite C.
    assert (D : (/ 100000 <= / 100 / IZR t)%R). { apply (Rmult_le_reg_r (IZR t)); [lra|]. unfold Rdiv at 1. rewrite Rmult_assoc, Rinv_l by lra. lra. }
    apply Rabs_le. lra.
Qed.
Lemma append_char c s : (String c "" ++ s)%string = String c s. Proof. reflexivity. Qed.

Theorem C56_right_ascension (raj : f64) : is_finite raj = true -> (0 <= B2R raj <= 32)%R ->
  exists text r, archours raj = Ok text /\ read_sexagesimal "h" 3 text = Some r /\ recombine 3 r (B2R raj).
Proof.
  intros Hf Hx. destruct (archours_ok raj Hf Hx) as (h & m & s & P & Hh & Hm & Hs & Hr & Hv). unfold archours. rewrite P. cbn [omap obind fst snd].
  destruct (sexagesimal_back "h" 6 3 h m s) as (z & Z1 & Z2); auto; try lia. eexists _, _. split; [reflexivity|]. split; [exact Z1|].
  apply (recombine_ok 3 h m s); auto; lia.
Qed.
Print Assumptions C56_right_ascension.

(** A declination of at most a full turn; the sign is that of the number. *)
Theorem C56_declination (dej : f64) : is_finite dej = true -> (Rabs (B2R dej) <= 360)%R ->
  exists sign text r, degrees dej = Ok (String sign text) /\ ((B2R dej < 0)%R /\ sign = "-"%char \/ (0 <= B2R dej)%R /\ sign = "+"%char) /\
    read_sexagesimal "d" 2 text = Some r /\ recombine 2 r (Rabs (B2R dej)).
Proof.
  intros Hf Hx. destruct (degrees_ok dej Hf Hx) as (d & m & s & P & Hd & Hm & Hs & Hr & Hv). unfold degrees. rewrite P. cbn [omap obind fst snd].
  destruct (sexagesimal_back "d" 5 2 d m s) as (z & Z1 & Z2); auto; try lia.
  exists (if Rlt_bool (B2R dej) 0 then "-"%char else "+"%char). eexists _, _.
  split; [destruct (Rlt_bool (B2R dej) 0); reflexivity|]. split; [destruct (Rlt_bool_spec (B2R dej) 0); auto|]. split; [exact Z1|].
  apply (recombine_ok 2 d m s); auto; try lia. eapply Rle_trans; [exact Hv|]. apply bpow_le. lia.
Qed.
Print Assumptions C56_declination.
Example C56_voyager : archours (dy 137 (-3)) = Ok "17h07m30.000s"%string /\ degrees (dy (-49) (-2)) = Ok "-12d15m00.00s"%string /\ degrees (dy (-1) (-1)) = Ok "-00d30m00.00s"%string.
Proof. repeat split; vm_compute; reflexivity. Qed.

(** Seconds can print as sixty; a negative right ascension, read as hours, minutes and seconds, is not well formed; without a finite value the conversion to int is undefined. *)
Theorem C56_sixty_seconds_refuted : exists raj dej : f64, is_finite raj = true /\ is_finite dej = true /\ archours raj = Ok "00h59m60.000s"%string /\ degrees dej = Ok "+00d59m60.00s"%string.
Proof. exists (dy 4503599582334500 (-52)), (dy 4503599582334500 (-52)). repeat split; vm_compute; reflexivity. Qed.
Print Assumptions C56_sixty_seconds_refuted.
Theorem C56_negative_hours_refuted : exists raj : f64, is_finite raj = true /\ archours raj = Ok "00h-30m00.000s"%string /\ read_sexagesimal "h" 3 "00h-30m00.000s" = None.
Proof. exists (dy (-1) (-1)). repeat split; vm_compute; reflexivity. Qed.
Print Assumptions C56_negative_hours_refuted.
Theorem C56_not_finite_refuted (x : f64) : is_finite x = false -> archours x = UB /\ degrees x = UB.
Proof. destruct x as [s|s| |s m e H]; try discriminate; intros _; [destruct s|]; split; vm_compute; reflexivity. Qed.
Print Assumptions C56_not_finite_refuted.
Example C56_not_finite_nan : archours B754_nan = UB. Proof. vm_compute. reflexivity. Qed.

(** ** C74: converting a hit file to a dat file *)
(** Of a hit that went through a hit file, number, drift rate, SNR, start frequency and bins print as before; the coarse channel prints as 0. *)
Theorem C74_converted n h :
  let before := split tab (join tab (row_fields n h)) in let after := split tab (join tab (row_fields n (reread h))) in
  (forall i, In i [0; 1; 2; 6; 8; 9; 11]%nat -> nth_error after i = nth_error before i) /\
  (- 2 ^ 31 <= h_index h < 2 ^ 31 -> nth_error after 5 = nth_error before 5) /\
  (widen (narrow (h_dur h)) = h_dur h -> forall i, i <> 5%nat -> i <> 10%nat -> nth_error after i = nth_error before i) /\
  nth_error after 10 = Some "0"%string.
Proof.
  intros before after. unfold before, after. rewrite !row_split. unfold row_fields, reread, mid_freq, end_freq. cbn [h_index h_freq h_dur h_drift h_snr h_bins h_coarse].
  split; [|split; [|split]].
  - intros i H. cbn [In] in H. repeat (destruct H as [<-|H]; [reflexivity|]). contradiction.
  - intros H. cbn [nth_error]. rewrite int32_exact; auto.
  - intros ->. intros i H5 H10. do 12 (destruct i as [|i]; [try reflexivity; congruence|]). reflexivity.
  - reflexivity.
Qed.
Print Assumptions C74_converted.
Example C74_sample : option_map read_integer (nth_error (row_fields 1 (dat_hit 4)) 10) = Some (Some 7) /\ nth_error (row_fields 1 (reread (dat_hit 4))) 10 = Some "0"%string.
Proof. split; vm_compute; reflexivity. Qed.
