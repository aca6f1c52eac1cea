(** Proofs about hit construction, filtering and the distance over the reals. *)
From Verif Require Export EventProofs CcFacts CcProofs3.
From Coq Require Import ZifyBool ZifyNat Reals Lra.
Local Open Scope Z_scope.

(** ** Filtering *)
(** The entries of a map: keys increase. *)
Fixpoint keys_above (k : Z) (m : rfi) : Prop := match m with [] => True | (k', _) :: m' => k < k' /\ keys_above k' m' end.
Definition is_map (m : rfi) : Prop := match m with [] => True | (k, _) :: m' => keys_above k m' end.
Lemma keys_above_le k k' m : k <= k' -> keys_above k' m -> keys_above k m.
Proof. destruct m as [|(x, v) m]; cbn; [auto|]. intros H (A & B). split; [lia|auto]. Qed.
Lemma count_above k m j : keys_above k m -> j <= k -> rfi_count m j = 0.
Proof.
  revert k. induction m as [|(x, v) m IH]; intros k H Hj; cbn in *; [reflexivity|]. destruct H as (A & B).
  destruct (Z.eqb_spec j x); [lia|]. apply IH with x; [auto|lia].
Qed.
Lemma is_map_above m : is_map m -> exists k, keys_above k m.
Proof. destruct m as [|(k, v) m]; cbn; intros H; [now exists 0|]. exists (k - 1). split; [lia|auto]. Qed.
Lemma above_is_map k m : keys_above k m -> is_map m.
Proof. destruct m as [|(x, v) m]; cbn; tauto. Qed.
Lemma touch_above k m j : keys_above k m -> k < j -> keys_above k (rfi_touch m j).
Proof.
  revert k. induction m as [|(x, v) m IH]; intros k H Hj; cbn in *; [auto|]. destruct H as (A & B).
  destruct (Z.ltb_spec j x); [cbn; auto|]. destruct (Z.eqb_spec j x); [cbn; auto|]. cbn. split; [auto|]. apply IH; [auto|lia].
Qed.
Lemma touch_map m j : is_map m -> is_map (rfi_touch m j).
Proof.
  intros H. destruct (is_map_above m H) as (k & Hk). apply above_is_map with (Z.min k (j - 1)). apply touch_above; [|lia]. eapply keys_above_le; [|exact Hk]. lia.
Qed.
Lemma touch_count m j i : is_map m -> rfi_count (rfi_touch m j) i = rfi_count m i.
Proof.
  intros H. destruct (is_map_above m H) as (k & Hk). clear H. revert k Hk. induction m as [|(x, v) m IH]; intros k Hk; cbn [rfi_touch rfi_count].
  - now destruct (i =? j).
  - cbn in Hk. destruct Hk as (A & B). destruct (Z.ltb_spec j x); cbn [rfi_count].
    + destruct (Z.eqb_spec i j); [|reflexivity]. subst i. destruct (Z.eqb_spec j x); [lia|]. symmetry. apply count_above with x; [auto|lia].
    + destruct (Z.eqb_spec j x); [reflexivity|]. cbn [rfi_count]. destruct (i =? x); [reflexivity|]. now apply IH with x.
Qed.
(** The key is present. *)
Definition has_key (m : rfi) (k : Z) : Prop := exists v, In (k, v) m.
Lemma touch_has m j : has_key (rfi_touch m j) j.
Proof.
  induction m as [|(x, v) m IH]; cbn; [exists 0; now left|]. destruct (j <? x); [exists 0; now left|].
  destruct (Z.eqb_spec j x); [subst; exists v; now left|]. destruct IH as (w & H). exists w. now right.
Qed.
Lemma touch_keeps m j k : has_key m k -> has_key (rfi_touch m j) k.
Proof.
  intros (v & H). exists v. induction m as [|(x, w) m IH]; cbn in *; [tauto|]. destruct (j <? x); [now right|]. destruct (j =? x); [auto|].
  destruct H as [H|H]; [now left|right; auto].
Qed.
Lemma touch_id m j : is_map m -> has_key m j -> rfi_touch m j = m.
Proof.
  intros H (v & Hin). destruct (is_map_above m H) as (k & Hk). clear H. revert k Hk. induction m as [|(x, w) m IH]; intros k Hk; [destruct Hin|].
  cbn in *. destruct Hk as (A & B). assert (G : forall k' m', keys_above k' m' -> In (j, v) m' -> k' < j).
  { clear. intros k' m'. revert k'. induction m' as [|(y, u) m' IH]; intros k' H Hin; [destruct Hin|]. cbn in H. destruct H as (A & B). destruct Hin as [E|Hin].
    - injection E as -> ->. auto.
    - specialize (IH y B Hin). lia. }
  destruct Hin as [E|Hin].
  - injection E as -> ->. rewrite Z.ltb_irrefl, Z.eqb_refl. reflexivity.
  - specialize (G x m B Hin). destruct (Z.ltb_spec j x); [lia|]. destruct (Z.eqb_spec j x); [lia|]. f_equal. now apply IH with x.
Qed.

(** Same hit, same counts. *)
Definition recounted (h h' : hit) : Prop :=
  (exists m, h' = Hit (h_index h) (h_freq h) (h_time h) (h_dur h) (h_rate h) (h_drift h) (h_power h) (h_steps h) (h_snr h)
                      (h_band h) (h_bins h) m (h_coarse h) /\ is_map m) /\
  forall k, rfi_count (h_rfi h') k = rfi_count (h_rfi h) k.

(** |drift| < 1e-6, as the nearest double. *)
Definition still (x : f64) : Prop := is_nan x = false /\ (Rabs (xval x) < IZR 4722366482869645 / IZR (2 ^ 72))%R.
Lemma eps6_val : B2R eps6 = (IZR 4722366482869645 / IZR (2 ^ 72))%R /\ is_finite eps6 = true.
Proof.
  unfold eps6. pose proof (binary_normalize_correct 53 1024 prec53 emax1024 mode_NE 4722366482869645 (-72) false) as C. cbv zeta in C.
  assert (E : F2R (Float radix2 4722366482869645 (-72)) = (IZR 4722366482869645 / IZR (2 ^ 72))%R).
  { unfold F2R, Rdiv. cbn [Fnum Fexp]. reflexivity. }
  rewrite round_generic in C; [|apply valid_rnd_N|apply format64_parts; lia].
  rewrite Rlt_bool_true in C; [rewrite E in C; tauto|]. apply (parts_bound _ _ 53); lia.
Qed.
Lemma zero64 : f64_of_Z 0 = B754_zero false. Proof. reflexivity. Qed.
Lemma still_test x : f64lt (Babs (sub64 x (f64_of_Z 0))) eps6 = true <-> still x.
Proof.
  destruct eps6_val as (V & Hf). rewrite zero64. unfold still.
  assert (Ve : xval eps6 = (IZR 4722366482869645 / IZR (2 ^ 72))%R) by (rewrite <- V; destruct eps6; try discriminate; reflexivity).
  assert (He : is_nan eps6 = false) by (destruct eps6; auto; discriminate).
  rewrite <- Ve.
  destruct (is_finite x) eqn:Ef.
  - assert (Hx : is_nan x = false) by (destruct x; auto; discriminate).
    pose proof (Bminus_correct 53 1024 prec53 emax1024 mode_NE x (B754_zero false) Ef eq_refl) as C.
    change (B2R (B754_zero false : f64)) with 0%R in C. rewrite Rminus_0_r in C.
    rewrite round_generic in C; [|apply valid_rnd_N|apply generic_format_B2R].
    rewrite Rlt_bool_true in C by apply abs_B2R_lt_emax. destruct C as (C1 & C2 & _). fold sub64 in C1, C2.
    assert (Vx : xval x = B2R x) by (destruct x; try discriminate; reflexivity). rewrite Vx, <- C1, <- B2R_Babs.
    assert (Ha : is_finite (Babs (sub64 x (B754_zero false))) = true) by (rewrite is_finite_Babs; exact C2).
    unfold f64lt. rewrite ltb_val; auto; [|destruct (Babs _); auto; discriminate].
    assert (Va : xval (Babs (sub64 x (B754_zero false))) = B2R (Babs (sub64 x (B754_zero false)))) by (destruct (Babs _); try discriminate; reflexivity).
    rewrite Va. tauto.
  - destruct x as [s|s| |s m e Hb]; try discriminate.
    + split; [intros H; exfalso|intros (_ & H); exfalso].
      * destruct s; vm_compute in H; discriminate.
      * cbn [xval] in H. assert (Hlt : (xval eps6 < bpow radix2 1024)%R).
        { rewrite Ve, <- V. apply Rle_lt_trans with (Rabs (B2R eps6)); [apply Rle_abs|apply abs_B2R_lt_emax]. }
        assert (Rabs (if s then - bpow radix2 1024 else bpow radix2 1024) = bpow radix2 1024)%R.
        { destruct s; rewrite ?Rabs_Ropp; apply Rabs_pos_eq, bpow_ge_0. }
        lra.
    + split; [intros H; vm_compute in H; discriminate|intros (H & _); discriminate].
Qed.
Definition kept (zero_drift : bool) (h : hit) : Prop :=
  rfi_count (h_rfi h) 1 <= 0 /\ rfi_count (h_rfi h) 2 <= 0 /\ ~ (zero_drift = true /\ still (h_drift h)).
Lemma check_hit_spec z h : is_map (h_rfi h) ->
  let (h', r) := check_hit z h in
  recounted h h' /\ (r = false <-> kept z h) /\ has_key (h_rfi h') 1 /\ has_key (h_rfi h') 2 /\
  (has_key (h_rfi h) 1 -> has_key (h_rfi h) 2 -> h' = h).
Proof.
  intros H. unfold check_hit. destruct h as [a b c d e f g i j k l m n]. unfold touch_hit. cbn [h_index h_freq h_time h_dur h_rate h_drift h_power h_steps h_snr h_band h_bins h_rfi h_coarse] in *.
  assert (H1 : is_map (rfi_touch m 1)) by now apply touch_map.
  split; [|split; [|split; [|split]]].
  - split; [eexists; split; [reflexivity|now apply touch_map]|]. intros q. cbn. now rewrite !touch_count.
  - unfold kept. cbn [h_rfi h_drift]. rewrite !touch_count by auto. rewrite <- still_test.
    destruct (Z.ltb_spec 0 (rfi_count m 1)), (Z.ltb_spec 0 (rfi_count m 2)), z, (f64lt (Babs (sub64 f (f64_of_Z 0))) eps6); cbn [orb andb];
      (split; [intros G; try discriminate G; repeat split; try lia; intros (A & B); discriminate|intros (A & B & C); try lia; try reflexivity; exfalso; apply C; auto]).
  - cbn. apply touch_keeps, touch_has.
  - cbn. apply touch_has.
  - intros K1 K2. f_equal. rewrite (touch_id m 1) by auto. now apply touch_id.
Qed.

(** The sublist of the elements with a property, in order. *)
Inductive selects {A} (P : A -> Prop) : list A -> list A -> Prop :=
| selects_nil : selects P [] []
| selects_in x l l' : P x -> selects P l l' -> selects P (x :: l) (x :: l')
| selects_out x l l' : ~ P x -> selects P l l' -> selects P (x :: l) l'.
Lemma filter_hits_spec z hs : Forall (fun h => is_map (h_rfi h)) hs ->
  exists ks, selects (kept z) hs ks /\ Forall2 recounted ks (filter_hits z hs).
Proof.
  induction 1 as [|h hs Hm _ (ks & S1 & S2)]; [exists []; split; constructor|]. cbn [filter_hits].
  pose proof (check_hit_spec z h Hm) as C. destruct (check_hit z h) as [h' r]. destruct C as (C1 & C2 & _).
  destruct r.
  - exists ks. split; [|exact S2]. apply selects_out; [|exact S1]. intros K. apply C2 in K. discriminate.
  - exists (h :: ks). split; [|now constructor]. apply selects_in; [now apply C2|exact S1].
Qed.
Lemma recounted_kept z h h' : recounted h h' -> kept z h <-> kept z h'.
Proof. intros ((m & -> & _) & H). unfold kept. rewrite !H. reflexivity. Qed.
Lemma filter_hits_twice z hs : Forall (fun h => is_map (h_rfi h)) hs -> filter_hits z (filter_hits z hs) = filter_hits z hs.
Proof.
  induction 1 as [|h hs Hm _ IH]; [reflexivity|]. cbn [filter_hits]. pose proof (check_hit_spec z h Hm) as C.
  destruct (check_hit z h) as [h' r] eqn:E. destruct C as (C1 & C2 & C3 & C4 & _). destruct r; [exact IH|]. cbn [filter_hits].
  assert (Hm' : is_map (h_rfi h')) by (destruct C1 as ((m & -> & G) & _); exact G).
  pose proof (check_hit_spec z h' Hm') as C'. destruct (check_hit z h') as [h'' r']. destruct C' as (_ & D2 & _ & _ & D5).
  rewrite (D5 C3 C4), IH. assert (r' = false); [|subst; reflexivity]. apply D2. apply (recounted_kept z h h' C1). now apply C2.
Qed.

(** ** Hits from protohits *)
Lemma make_hits_ok m junk ps : (forall p, In p ps -> 0 <= fst (ph_max p) < zlen (m_rates m) /\ ph_noise p <> None) ->
  exists hs, make_hits m junk ps = Ok hs /\ Forall2 (fun p h => exists j, make_hit m j p = Ok h) ps hs.
Proof.
  revert junk. induction ps as [|p ps IH]; intros junk H; cbn [make_hits]; [exists []; split; constructor|].
  destruct (H p (or_introl eq_refl)) as (H1 & H2). assert (exists h, make_hit m (junk O) p = Ok h) as (h & E).
  { unfold make_hit. destruct (znth_some (m_rates m) (fst (ph_max p)) H1) as (r & Er). unfold zget. rewrite Er. cbn [obind].
    destruct (ph_noise p) as [w|]; [|contradiction]. eauto. }
  destruct (IH (fun n => junk (S n))) as (hs & E' & F); [intros q Hq; apply H; now right|].
  exists (h :: hs). rewrite E. cbn [obind]. rewrite E'. cbn [obind]. split; [reflexivity|]. constructor; eauto.
Qed.

(** ** Distance over the reals *)
Definition arithR (eps cent : R) : arith R :=
  Arith Rplus Rminus Rmult Rdiv Rabs (fun a b => if Rlt_dec a b then true else false) IZR eps cent.
Lemma distance_sym_R eps cent (a b : motion R) sd :
  t_dur a = t_dur b \/ t_drift a = t_drift b ->
  distance_gen (arithR eps cent) a b sd = distance_gen (arithR eps cent) b a sd.
Proof.
  intros H. unfold distance_gen, arithR. cbn [a_add a_sub a_mul a_div a_abs a_lt a_int a_eps a_cent].
  rewrite (Rabs_minus_sym (t_drift b)).
  replace (eps + t_drift b * t_drift b + t_drift a * t_drift a)%R with (eps + t_drift a * t_drift a + t_drift b * t_drift b)%R by ring.
  set (first := if Rlt_dec (t_time b) (t_time a) then true else false).
  set (lastab := if Rlt_dec (t_time a + t_dur b) (t_time b + t_dur b) then true else false).
  set (lastba := if Rlt_dec (t_time b + t_dur a) (t_time a + t_dur a) then true else false).
  set (first' := if Rlt_dec (t_time a) (t_time b) then true else false).
  assert (Hf : (if first then t_time b else t_time a) = (if first' then t_time a else t_time b)).
  { unfold first, first'. destruct (Rlt_dec (t_time b) (t_time a)), (Rlt_dec (t_time a) (t_time b)); lra. }
  rewrite Hf. set (F := if first' then t_time a else t_time b).
  assert (Ha : (if lastab then t_time b + t_dur b else t_time a + t_dur b)%R = (Rmax (t_time a) (t_time b) + t_dur b)%R).
  { unfold lastab. destruct (Rlt_dec (t_time a + t_dur b) (t_time b + t_dur b)); unfold Rmax; destruct (Rle_dec (t_time a) (t_time b)); lra. }
  assert (Hb : (if lastba then t_time a + t_dur a else t_time b + t_dur a)%R = (Rmax (t_time a) (t_time b) + t_dur a)%R).
  { unfold lastba. destruct (Rlt_dec (t_time b + t_dur a) (t_time a + t_dur a)); unfold Rmax; destruct (Rle_dec (t_time a) (t_time b)); lra. }
  rewrite Ha, Hb. set (M := Rmax (t_time a) (t_time b)). f_equal. f_equal. f_equal. rewrite Rabs_minus_sym. f_equal.
  destruct H as [-> | ->]; [reflexivity|]. set (x := ((M + t_dur b + F) / 2)%R). set (y := ((M + t_dur a + F) / 2)%R). ring.
Qed.
(** And by how much it is not symmetric: the meeting time moves by half the difference of durations. *)
Lemma distance_asym_R eps (a b : motion R) :
  t_drift a = 1%R -> t_drift b = 0%R -> t_time a = 0%R -> t_time b = 0%R -> t_freq a = 0%R -> t_freq b = 0%R ->
  (0 <= t_dur a)%R -> (0 <= t_dur b)%R ->
  (distance_gen (arithR eps 1) a b 0 - distance_gen (arithR eps 1) b a 0 = (t_dur b - t_dur a) / 2)%R.
Proof.
  intros H1 H2 H3 H4 H5 H6 H7 H8. unfold distance_gen, arithR. cbn [a_add a_sub a_mul a_div a_abs a_lt a_int a_eps a_cent].
  rewrite H1, H2, H3, H4, H5, H6. rewrite (Rabs_minus_sym 0 1).
  replace (eps + 0 * 0 + 1 * 1)%R with (eps + 1 * 1 + 0 * 0)%R by ring.
  destruct (Rlt_dec 0 0); [exfalso; lra|]. destruct (Rlt_dec (0 + t_dur b) (0 + t_dur b)); [exfalso; lra|]. destruct (Rlt_dec (0 + t_dur a) (0 + t_dur a)); [exfalso; lra|].
  set (E := (IZR 10 * _)%R).
  replace (0 * 1000000 + 1 * ((0 + t_dur b + 0) / 2 - 0) - (0 * 1000000 + 0 * ((0 + t_dur b + 0) / 2 - 0)))%R with (t_dur b / 2)%R by field.
  replace (0 * 1000000 + 0 * ((0 + t_dur a + 0) / 2 - 0) - (0 * 1000000 + 1 * ((0 + t_dur a + 0) / 2 - 0)))%R with (- (t_dur a / 2))%R by field.
  rewrite Rabs_Ropp, !Rabs_pos_eq by lra. field.
Qed.
