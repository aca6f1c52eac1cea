(** Sexagesimal angles and rows of the text form of hits. *)
From Coq Require Import Reals Lra ZArith Lia.
From Flocq Require Import Core BinarySingleNaN Sterbenz.
From Verif Require Import HitModel DriftFloatProofs DatModel DatText FloatErr.
Local Open Scope Z_scope.
Local Open Scope list_scope.

(** ** Truncation *)
Lemma floor_parts m e : 0 <= m -> (if 0 <=? e then m * 2 ^ e else m / 2 ^ (- e)) = Zfloor (F2R (Float radix2 m e)).
Proof.
  intros Hm. unfold F2R. cbn [Fnum Fexp]. destruct (Z.leb_spec 0 e).
  - rewrite <- (IZR_Zpower radix2 e) by auto. rewrite <- mult_IZR, Zfloor_IZR. reflexivity.
  - replace e with (- - e) at 2 by lia. rewrite bpow_opp, <- (IZR_Zpower radix2 (- e)) by lia. change (Zpower radix2 (- e)) with (2 ^ (- e)).
    symmetry. apply (Zfloor_div m (2 ^ (- e))). apply Z.pow_nonzero; lia.
Qed.
Lemma floor_range v : (0 <= v < bpow radix2 31)%R -> 0 <= Zfloor v < 2 ^ 31.
Proof.
  intros (A & B). split; [apply Zfloor_lub; auto|]. apply lt_IZR. apply Rle_lt_trans with v; [apply Zfloor_lb|].
  change (2 ^ 31) with (Zpower radix2 31). rewrite IZR_Zpower by lia. exact B.
Qed.
Lemma trunc_value (x : f64) : is_finite x = true -> (Rabs (B2R x) < bpow radix2 31)%R ->
  trunc_int x = Ok (if Bsign x then - Zfloor (Rabs (B2R x)) else Zfloor (Rabs (B2R x))).
Proof.
  intros Hf Hb. pose proof (floor_range (Rabs (B2R x)) (conj (Rabs_pos _) Hb)) as R. unfold trunc_int.
  destruct x as [s|s| |s m e Hm]; try discriminate; cbn [trunc_to_int64 Bsign].
  - cbn [B2R]. rewrite Rabs_R0, Zfloor_IZR. destruct s; reflexivity.
  - rewrite floor_parts by lia. cbn [B2R] in R |- *. rewrite <- F2R_Zabs in R |- *. replace (Z.abs (cond_Zopp s (Z.pos m))) with (Z.pos m) in R |- * by (destruct s; reflexivity).
    set (f := Zfloor _) in *. assert (2 ^ 31 < 2 ^ 63) by reflexivity.
    assert (E : cond_Zopp s f = if s then - f else f) by (destruct s; reflexivity). rewrite E.
    replace ((- 2 ^ 63 <=? (if s then - f else f)) && ((if s then - f else f) <? 2 ^ 63)) with true.
    2:{ symmetry. apply Bool.andb_true_iff. split; [apply Z.leb_le|apply Z.ltb_lt]; destruct s; lia. }
    cbn [obind]. replace ((- 2 ^ 31 <=? (if s then - f else f)) && ((if s then - f else f) <? 2 ^ 31)) with true; [reflexivity|].
    symmetry. apply Bool.andb_true_iff. split; [apply Z.leb_le|apply Z.ltb_lt]; destruct s; lia.
Qed.
Lemma trunc_floor (x : f64) : is_finite x = true -> (0 <= B2R x < bpow radix2 31)%R -> trunc_int x = Ok (Zfloor (B2R x)).
Proof.
  intros Hf (A & B). rewrite trunc_value; auto; [|rewrite Rabs_pos_eq; auto]. rewrite Rabs_pos_eq by auto.
  destruct (Bsign x) eqn:S; [|reflexivity]. destruct x as [s|s| |s m e Hm]; try discriminate; cbn in S; subst s.
  - cbn [B2R]. rewrite Zfloor_IZR. reflexivity.
  - exfalso. cbn [B2R] in A. pose proof (F2R_lt_0 radix2 (Float radix2 (cond_Zopp true (Z.pos m)) e) ltac:(reflexivity)). lra.
Qed.

(** ** Fractional parts are exact *)
Lemma int64_ok z : 0 <= z < 2 ^ 31 -> is_finite (f64_of_Z z) = true /\ B2R (f64_of_Z z) = IZR z.
Proof. intros H. assert (2 ^ 31 < 2 ^ 53) by reflexivity. destruct (f64_of_Z_ok z ltac:(lia)). auto. Qed.
Lemma frac_exact (x : f64) : is_finite x = true -> (0 <= B2R x < bpow radix2 31)%R ->
  let f := sub64 x (f64_of_Z (Zfloor (B2R x))) in is_finite f = true /\ B2R f = (B2R x - IZR (Zfloor (B2R x)))%R /\ (0 <= B2R f <= 1 - bpow radix2 (-53))%R.
Proof.
  intros Hf Hx f. destruct (int64_ok _ (floor_range _ Hx)) as (I1 & I2). set (h := Zfloor (B2R x)) in *.
  pose proof (floor_range _ Hx) as Rh. fold h in Rh.
  assert (L : (IZR h <= B2R x)%R) by apply Zfloor_lb. assert (U : (B2R x < IZR h + 1)%R) by apply Zfloor_ub.
  assert (G : generic_format radix2 fexp64 (B2R x - IZR h)).
  { destruct (Z.eq_dec h 0) as [E|N].
    - rewrite E, Rminus_0_r. apply format64.
    - pose proof valid64. pose proof mono64. apply sterbenz; auto. apply format64. { rewrite <- I2. apply format64. }
      assert (1 <= IZR h)%R by (apply (IZR_le 1); lia). lra. }
  destruct (sub64_ok x (f64_of_Z h) Hf I1 0) as (F1 & F2); [lia| |].
  { rewrite I2. cbn. rewrite Rabs_pos_eq; lra. }
  fold f in F1, F2. rewrite I2 in F2. rewrite rd64_id in F2 by auto. split; [auto|]. split; [auto|]. split; [lra|].
  pose proof valid64. replace (1 - bpow radix2 (-53))%R with (pred radix2 fexp64 (bpow radix2 0)).
  - apply pred_ge_gt; auto. apply format64. { apply generic_format_bpow. rewrite fexp64_FLT. unfold FLT_exp. lia. } cbn. lra.
  - rewrite pred_bpow. rewrite fexp64_FLT. reflexivity.
Qed.
Lemma pow_m53 : (bpow radix2 (-48) = 32 * bpow radix2 (-53))%R.
Proof. replace (-48) with (5 + -53) by lia. rewrite bpow_plus. reflexivity. Qed.
Lemma times60 (f : f64) : is_finite f = true -> (0 <= B2R f <= 1 - bpow radix2 (-53))%R ->
  let g := mul64 f (f64_of_Z 60) in is_finite g = true /\ (0 <= B2R g < 60)%R /\ (Rabs (B2R g - 60 * B2R f) <= bpow radix2 (-48))%R.
Proof.
  intros Hf Hx g. destruct (int64_ok 60 ltac:(lia)) as (I1 & I2).
  assert (P : (0 < bpow radix2 (-53))%R) by apply bpow_gt_0.
  assert (B : (Rabs (B2R f * B2R (f64_of_Z 60)) <= bpow radix2 6)%R). { rewrite I2. cbn [bpow]. rewrite Rabs_pos_eq by lra. change (IZR (Z.pow_pos radix2 6)) with 64%R. lra. }
  destruct (mul64_ok f (f64_of_Z 60) Hf I1 6 ltac:(lia) B) as (G1 & G2). pose proof (rd64_err 6 _ ltac:(lia) B) as E. rewrite <- G2 in E.
  fold g in G1, G2, E. rewrite I2 in *. change (6 - 54) with (-48) in E. replace (60 * B2R f)%R with (B2R f * 60)%R by ring. split; [auto|]. split; [|exact E].
  split.
  - rewrite G2. rewrite <- (rd64_id 0); [|apply generic_format_0]. apply rd64_le. lra.
  - apply Rabs_le_inv in E. rewrite pow_m53 in E. lra.
Qed.

(** Minutes and seconds of a non-negative number. *)
Lemma minutes_seconds_ok (x : f64) : is_finite x = true -> (0 <= B2R x < bpow radix2 31)%R ->
  exists m s, minutes_seconds (sub64 x (f64_of_Z (Zfloor (B2R x)))) = Ok (m, s) /\ 0 <= m <= 59 /\ is_finite s = true /\ (0 <= B2R s < 60)%R /\
    (Rabs (IZR (Zfloor (B2R x)) + IZR m / 60 + B2R s / 3600 - B2R x) <= bpow radix2 (-53))%R.
Proof.
  intros Hf Hx. destruct (frac_exact x Hf Hx) as (F1 & F2 & F3). set (f := sub64 x _) in *.
  destruct (times60 f F1 F3) as (G1 & G2 & G3). unfold minutes_seconds. set (g := mul64 f _) in *.
  assert (Hg : (0 <= B2R g < bpow radix2 31)%R). { split; [lra|]. apply Rlt_trans with (bpow radix2 6); [change (bpow radix2 6) with 64%R; lra|apply bpow_lt; lia]. }
  rewrite (trunc_floor g G1 Hg). cbn [obind]. destruct (frac_exact g G1 Hg) as (A1 & A2 & A3). set (r := sub64 g _) in *.
  destruct (times60 r A1 A3) as (S1 & S2 & S3). set (s := mul64 r _) in *.
  exists (Zfloor (B2R g)), s. split; [reflexivity|]. split.
  { split; [apply Zfloor_lub; lra|]. assert (Zfloor (B2R g) < 60); [|lia]. apply lt_IZR. apply Rle_lt_trans with (B2R g); [apply Zfloor_lb|lra]. }
  split; [auto|]. split; [auto|].
  rewrite A2 in S3. rewrite F2 in G3. rewrite pow_m53 in *. pose proof (bpow_gt_0 radix2 (-53)).
  apply Rabs_le_inv in S3. apply Rabs_le_inv in G3. apply Rabs_le. lra.
Qed.

(** ** Hours *)
Lemma archours_ok (x : f64) : is_finite x = true -> (0 <= B2R x <= 32)%R ->
  exists h m s, archours_parts x = Ok (h, m, s) /\ 0 <= h <= 32 /\ 0 <= m <= 59 /\ is_finite s = true /\ (0 <= B2R s < 60)%R /\
    (Rabs (IZR h + IZR m / 60 + B2R s / 3600 - B2R x) <= bpow radix2 (-46))%R.
Proof.
  intros Hf Hx. destruct (int64_ok 15 ltac:(lia)) as (I1 & I2). unfold archours_parts.
  assert (B : (Rabs (B2R x * B2R (f64_of_Z 15)) <= bpow radix2 9)%R). { rewrite I2. change (bpow radix2 9) with 512%R. rewrite Rabs_pos_eq; lra. }
  destruct (mul64_ok x (f64_of_Z 15) Hf I1 9 ltac:(lia) B) as (G1 & G2). pose proof (rd64_err 9 _ ltac:(lia) B) as E. rewrite <- G2 in E.
  set (deg := mul64 x _) in *. rewrite I2 in *.
  assert (D : (0 <= B2R deg <= 480)%R).
  { rewrite G2. split.
    - rewrite <- (rd64_id 0); [|apply generic_format_0]. apply rd64_le. lra.
    - destruct (int64_ok 480 ltac:(lia)) as (_ & J). rewrite <- J, <- (rd64_id (B2R (f64_of_Z 480))) by apply format64. apply rd64_le. rewrite J. lra. }
  assert (B' : (Rabs (B2R deg / B2R (f64_of_Z 15)) <= bpow radix2 5)%R). { rewrite I2. change (bpow radix2 5) with 32%R. rewrite Rabs_pos_eq; lra. }
  destruct (div64_ok deg (f64_of_Z 15) G1 5 ltac:(lia) ltac:(rewrite I2; lra) B') as (H1 & H2). pose proof (rd64_err 5 _ ltac:(lia) B') as E'.
  pose proof (rd64_bound 5 _ ltac:(lia) B') as U. rewrite <- H2 in E', U. set (x' := div64 deg _) in *. rewrite I2 in *.
  assert (N : (0 <= B2R x')%R). { rewrite H2. rewrite <- (rd64_id 0); [|apply generic_format_0]. apply rd64_le. lra. }
  change (bpow radix2 5) with 32%R in U. rewrite Rabs_pos_eq in U by auto.
  assert (Hx' : (0 <= B2R x' < bpow radix2 31)%R). { split; [auto|]. apply Rlt_trans with (bpow radix2 6); [change (bpow radix2 6) with 64%R; lra|apply bpow_lt; lia]. }
  rewrite (trunc_floor x' H1 Hx'). cbn [obind]. destruct (minutes_seconds_ok x' H1 Hx') as (m & s & M & Hm & Hs & Hs' & Hv). rewrite M. cbn [obind fst snd].
  exists (Zfloor (B2R x')), m, s. split; [reflexivity|]. split.
  { split; [apply Zfloor_lub; auto|]. apply le_IZR. apply Rle_trans with (B2R x'); [apply Zfloor_lb|auto]. }
  split; [auto|]. split; [auto|]. split; [auto|].
  change (9 - 54) with (-45) in E. change (5 - 54) with (-49) in E'.
  replace (bpow radix2 (-46)) with (128 * bpow radix2 (-53))%R by (replace (-46) with (7 + -53) by lia; rewrite bpow_plus; reflexivity).
  replace (bpow radix2 (-45)) with (256 * bpow radix2 (-53))%R in E by (replace (-45) with (8 + -53) by lia; rewrite bpow_plus; reflexivity).
  replace (bpow radix2 (-49)) with (16 * bpow radix2 (-53))%R in E' by (replace (-49) with (4 + -53) by lia; rewrite bpow_plus; reflexivity).
  pose proof (bpow_gt_0 radix2 (-53)). apply Rabs_le_inv in E. apply Rabs_le_inv in E'. apply Rabs_le_inv in Hv. apply Rabs_le. lra.
Qed.

(** ** Degrees *)
Lemma sign_of_compare (x : f64) : is_finite x = true ->
  (match Bcompare x (f64_of_Z 0) with Some Eq | Some Gt => false | _ => true end) = Rlt_bool (B2R x) 0.
Proof.
  intros Hf. destruct (int64_ok 0 ltac:(lia)) as (I1 & I2). rewrite Bcompare_correct by auto. rewrite I2.
  destruct (Rcompare_spec (B2R x) 0) as [H|H|H]; [rewrite Rlt_bool_true|rewrite Rlt_bool_false|rewrite Rlt_bool_false]; auto; lra.
Qed.
Lemma degrees_ok (x : f64) : is_finite x = true -> (Rabs (B2R x) <= 360)%R ->
  exists d m s, degrees_parts x = Ok (Rlt_bool (B2R x) 0, d, m, s) /\ 0 <= d <= 360 /\ 0 <= m <= 59 /\ is_finite s = true /\ (0 <= B2R s < 60)%R /\
    (Rabs (IZR d + IZR m / 60 + B2R s / 3600 - Rabs (B2R x)) <= bpow radix2 (-53))%R.
Proof.
  intros Hf Hx. pose proof (Rabs_pos (B2R x)) as P.
  assert (Hx' : (Rabs (B2R x) < bpow radix2 31)%R). { apply Rlt_trans with (bpow radix2 9); [change (bpow radix2 9) with 512%R; lra|apply bpow_lt; lia]. }
  unfold degrees_parts. rewrite sign_of_compare by auto. rewrite (trunc_value x Hf Hx'). cbn [obind].
  assert (A1 : is_finite (Babs x) = true) by (rewrite is_finite_Babs; auto). assert (A2 : B2R (Babs x) = Rabs (B2R x)) by apply B2R_Babs.
  assert (F : 0 <= Zfloor (Rabs (B2R x))) by (apply Zfloor_lub; auto).
  pose proof (floor_range _ (conj P Hx')) as Fr.
  assert (Ea : abs_int (if Bsign x then - Zfloor (Rabs (B2R x)) else Zfloor (Rabs (B2R x))) = Ok (Zfloor (B2R (Babs x)))).
  { unfold abs_int. rewrite (proj2 (Z.eqb_neq _ _)) by (destruct (Bsign x); lia). rewrite A2. f_equal. destruct (Bsign x); lia. }
  rewrite Ea. cbn [obind].
  destruct (minutes_seconds_ok (Babs x) A1) as (m & s & M & Hm & Hs & Hs' & Hv). { rewrite A2. split; auto. }
  rewrite M. cbn [obind fst snd]. rewrite A2 in Hv |- *. exists (Zfloor (Rabs (B2R x))), m, s. split; [reflexivity|]. split.
  { split; [auto|]. apply le_IZR. apply Rle_trans with (Rabs (B2R x)); [apply Zfloor_lb|auto]. }
  auto.
Qed.

(** ** The text *)
(** Specification: a number, a unit letter, minutes 'm', seconds with [k] decimals 's', and nothing more. *)
Definition read_sexagesimal (unit : ascii) (k : nat) (s : string) : option (Z * Z * Z) :=
  match split unit s with
  | [a; b] => match split "m" b with
              | [c; d] => match split "s" d with
                          | [e; EmptyString] => match read_natural a, read_natural c, read_decimal k e with Some x, Some y, Some z => Some (x, y, z) | _, _, _ => None end
                          | _ => None end
              | _ => None end
  | _ => None end.
Definition plain (c : ascii) : bool := is_digit c || Ascii.eqb c "." || Ascii.eqb c "-".
Lemma plain_not c s : plain c = false -> all_chars plain s = true -> all_chars (fun a => negb (Ascii.eqb a c)) s = true.
Proof. intros H. apply all_impl. intros a Ha. destruct (Ascii.eqb_spec a c); [congruence|reflexivity]. Qed.
Lemma plain_digits k n : all_chars plain (digits k n "") = true.
Proof. apply all_impl with is_digit; [|rewrite digits_all; reflexivity]. intros c H. unfold plain. rewrite H. reflexivity. Qed.
Lemma plain_minus b : all_chars plain (minus b) = true. Proof. destruct b; reflexivity. Qed.
Lemma plain_padded w z : all_chars plain (zero_padded w z) = true.
Proof. unfold zero_padded. rewrite all_app, plain_minus, plain_digits. reflexivity. Qed.
Lemma plain_fixed (x : f64) w k : is_finite x = true -> all_chars plain (fixed w true k x) = true.
Proof.
  intros Hf. destruct (fixed_finite w true k x Hf (or_intror eq_refl)) as (i & _ & E & _). rewrite E. unfold body. rewrite !all_app, plain_minus, !plain_digits. reflexivity.
Qed.
Lemma padded_natural w z : 0 <= z -> read_natural (zero_padded w z) = Some z.
Proof.
  intros H. unfold zero_padded. destruct (Z.ltb_spec z 0); [lia|]. cbn [minus String.append]. rewrite Z.abs_eq by auto. apply read_digits_wide; lia.
Qed.
Lemma sexagesimal_back unit w k h m (s : f64) : plain unit = false -> 0 <= h -> 0 <= m -> is_finite s = true -> (1 <= k)%nat ->
  (Ascii.eqb "m" unit || Ascii.eqb "s" unit = false)%bool ->
  exists z, read_sexagesimal unit k (zero_padded 2 h ++ String unit (zero_padded 2 m ++ String "m" (fixed w true k s ++ String "s" "")))%string = Some (h, m, z) /\
    (Rabs (IZR z / IZR (10 ^ Z.of_nat k) - B2R s) <= / 2 / IZR (10 ^ Z.of_nat k))%R.
Proof.
  intros Hu Hh Hm Hs Hk Hn. destruct (fixed_back w true k s Hs Hk (or_intror eq_refl)) as (z & Z1 & Z2 & _). exists z. split; [|exact Z2].
  apply Bool.orb_false_iff in Hn as (N1 & N2).
  unfold read_sexagesimal. rewrite split_app by (apply plain_not; auto using plain_padded). rewrite split_none.
  2:{ rewrite all_app. cbn [all_chars]. rewrite all_app. cbn [all_chars]. rewrite N1, N2. rewrite !plain_not; auto using plain_padded, plain_fixed. }
  rewrite split_app by (apply plain_not; auto using plain_padded). rewrite split_none.
  2:{ rewrite all_app. cbn [all_chars]. rewrite plain_not; auto using plain_fixed. }
  rewrite split_app by (apply plain_not; auto using plain_fixed). cbn [split]. rewrite !padded_natural by auto. rewrite Z1. reflexivity.
Qed.

(** ** Rows *)
Fixpoint numbered {A} (n : Z) (l : list A) : list (Z * A) := match l with [] => [] | a :: l' => (n, a) :: numbered (n + 1) l' end.
Lemma row_fields_sep n h : Forall no_sep (row_fields n h).
Proof. unfold row_fields. repeat (constructor; [first [apply no_sep_padded|apply no_sep_integer|apply no_sep_fixed]|]). constructor. Qed.
Lemma join_no_newline l : Forall no_sep l -> all_chars (fun a => negb (Ascii.eqb a newline)) (join tab l) = true.
Proof.
  intros F. induction F as [|s l (A & B) F IH]; [reflexivity|]. destruct l as [|t l]; [exact B|].
  change (join tab (s :: t :: l)) with (s ++ String tab (join tab (t :: l)))%string. rewrite all_app, B. cbn [all_chars]. rewrite IH. reflexivity.
Qed.
Lemma rows_split hs : forall n, split newline (rows n hs) = map (fun p => join tab (row_fields (fst p) (snd p))) (numbered n hs) ++ [""%string].
Proof.
  induction hs as [|h hs IH]; intros n; [reflexivity|]. cbn [rows numbered map app fst snd]. unfold row. rewrite app_assoc_s.
  change (String newline "" ++ rows (n + 1) hs)%string with (String newline (rows (n + 1) hs)).
  rewrite split_app by (apply join_no_newline, row_fields_sep). rewrite IH. reflexivity.
Qed.
Lemma row_split n h : split tab (join tab (row_fields n h)) = row_fields n h.
Proof. apply split_join; [discriminate|]. eapply Forall_impl; [|apply row_fields_sep]. intros s (A & _). exact A. Qed.
Lemma numbered_nth {A} (l : list A) : forall n i a, nth_error l i = Some a -> nth_error (numbered n l) i = Some (n + Z.of_nat i, a).
Proof.
  induction l as [|b l IH]; intros n i a H; [destruct i; discriminate|]. destruct i as [|i]; cbn in H |- *.
  - injection H as ->. f_equal. f_equal. lia.
  - rewrite (IH _ _ _ H). f_equal. f_equal. lia.
Qed.
Lemma numbered_length {A} (l : list A) : forall n, List.length (numbered n l) = List.length l.
Proof. induction l; intros; cbn; auto. Qed.

(** End and middle frequencies. *)
Lemma end_freq_ok h : is_finite (h_freq h) = true -> is_finite (h_dur h) = true -> is_finite (h_drift h) = true ->
  (Rabs (B2R (h_freq h)) <= bpow radix2 20)%R -> (Rabs (B2R (h_dur h)) <= bpow radix2 20)%R -> (Rabs (B2R (h_drift h)) <= bpow radix2 20)%R ->
  is_finite (end_freq h) = true /\ (Rabs (B2R (end_freq h) - (B2R (h_freq h) + B2R (h_dur h) * B2R (h_drift h) / 1000000)) <= bpow radix2 (-31))%R /\
  is_finite (mid_freq h) = true /\ (Rabs (B2R (mid_freq h) - (B2R (h_freq h) + B2R (h_dur h) * B2R (h_drift h) / 2000000)) <= bpow radix2 (-30))%R.
Proof.
  intros F1 F2 F3 B1 B2 B3. destruct (int64_ok 1000000 ltac:(lia)) as (I1 & I2). destruct (int64_ok 2 ltac:(lia)) as (J1 & J2).
  set (f := B2R (h_freq h)) in *. set (d := B2R (h_dur h)) in *. set (r := B2R (h_drift h)) in *.
  assert (P : (Rabs (d * r) <= bpow radix2 40)%R).
  { rewrite Rabs_mult. replace 40 with (20 + 20) by lia. rewrite bpow_plus. apply Rmult_le_compat; auto using Rabs_pos. }
  destruct (mul64_ok (h_dur h) (h_drift h) F2 F3 40 ltac:(lia) P) as (M1 & M2). pose proof (rd64_err 40 _ ltac:(lia) P) as E1. pose proof (rd64_bound 40 _ ltac:(lia) P) as U1.
  fold d r in M2. rewrite <- M2 in E1, U1. set (p := mul64 (h_dur h) (h_drift h)) in *.
  change (bpow radix2 20) with 1048576%R in *. change (bpow radix2 40) with 1099511627776%R in *. apply Rabs_le_inv in U1.
  assert (Q : (Rabs (B2R p / B2R (f64_of_Z 1000000)) <= bpow radix2 21)%R). { rewrite I2. change (bpow radix2 21) with 2097152%R. apply Rabs_le. lra. }
  destruct (div64_ok p (f64_of_Z 1000000) M1 21 ltac:(lia) ltac:(rewrite I2; lra) Q) as (D1 & D2). pose proof (rd64_err 21 _ ltac:(lia) Q) as E2. pose proof (rd64_bound 21 _ ltac:(lia) Q) as U2.
  rewrite <- D2 in E2, U2. set (q := div64 p _) in *. rewrite I2 in *. change (bpow radix2 21) with 2097152%R in *. apply Rabs_le_inv in U2. apply Rabs_le_inv in B1.
  assert (S : (Rabs (B2R (h_freq h) + B2R q) <= bpow radix2 22)%R). { fold f. change (bpow radix2 22) with 4194304%R. apply Rabs_le. lra. }
  destruct (add64_ok (h_freq h) q F1 D1 22 ltac:(lia) S) as (A1 & A2). pose proof (rd64_err 22 _ ltac:(lia) S) as E3. pose proof (rd64_bound 22 _ ltac:(lia) S) as U3.
  rewrite <- A2 in E3, U3. change (add64 (h_freq h) q) with (end_freq h) in *. fold f in E3. change (bpow radix2 22) with 4194304%R in *. apply Rabs_le_inv in U3.
  assert (S' : (Rabs (B2R (h_freq h) + B2R (end_freq h)) <= bpow radix2 23)%R). { fold f. change (bpow radix2 23) with 8388608%R. apply Rabs_le. lra. }
  destruct (add64_ok (h_freq h) (end_freq h) F1 A1 23 ltac:(lia) S') as (G1 & G2). pose proof (rd64_err 23 _ ltac:(lia) S') as E4. pose proof (rd64_bound 23 _ ltac:(lia) S') as U4.
  rewrite <- G2 in E4, U4. fold f in E4. set (s := add64 (h_freq h) (end_freq h)) in *. change (bpow radix2 23) with 8388608%R in *. apply Rabs_le_inv in U4.
  assert (T : (Rabs (B2R s / B2R (f64_of_Z 2)) <= bpow radix2 22)%R). { rewrite J2. change (bpow radix2 22) with 4194304%R. apply Rabs_le. lra. }
  destruct (div64_ok s (f64_of_Z 2) G1 22 ltac:(lia) ltac:(rewrite J2; lra) T) as (H1 & H2). pose proof (rd64_err 22 _ ltac:(lia) T) as E5.
  rewrite <- H2 in E5. change (div64 s (f64_of_Z 2)) with (mid_freq h) in *. rewrite J2 in *.
  change (40 - 54) with (18 + -32) in E1. change (21 - 54) with (-1 + -32) in E2. change (22 - 54) with (-32) in E3, E5. change (23 - 54) with (1 + -32) in E4.
  replace (-31) with (1 + -32) by lia. replace (-30) with (2 + -32) by lia. rewrite bpow_plus in *. rewrite (bpow_plus radix2 2).
  change (bpow radix2 18) with 262144%R in *. change (bpow radix2 (-1)) with (/ 2)%R in *. change (bpow radix2 1) with 2%R in *. change (bpow radix2 2) with 4%R in *.
  pose proof (bpow_gt_0 radix2 (-32)). apply Rabs_le_inv in E1. apply Rabs_le_inv in E2. apply Rabs_le_inv in E3. apply Rabs_le_inv in E4. apply Rabs_le_inv in E5.
  split; [auto|]. split; [apply Rabs_le; lra|]. split; [auto|]. apply Rabs_le. lra.
Qed.
