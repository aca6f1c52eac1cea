(** C100: spectral kurtosis and its flags in single precision. *)
From Coq Require Import ZifyBool Lia Reals Lra.
From Flocq Require Import Core BinarySingleNaN.
From Verif Require Import KurtModel FlagReal DriftFloatProofs NdIndexFacts NdProofs RedProofs3 KurtProofs KurtProofs2.
Local Open Scope Z_scope.

(** ** What is expected *)
(** The published estimate of M samples, each the sum of N spectra of shape d, and its scale. *)
Definition scale (N M : Z) (d : R) : R := ((IZR M * IZR N * d + 1) / IZR (M - 1))%R.
Definition kurtosis (N : Z) (d : R) (xs : list R) : R :=
  ((IZR (zlen xs) * rsum (map (fun x => x * x) xs) / (rsum xs * rsum xs) - 1) * scale N (zlen xs) d)%R.
(** How far the computed one may be off. *)
Definition margin (N : Z) (d : R) (xs : list R) : R := ((IZR (zlen xs) + 4) * bpow radix2 (-22) * (kurtosis N d xs + scale N (zlen xs) d))%R.
(** The samples of a channel, in time. *)
Definition samples {A} (T : Z) (f : list Z -> A) (c : Z) : list A := map (fun t => f [t; c]) (zrange T).
(** Powers: finite, not negative, at most 2^40, and together at least 2^-40. *)
Definition power_samples (xs : list f32) : Prop :=
  Forall (fun x => is_finite x = true /\ (0 <= B2R x <= bpow radix2 40)%R) xs /\ (bpow radix2 (-40) <= rsum (map B2R xs))%R.
(** The time and frequency resolution, their product in samples, and the shape parameter. *)
Definition spectra (tsamp foff : f64) : R := (B2R tsamp * Rabs (B2R foff) * 1000000)%R.
Definition settings (T : Z) (tsamp foff : f64) (d : f32) : Prop :=
  is_finite tsamp = true /\ is_finite foff = true /\ is_finite d = true /\ (bpow radix2 (-100) <= B2R tsamp <= bpow radix2 100)%R /\ (bpow radix2 (-100) <= Rabs (B2R foff) <= bpow radix2 100)%R /\
  (0 <= B2R d <= bpow radix2 20)%R /\ (IZR T * (spectra tsamp foff + 1) < 2147483648)%R.
Definition nearest_count (N : Z) (v : R) : Prop := 0 <= N /\ (Rabs (IZR N - v) <= / 2 + v * bpow radix2 (-50))%R.

(** ** Links *)
Lemma column_is N M d T f c : sk_column ops32 N M d T f c = column_estimate N M d (samples T f c).
Proof. unfold sk_column, column_estimate, colsum, samples. rewrite map_map. reflexivity. Qed.
Lemma column_estimate_is N M d xs : M = zlen xs -> column_estimate N M d xs = estimate32 N M d xs.
Proof. intros ->. reflexivity. Qed.
Lemma samples_len {A} T (f : list Z -> A) c : 0 <= T -> zlen (samples T f c) = T.
Proof. intros H. unfold samples, zlen. rewrite map_length. pose proof (zrange_length T) as K. unfold zlen in K. lia. Qed.
Lemma power_measurable xs : power_samples xs -> measurable xs.
Proof.
  intros (H & L). split; [|split; [|exact L]].
  - eapply Forall_impl; [|exact H]. cbn beta. intros x (F & B & _). auto.
  - eapply Forall_impl; [|exact H]. cbn beta. intros x (F & _ & B). exact B.
Qed.
Lemma kurtosis_is N d xs : kurtosis N d xs = sk_list N (zlen xs) d xs.
Proof. unfold kurtosis, scale, sk_list, squares. now rewrite mult_IZR. Qed.
Lemma estimate_margin N d xs : 2 <= zlen xs <= 2 ^ 16 -> power_samples xs -> 0 <= N -> zlen xs * N < 2 ^ 31 -> is_finite d = true -> (0 <= B2R d <= bpow radix2 20)%R ->
  is_finite (column_estimate N (zlen xs) d xs) = true /\ (Rabs (B2R (column_estimate N (zlen xs) d xs) - kurtosis N (B2R d) (map B2R xs)) <= margin N (B2R d) (map B2R xs))%R.
Proof.
  intros HM HX HN HMN Fd Hd. rewrite column_estimate_is by reflexivity. destruct (estimate_ok N d xs HM (power_measurable xs HX) HN HMN Fd Hd) as (F & E). cbv zeta in E. split; [exact F|].
  unfold margin. rewrite kurtosis_is. assert (L : zlen (map B2R xs) = zlen xs) by (unfold zlen; now rewrite map_length). rewrite L. unfold factor in E. rewrite mult_IZR in E. exact E.
Qed.
Lemma settings_count T tsamp foff d : 1 <= T -> settings T tsamp foff d -> exists N, round_to_int64 (sk_ratio tsamp foff) = Ok N /\ round_to_int (sk_ratio tsamp foff) = Ok N /\ nearest_count N (spectra tsamp foff) /\ N < 2 ^ 31 /\ T * N < 2 ^ 31.
Proof.
  intros HT (Ft & Ff & Fd & Ht & Hf & Hd & Hv). assert (T1 : (1 <= IZR T)%R) by (apply IZR_le; exact HT). assert (v0 : (0 <= spectra tsamp foff)%R). { unfold spectra. pose proof (bpow_gt_0 radix2 (-100)). apply Rmult_le_pos; [apply Rmult_le_pos; [lra|apply Rabs_pos]|lra]. }
  destruct (samples_ok tsamp foff Ft Ff Ht Hf) as (N & E1 & E2 & (N0 & N1) & E3). { fold (spectra tsamp foff). nra. }
  fold (spectra tsamp foff) in E3. set (v := spectra tsamp foff) in *. clearbody v. exists N. split; [exact E1|]. split; [exact E2|]. split; [split; assumption|]. split; [exact N1|].
  apply lt_IZR. rewrite mult_IZR. change (IZR (2 ^ 31)) with 2147483648%R. eapply Rle_lt_trans; [|exact Hv]. apply Rmult_le_compat_l; [lra|]. apply Rabs_le_inv in E3. assert (v * bpow radix2 (-50) <= / 4)%R; [|lra].
  assert (v <= 2147483648)%R by nra. change (bpow radix2 (-50)) with (/ 1125899906842624)%R. lra.
Qed.
Lemma int32_id z : - 2 ^ 31 <= z < 2 ^ 31 -> to_int32 z = z. Proof. apply to_int32_small. Qed.

(** ** The estimate *)
(** C100: every channel of powers gets a finite estimate within the margin of the published one. *)
Theorem C100_estimate : forall junk data T C f tsamp foff d, arr_is data [T; C] f -> 2 <= T <= 2 ^ 16 -> 1 <= C -> T * C < 2 ^ 31 -> settings T tsamp foff d ->
  exists N r g, nearest_count N (spectra tsamp foff) /\ channel_kurtosis junk data tsamp foff d = Ok r /\ arr_is r [C] g /\
    forall c, 0 <= c < C -> power_samples (samples T f c) ->
      is_finite (g [c]) = true /\ (Rabs (B2R (g [c]) - kurtosis N (B2R d) (map B2R (samples T f c))) <= margin N (B2R d) (map B2R (samples T f c)))%R.
Proof.
  intros junk data T C f tsamp foff d A HT HC Hb Hs. destruct (settings_count T tsamp foff d ltac:(lia) Hs) as (N & _ & E2 & HN & N1 & N2). pose proof HN as (N0 & _). destruct Hs as (_ & _ & Fd & _ & _ & Hd & _).
  assert (C < 2 ^ 31) by nia. destruct (sk_is ops32 junk data T C f N T d A ltac:(lia) HC Hb ltac:(lia) ltac:(lia)) as (r & Er & _ & _ & Hr).
  exists N, r. eexists. split; [exact HN|]. split.
  - unfold channel_kurtosis. destruct A as (_ & Sh & _). rewrite Sh. change (zget [T; C] 0) with (Ok T). cbn [obind]. rewrite E2. cbn [obind]. rewrite int32_id by lia. exact Er.
  - split; [exact Hr|]. intros c Hc Hp. cbv beta. cbn [nth]. rewrite column_is. pose proof (samples_len T f c ltac:(lia)) as L. pose proof (estimate_margin N d (samples T f c) ltac:(lia) Hp N0 ltac:(lia) Fd Hd) as K. rewrite L in K. exact K.
Qed.
Print Assumptions C100_estimate.

(** ** Flags *)
Definition is_below (x t : R) (m : R) (b : bool) : Prop := ((x + m < t)%R -> b = true) /\ (b = true -> (x - m < t)%R).
Definition is_above (x t : R) (m : R) (b : bool) : Prop := ((t < x - m)%R -> b = true) /\ (b = true -> (t < x + m)%R).
Lemma lt32_real (x y : f32) : is_finite x = true -> is_finite y = true -> lt32 x y = true <-> (B2R x < B2R y)%R.
Proof. intros Fx Fy. unfold lt32. rewrite Bcompare_correct by assumption. destruct (Rcompare_spec (B2R x) (B2R y)); split; intros K; try reflexivity; try discriminate; lra. Qed.
(** C100: a channel is flagged low where its kurtosis is below the lower threshold and high where it is above the upper one, up to the margin; the flags are added in all spectra. *)
Theorem C100_flags : forall junk jz data mask T C f m tsamp foff lower upper d, arr_is data [T; C] f -> arr_is mask [T; C] m -> 2 <= T <= 2 ^ 16 -> 1 <= C -> T * C < 2 ^ 31 -> settings T tsamp foff d ->
  is_finite lower = true -> is_finite upper = true ->
  exists N r g, nearest_count N (spectra tsamp foff) /\ flag_kurtosis junk jz data mask tsamp foff lower upper d = Ok r /\ arr_is r [T; C] g /\
    forall c, 0 <= c < C -> exists low high : bool, (forall t, 0 <= t < T -> g [t; c] = (m [t; c] + (if low then 2 else 0) + (if high then 4 else 0)) mod 256) /\
      (power_samples (samples T f c) -> let xs := map B2R (samples T f c) in
        is_below (kurtosis N (B2R d) xs) (B2R lower) (margin N (B2R d) xs) low /\ is_above (kurtosis N (B2R d) xs) (B2R upper) (margin N (B2R d) xs) high).
Proof.
  intros junk jz data mask T C f m tsamp foff lower upper d A Am HT HC Hb Hs Fl Fu. destruct (settings_count T tsamp foff d ltac:(lia) Hs) as (N & E1 & _ & HN & N1 & N2). pose proof HN as (N0 & _). destruct Hs as (_ & _ & Fd & _ & _ & Hd & _).
  destruct (flag_sk_is ops32 junk jz data mask T C f m N T d lower upper A Am ltac:(lia) HC Hb ltac:(lia)) as (r & Er & Hr). exists N, r. eexists. split; [exact HN|]. split; [|split; [exact Hr|]].
  - unfold flag_kurtosis. destruct A as (_ & Sh & _). rewrite Sh. change (zget [T; C] 0) with (Ok T). cbn [obind]. rewrite E1. cbn [obind]. rewrite !int32_id by lia. exact Er.
  - intros c Hc. set (e := sk_column ops32 N T d T f c). exists (lt32 e lower), (lt32 upper e). split.
    + intros t Ht. cbn [nth]. fold e. unfold sk_bits. cbn [o_lt ops32]. unfold LOW_SK, HIGH_SK. f_equal. ring.
    + intros Hp xs. pose proof (samples_len T f c ltac:(lia)) as L. pose proof (estimate_margin N d (samples T f c) ltac:(lia) Hp N0 ltac:(lia) Fd Hd) as (Fe & Ee). rewrite L, <- column_is in Fe, Ee. fold e in Fe, Ee. fold xs in Ee.
      apply Rabs_le_inv in Ee. unfold is_below, is_above. rewrite !lt32_real by assumption. repeat split; intros; lra.
Qed.
Print Assumptions C100_flags.
(** C100: a channel of equal powers has kurtosis zero, so a lower threshold above the rounding error catches it. *)
Lemma rsum_equal a n : rsum (repeat a n) = (INR n * a)%R. Proof. induction n as [|n IH]; [cbn; lra|]. cbn [repeat rsum]. rewrite IH, S_INR. lra. Qed.
Theorem C100_constant : forall N d n a, (2 <= n)%nat -> (a <> 0)%R -> kurtosis N d (repeat a n) = 0%R /\
  margin N d (repeat a n) = ((INR n + 4) * bpow radix2 (-22) * scale N (Z.of_nat n) d)%R.
Proof.
  intros N d n a Hn Ha. assert (L : zlen (repeat a n) = Z.of_nat n) by (unfold zlen; now rewrite repeat_length). assert (K : kurtosis N d (repeat a n) = 0%R).
  { rewrite kurtosis_is, L. apply sk_constant; [reflexivity|lia|exact Ha]. }
  split; [exact K|]. unfold margin. rewrite K, L, <- INR_IZR_INZ. ring.
Qed.
Print Assumptions C100_constant.

(** ** Channels that are never flagged *)
(** C100: a channel with a NaN or an infinity, a channel of zeros and every channel of a single spectrum keep their flags, whatever the thresholds. *)
Theorem C100_unflagged : forall junk jz data mask T C f m tsamp foff lower upper d N, arr_is data [T; C] f -> arr_is mask [T; C] m -> 1 <= T < 2 ^ 31 -> 1 <= C -> T * C < 2 ^ 31 ->
  round_to_int64 (sk_ratio tsamp foff) = Ok N -> - 2 ^ 31 <= T * to_int32 N < 2 ^ 31 ->
  exists r g, flag_kurtosis junk jz data mask tsamp foff lower upper d = Ok r /\ arr_is r [T; C] g /\
    forall c, 0 <= c < C -> T = 1 \/ (exists t, 0 <= t < T /\ is_finite (f [t; c]) = false) \/ (forall t, 0 <= t < T -> f [t; c] = B754_zero false) ->
      forall t, 0 <= t < T -> g [t; c] = m [t; c] mod 256.
Proof.
  intros junk jz data mask T C f m tsamp foff lower upper d N A Am HT HC Hb EN HMN.
  destruct (flag_sk_is ops32 junk jz data mask T C f m (to_int32 N) T d lower upper A Am ltac:(lia) HC Hb ltac:(lia)) as (r & Er & Hr). exists r. eexists. split; [|split; [exact Hr|]].
  - unfold flag_kurtosis. destruct A as (_ & Sh & _). rewrite Sh. change (zget [T; C] 0) with (Ok T). cbn [obind]. rewrite EN. cbn [obind]. rewrite (int32_id T) by lia. exact Er.
  - intros c Hc Hx t Ht. cbn [nth]. rewrite column_is. replace (column_estimate (to_int32 N) T d (samples T f c)) with (B754_nan : f32).
    + unfold sk_bits. cbn [o_lt ops32]. unfold lt32. replace (Bcompare (B754_nan : f32) lower) with (@None comparison) by reflexivity. replace (Bcompare upper (B754_nan : f32)) with (@None comparison) by (destruct upper; reflexivity). now rewrite Z.add_0_r.
    + symmetry. destruct Hx as [-> |[(t' & Ht' & Hf)|Hz]].
      * unfold samples. change (zrange 1) with [0]. cbn [map]. apply single_column.
      * apply nonfinite_column. apply Exists_exists. exists (f [t'; c]). split; [|exact Hf]. unfold samples. apply in_map_iff. exists t'. split; [reflexivity|]. now apply in_zrange.
      * replace (samples T f c) with (repeat (B754_zero false : f32) (Z.to_nat T)); [apply zero_column|]. unfold samples. replace (Z.to_nat T) with (length (zrange T)) by (pose proof (zrange_length T) as K; unfold zlen in K; lia).
        assert (K : forall t, In t (zrange T) -> f [t; c] = B754_zero false) by (intros t0 H0; apply in_zrange in H0; now apply Hz). revert K. generalize (zrange T). intros l K. induction l as [|y l IH]; [reflexivity|]. cbn [length repeat map]. rewrite K by now left. f_equal. apply IH. intros. apply K. now right.
Qed.
Print Assumptions C100_unflagged.

(** ** Cases *)
Definition tsamp18 : f64 := f64_of_Z 18.
Definition foff3 : f64 := @B754_finite 53 1024 true 6755399441055744 (-71) eq_refl.
Definition eight : list f32 := map f32_of_Z [3; 0; 7; 5; 1; 250; 4; 6].
Definition grid42 : list Z -> f32 := fun i => nth (Z.to_nat (nth 0 i 0 * 2 + nth 1 i 0)) eight (f32_of_Z 0).
Lemma grid42_arr : arr_is (dense [4; 2], eight) [4; 2] grid42.
Proof.
  split; [apply dense_wf|]. split; [reflexivity|]. split.
  - change (zlen eight) with (zprod [4; 2]). apply dense_inside.
  - intros idx R. inversion R as [|? i ? r H1 R2]; subst. inversion R2 as [|? j ? r' H2 R3]; subst. inversion R3; subst.
    assert (i = 0 \/ i = 1 \/ i = 2 \/ i = 3) as [-> |[-> |[-> | ->]]] by lia; assert (j = 0 \/ j = 1) as [-> | ->] by lia; reflexivity.
Qed.
(** The hypotheses are met by four spectra of two channels, 18 s and 2.86 Hz resolution. *)
Example C100_case : arr_is (dense [4; 2], eight) [4; 2] grid42 /\ settings 4 tsamp18 foff3 (f32_of_Z 1) /\ power_samples (samples 4 grid42 0) /\ power_samples (samples 4 grid42 1).
Proof.
  split; [exact grid42_arr|]. assert (Vf : (B2R foff3 = - (3 / 1048576))%R). { unfold foff3, B2R, F2R. cbn [Fnum Fexp]. change (cond_Zopp true 6755399441055744) with (-6755399441055744). change (bpow radix2 (-71)) with (/ 2361183241434822606848)%R. lra. }
  destruct (f64_of_Z_ok 18 ltac:(lia)) as (Vt & Ft). destruct (f32_of_Z_ok 1 ltac:(lia)) as (Vd & Fd). fold tsamp18 in Vt, Ft.
  assert (lo : (bpow radix2 (-100) <= / 1048576)%R) by (change (/ 1048576)%R with (bpow radix2 (-20)); apply bpow_le; lia). assert (hi : (1024 <= bpow radix2 100)%R) by (change 1024%R with (bpow radix2 10); apply bpow_le; lia).
  split.
  - split; [exact Ft|]. split; [reflexivity|]. split; [exact Fd|]. unfold spectra. rewrite Vt, Vf, Vd, Rabs_Ropp, Rabs_pos_eq by lra. change (bpow radix2 20) with 1048576%R. repeat split; lra.
  - assert (P : forall z, 0 <= z <= 255 -> is_finite (f32_of_Z z) = true /\ (0 <= B2R (f32_of_Z z) <= bpow radix2 40)%R).
    { intros z Hz. destruct (f32_of_Z_ok z ltac:(lia)) as (V & F). split; [exact F|]. rewrite V. split; [apply IZR_le; lia|]. rewrite <- IZR_Zpower by lia. apply IZR_le. cbn. lia. }
    assert (low : forall x, (1 <= x)%R -> (bpow radix2 (-40) <= x)%R) by (intros x K; eapply Rle_trans; [|exact K]; change 1%R with (bpow radix2 0); apply bpow_le; lia).
    split; (split; [unfold samples; change (zrange 4) with [0; 1; 2; 3]; cbn [map]; unfold grid42, eight; cbn [nth Z.mul Z.add Z.to_nat map Pos.mul Pos.add Pos.to_nat Pos.iter_op Nat.add Init.Nat.add]; repeat (apply Forall_cons || apply Forall_nil); apply P; lia|]).
    + apply low. change (samples 4 grid42 0) with (map f32_of_Z [3; 7; 1; 4]). cbn [map rsum]. repeat (match goal with |- context [B2R (f32_of_Z ?z)] => rewrite (proj1 (f32_of_Z_ok z ltac:(lia))) end). lra.
    + apply low. change (samples 4 grid42 1) with (map f32_of_Z [0; 5; 250; 6]). cbn [map rsum]. repeat (match goal with |- context [B2R (f32_of_Z ?z)] => rewrite (proj1 (f32_of_Z_ok z ltac:(lia))) end). lra.
Qed.
(** Channel 1 holds a burst: it is flagged high and channel 0 is flagged low with thresholds 20 and 50. *)
Example C100_flags_case : flag_kurtosis (fun _ => f32_of_Z 0) (fun _ => 0) (dense [4; 2], eight) (dense [4; 2], [0; 1; 0; 0; 0; 0; 0; 0]) tsamp18 foff3 (f32_of_Z 50) (f32_of_Z 100) (f32_of_Z 1)
  = Ok (dense [4; 2], [2; 5; 2; 4; 2; 4; 2; 4]).
Proof. vm_compute. reflexivity. Qed.
(** The hypotheses of C100_unflagged are met by the same channel. *)
Example C100_unflagged_case : exists N, round_to_int64 (sk_ratio tsamp18 foff3) = Ok N /\ - 2 ^ 31 <= 4 * to_int32 N < 2 ^ 31.
Proof. exists 51. split; [vm_compute; reflexivity|]. vm_compute. split; [discriminate|reflexivity]. Qed.

(** C100: 'the estimate is never negative' is false in single precision: for five equal samples it is. *)
Theorem C100_negative_refuted : exists data tsamp foff d x, arr_is data [5; 1] (fun _ => f32_of_Z 1833) /\ settings 5 tsamp foff d /\
  (forall junk, channel_kurtosis junk data tsamp foff d = Ok (dense [1], [x])) /\ lt32 x (f32_of_Z 0) = true.
Proof.
  exists (dense [5; 1], repeat (f32_of_Z 1833) 5), tsamp18, foff3, (f32_of_Z 1), (column_estimate 51 5 (f32_of_Z 1) (repeat (f32_of_Z 1833) 5)).
  assert (A : arr_is (dense [5; 1], repeat (f32_of_Z 1833) 5) [5; 1] (fun _ => f32_of_Z 1833)).
  { split; [apply dense_wf|]. split; [reflexivity|]. split; [change (zlen (repeat (f32_of_Z 1833) 5)) with (zprod [5; 1]); apply dense_inside|].
    intros idx R. inversion R as [|? i ? r H1 R2]; subst. inversion R2 as [|? j ? r' H2 R3]; subst. inversion R3; subst. assert (j = 0) as -> by lia. assert (i = 0 \/ i = 1 \/ i = 2 \/ i = 3 \/ i = 4) as [-> |[-> |[-> |[-> | ->]]]] by lia; reflexivity. }
  split; [exact A|]. split; [|split; [|vm_compute; reflexivity]].
  - destruct C100_case as (_ & (H1 & H2 & H3 & H4 & H5 & H6 & H7) & _). repeat (split; [assumption|]). unfold spectra in *. destruct (f64_of_Z_ok 18 ltac:(lia)) as (Vt & Ft). fold tsamp18 in Vt. 
    assert (Vf : (B2R foff3 = - (3 / 1048576))%R). { unfold foff3, B2R, F2R. cbn [Fnum Fexp]. change (cond_Zopp true 6755399441055744) with (-6755399441055744). change (bpow radix2 (-71)) with (/ 2361183241434822606848)%R. lra. }
    rewrite Vt, Vf, Rabs_Ropp, Rabs_pos_eq by lra. lra.
  - intros junk. destruct (sk_is ops32 junk (dense [5; 1], repeat (f32_of_Z 1833) 5) 5 1 (fun _ => f32_of_Z 1833) 51 5 (f32_of_Z 1) A ltac:(lia) ltac:(lia) ltac:(lia) ltac:(lia) ltac:(lia)) as ((l, v) & Er & El & Lv & (_ & _ & _ & Hv)).
    unfold channel_kurtosis. cbn [fst l_shape dense]. change (zget [5; 1] 0) with (Ok 5). cbn [obind]. replace (round_to_int (sk_ratio tsamp18 foff3)) with (Ok 51) by (vm_compute; reflexivity). cbn [obind]. change (to_int32 5) with 5. rewrite Er. cbn [fst snd] in El, Lv, Hv. subst l.
    destruct v as [|x v]; [discriminate Lv|]. destruct v as [|y v]; [|unfold zlen in Lv; cbn [length] in Lv; change (zprod [1]) with 1 in Lv; lia].
    specialize (Hv [0] ltac:(repeat constructor; lia)). cbn [nth] in Hv. rewrite column_is in Hv. change (elt [x] (dense [1]) [0]) with (Some x) in Hv. change (samples 5 (fun _ : list Z => f32_of_Z 1833) 0) with (repeat (f32_of_Z 1833) 5) in Hv. set (w := column_estimate 51 5 (f32_of_Z 1) (repeat (f32_of_Z 1833) 5)) in *. clearbody w. injection Hv as ->. reflexivity.
Qed.
Print Assumptions C100_negative_refuted.
