(** C96: variances of float arrays. *)
From Verif Require Import RedProofs3 NdIndexFacts NdMemFacts NdProofs NdProofs2 PropRed PropTRed TypeModel DriftFloatProofs FsumModel FsumProofs2 PropFsum VarModel VarProofs.
From Coq Require Import ZifyBool Lia Reals Lra.
From Flocq Require Import Core BinarySingleNaN.
Local Open Scope Z_scope.

(** ** What is expected *)
Section Bounds.
  Local Open Scope R_scope.
  (** [w] is near the variance of [xs], as long as the mean of their squares is at most 2^125; it is infinite where the variance is too large. *)
  Definition close_variance (k : R) (xs : list f32) (w : f32) : Prop :=
    let B := slack k (INR (length xs)) (mean_square xs) in
    (mean_square xs <= bpow radix2 125 -> is_finite w = true /\ 0 <= B2R w /\ Rabs (B2R w - variance xs) <= bpow radix2 (-21) * variance xs + 2 * B + bpow radix2 (-149)) /\
    (bpow radix2 129 + B <= variance xs -> w = B754_infinity false).
  Definition variance_or_nan (xs : list f32) (w : f32) : Prop :=
    close_variance 2 xs w \/ is_nan w = true /\ variance xs < slack 2 (INR (length xs)) (mean_square xs).
End Bounds.

(** ** Facts *)
Lemma variance_of_root k xs r : moderate xs -> 1 <= zlen xs < 2 ^ 31 -> (0 <= k <= 3)%R -> rough_root k xs r -> close_variance k xs (square32 r).
Proof.
  intros Hm Hn Hk (F & _ & v & v0 & E & R). destruct (variance_nonneg xs Hm ltac:(lia)) as (V0 & VQ). destruct (mean_square_bound xs Hm ltac:(lia)) as (Q0 & _).
  assert (SQ : (slack k (INR (length xs)) (mean_square xs) <= / 2 * mean_square xs + bpow radix2 (-900))%R).
  { assert (Hc : (INR (length xs) <= bpow radix2 31)%R) by (apply count_R; unfold zlen in Hn; lia). pose proof (count_u _ Hc) as Hu. pose proof u64_small as US. pose proof u64_pos as U. unfold slack. rewrite eight_u.
    assert (K : ((INR (length xs) + k) * (8 * u64) <= / 2)%R) by nra. assert (((INR (length xs) + k) * (8 * u64) * mean_square xs <= / 2 * mean_square xs)%R) by (apply Rmult_le_compat_r; assumption). lra. }
  unfold close_variance. set (B := slack k (INR (length xs)) (mean_square xs)) in *. apply Rabs_le_inv in E. split.
  - intros QB. assert (VB : (0 <= v <= bpow radix2 126)%R).
    { split; [exact v0|]. replace (bpow radix2 126) with (2 * bpow radix2 125)%R by (change 2%R with (bpow radix2 1) at 1; rewrite <- bpow_plus; reflexivity).
      assert (bpow radix2 (-900) <= / 2 * bpow radix2 125)%R by (rewrite half_bpow; apply bpow_le; lia). lra. }
    destruct (square32_ok r v F VB R) as (W1 & W2 & W3). split; [exact W1|]. split; [exact W2|]. assert (G : (bpow radix2 (-21) <= / 2)%R) by (change (bpow radix2 (-21)) with (/ IZR 2097152)%R; lra).
    pose proof (bpow_gt_0 radix2 (-21)) as G0. set (g := bpow radix2 (-21)) in *. assert (g * v <= g * (variance xs + B))%R by (apply Rmult_le_compat_l; lra).
    assert (B0 : (0 <= B)%R) by lra. assert (g * B <= B)%R by nra. replace (B2R (square32 r) - variance xs)%R with ((B2R (square32 r) - v) + (v - variance xs))%R by ring.
    eapply Rle_trans; [apply Rabs_triang|]. assert (Rabs (v - variance xs) <= B)%R by (apply Rabs_le; lra). lra.
  - intros QB. apply (square32_over r v); [lra|exact R].
Qed.
Lemma squared_result l m axes use (P Q : list f32 -> f32 -> Prop) s junk : float_array l m axes -> float_reduced l m axes use P s -> (forall xs r, P xs r -> Q xs (square32 r)) ->
  exists os r, s = Ok (dense (out_shape axes (l_shape l)), os) /\ float_square junk (dense (out_shape axes (l_shape l))) os = Ok r /\
    float_reduced l m axes use P (Ok (dense (out_shape axes (l_shape l)), os)) /\ float_reduced l m axes use Q (Ok r).
Proof.
  intros ((Hr1 & Hr2 & Hr3 & Hr4 & Hr5) & _ & _) (os & -> & Ho & Hv) HPQ. set (sh := out_shape axes (l_shape l)) in *. assert (N : Forall (fun d => 0 <= d) sh) by (apply out_shape_nonneg; exact Hr2).
  destruct (assign_slice_correct square32 (dense sh) (dense sh) (fresh junk sh) os) as (ws & W & Lw & Hw & _).
  - apply dense_wf.
  - apply dense_wf.
  - split; [exact N|exact Hr4].
  - reflexivity.
  - rewrite fresh_length by exact N. apply dense_inside.
  - apply dense_separate.
  - rewrite Ho. apply dense_inside.
  - exists os, (dense sh, ws). split; [reflexivity|]. split; [|split].
    + unfold float_square. change (l_shape (dense sh)) with sh. unfold assign_slice in W. now rewrite W.
    + exists os. split; [reflexivity|]. split; [exact Ho|exact Hv].
    + exists ws. split; [reflexivity|]. split; [rewrite Lw; now rewrite fresh_length by exact N|]. intros o Ro. destruct (Hv o Ro) as (es & xs & v & He & Hx & Ev & HP). destruct (Hw o Ro) as (x & Ex & Ew).
      exists es, xs, (square32 v). split; [exact He|]. split; [exact Hx|]. split; [|apply HPQ, HP]. fold sh in Ev. rewrite Ev in Ex. injection Ex as ->. exact Ew.
Qed.
(** The roots, with what is known about the elements. *)
Definition counted (P : list f32 -> f32 -> Prop) (xs : list f32) (r : f32) : Prop := moderate xs /\ 1 <= zlen xs < 2 ^ 31 /\ P xs r.
Lemma counted_weaken l m axes use P s : float_reduced l m axes use (counted P) s -> float_reduced l m axes use P s.
Proof. intros (os & E & L & H). exists os. split; [exact E|]. split; [exact L|]. intros o Ro. destruct (H o Ro) as (es & xs & v & A & B & C & _ & _ & D). exists es, xs, v. auto. Qed.
Lemma counted_stddev junk l m axes : float_array l m axes -> moderate_where all_used l m -> float_reduced l m axes all_used (counted (rough_root 3)) (float_stddev junk l m axes).
Proof.
  intros H Hm. unfold float_stddev. pose proof H as (Hr & _). destruct (stddev_correct (B754_zero false : f64) (add_scaled (float_count l axes)) (add_scaled_square (float_count l axes)) scaled_deviation junk l m axes Hr) as (vs & -> & Hl & Hv).
  apply unmasked_result; [exact H|exact Hm|exact Hl|]. intros o Ho. destruct (Hv o Ho) as (es & xs & He & Hx & E). exists es, xs. eexists. split; [exact He|]. split; [exact Hx|]. split; [exact E|].
  intros Mx Nx L C. split; [exact Mx|]. split; [exact Nx|]. rewrite <- C, <- L. apply scaled_deviation_ok; assumption.
Qed.
Lemma counted_masked junk l m lm mask axes : float_array l m axes -> masks l axes lm mask -> moderate_where (unmasked lm mask) l m ->
  float_reduced l m axes (unmasked lm mask) (counted root_or_nan) (float_masked_stddev junk l m axes lm mask).
Proof. intros. apply masked_result; auto. intros xs Mx Nx. split; [exact Mx|]. split; [exact Nx|]. apply deviation64_ok; assumption. Qed.
Lemma unmasked_variance xs r : counted (rough_root 3) xs r -> close_variance 3 xs (square32 r).
Proof. intros (M & N & R). apply variance_of_root; auto. lra. Qed.
Lemma masked_variance xs r : counted root_or_nan xs r -> variance_or_nan xs (square32 r).
Proof.
  intros (M & N & [R|(R & V)]); [left; apply variance_of_root; auto; lra|right]. split; [|exact V]. destruct r; try discriminate R. reflexivity.
Qed.

(** ** Properties *)
Theorem C96_var : forall junk1 junk2 l m axes, float_array l m axes -> moderate_where all_used l m -> float_reduced l m axes all_used (close_variance 3) (float_var junk1 junk2 l m axes).
Proof.
  intros junk1 junk2 l m axes H Hm. destruct (squared_result l m axes all_used _ (close_variance 3) _ junk2 H (counted_stddev junk1 l m axes H Hm) unmasked_variance) as (os & r & E & W & _ & Q).
  unfold float_var. rewrite E. cbn [obind fst snd]. rewrite W. exact Q.
Qed.
Print Assumptions C96_var.
Theorem C96_masked_var : forall junk1 junk2 l m lm mask axes, float_array l m axes -> masks l axes lm mask -> moderate_where (unmasked lm mask) l m ->
  float_reduced l m axes (unmasked lm mask) variance_or_nan (float_masked_var junk1 junk2 l m axes lm mask).
Proof.
  intros junk1 junk2 l m lm mask axes H HM Hm. destruct (squared_result l m axes (unmasked lm mask) _ variance_or_nan _ junk2 H (counted_masked junk1 l m lm mask axes H HM Hm) masked_variance) as (os & r & E & W & _ & Q).
  unfold float_masked_var. rewrite E. cbn [obind fst snd]. rewrite W. exact Q.
Qed.
Print Assumptions C96_masked_var.
(** The array that is passed for the result receives the standard deviations; the variances are returned in another. *)
Theorem C96_var_into : forall out0 junk l m axes, float_array l m axes -> moderate_where all_used l m -> exists out r,
  float_var_into out0 junk l m axes = Ok (out, r) /\ float_reduced l m axes all_used (close_variance 3) (Ok r) /\
  float_reduced l m axes all_used (rough_root 3) (Ok (dense (out_shape axes (l_shape l)), out)).
Proof.
  intros out0 junk l m axes H Hm. destruct (squared_result l m axes all_used _ (close_variance 3) _ junk H (counted_stddev out0 l m axes H Hm) unmasked_variance) as (os & r & E & W & S & Q).
  exists os, r. unfold float_var_into. rewrite E. cbn [obind fst snd]. rewrite W. split; [reflexivity|]. split; [exact Q|]. exact (counted_weaken _ _ _ _ _ _ S).
Qed.
Print Assumptions C96_var_into.
Theorem C96_masked_var_into : forall out0 junk l m lm mask axes, float_array l m axes -> masks l axes lm mask -> moderate_where (unmasked lm mask) l m -> exists out r,
  float_masked_var_into out0 junk l m axes lm mask = Ok (out, r) /\ float_reduced l m axes (unmasked lm mask) variance_or_nan (Ok r) /\
  float_reduced l m axes (unmasked lm mask) root_or_nan (Ok (dense (out_shape axes (l_shape l)), out)).
Proof.
  intros out0 junk l m lm mask axes H HM Hm. destruct (squared_result l m axes (unmasked lm mask) _ variance_or_nan _ junk H (counted_masked out0 l m lm mask axes H HM Hm) masked_variance) as (os & r & E & W & S & Q).
  exists os, r. unfold float_masked_var_into. rewrite E. cbn [obind fst snd]. rewrite W. split; [reflexivity|]. split; [exact Q|]. exact (counted_weaken _ _ _ _ _ _ S).
Qed.
Print Assumptions C96_masked_var_into.
(** "The array passed for the result holds the variances" is false. *)
Theorem C96_out_refuted : exists l m axes, (float_array l m axes /\ moderate_where all_used l m) /\ exists out0 junk,
  (let! x := float_var_into out0 junk l m axes in Ok (ints_of (Ok (fst (snd x), fst x)), ints_of (Ok (snd x)))) = Ok (Ok [Some 1247; Some 3265], Ok [Some 1555; Some 10666]).
Proof. exists c91_layout, c91_data, [1]. destruct C91_case as (A & _ & B & _). split; [auto|]. exists nojunk32, nojunk32. vm_compute. reflexivity. Qed.
Print Assumptions C96_out_refuted.
(** Where the masked deviation is NaN, so is the masked variance; "the variance of equal elements is about zero" is false. *)
Theorem C96_masked_nan_refuted : exists l m lm mask,
  (float_array l m [] /\ masks l [] lm mask /\ moderate_where (unmasked lm mask) l m) /\ (forall x y, In x m -> In y m -> x = y) /\
  forall junk1 junk2, exists r, float_masked_var junk1 junk2 l m [] lm mask = Ok (dense [1], [r]) /\ is_nan r = true.
Proof.
  destruct C91_masked_stddev_refuted as (l & m & lm & mask & (A & B & C) & D & E). exists l, m, lm, mask. split; [auto|]. split; [exact D|]. intros junk1 junk2. destruct (E junk1) as (r & R & N).
  unfold float_masked_var. rewrite R. cbn [obind fst snd]. exists (square32 r). destruct r; try discriminate N. split; reflexivity.
Qed.
Print Assumptions C96_masked_nan_refuted.
(** Where the deviation is a number but the variance is not. *)
Definition c96_far : mem f32 := [@B754_finite 24 128 false 8388608 60 eq_refl; @B754_finite 24 128 true 8388608 60 eq_refl].
Example C96_overflow_case : moderate c96_far /\ (bpow radix2 129 + slack 3 (INR (length c96_far)) (mean_square c96_far) <= variance c96_far)%R.
Proof.
  assert (V : vals c96_far = [bpow radix2 83; - bpow radix2 83]%R).
  { unfold vals, c96_far. cbn [map B2R]. unfold F2R. cbn [Fnum Fexp cond_Zopp]. change (IZR (Z.pos 8388608)) with (bpow radix2 23). change (IZR (Z.neg 8388608)) with (- bpow radix2 23)%R.
    change (IZR (- Z.pos 8388608)) with (- bpow radix2 23)%R. rewrite Ropp_mult_distr_l_reverse, <- bpow_plus. reflexivity. }
  split.
  - unfold moderate. assert (Q : forall x, In x (vals c96_far) -> (Rabs x <= bpow radix2 126)%R).
    { rewrite V. intros x [<-|[<-|[]]]; rewrite ?Rabs_Ropp, Rabs_pos_eq by apply bpow_ge_0; apply bpow_le; lia. }
    repeat (apply Forall_cons || apply Forall_nil); (split; [reflexivity|]); apply Q; unfold vals; cbn [map c96_far]; [now left|right; now left].
  - unfold variance, slack, mean_square, rmean. rewrite V. change (length c96_far) with 2%nat. cbn [map]. rewrite !rsum_cons, !rsum_nil. change (INR 2) with 2%R.
    replace (bpow radix2 83 * bpow radix2 83)%R with (bpow radix2 166) by (rewrite <- bpow_plus; reflexivity). replace (- bpow radix2 83 * - bpow radix2 83)%R with (bpow radix2 166) by (replace 166%Z with (83 + 83)%Z by lia; rewrite bpow_plus; ring).
    assert (bpow radix2 129 <= bpow radix2 163)%R by (apply bpow_le; lia). assert (bpow radix2 (-900) <= bpow radix2 163)%R by (apply bpow_le; lia).
    assert (S : (bpow radix2 (-50) <= / 100)%R) by (change (bpow radix2 (-50)) with (/ IZR 1125899906842624)%R; lra). pose proof (bpow_gt_0 radix2 (-50)).
    replace (bpow radix2 166) with (8 * bpow radix2 163)%R by (change 8%R with (bpow radix2 3); rewrite <- bpow_plus; reflexivity). pose proof (bpow_gt_0 radix2 163). set (b := bpow radix2 163) in *. set (c := bpow radix2 (-50)) in *.
    replace ((bpow radix2 83 + (- bpow radix2 83 + 0)) / 2)%R with 0%R by field. assert (c * b <= / 100 * b)%R by (apply Rmult_le_compat_r; lra). lra.
Qed.
Example C96_case : float_array c91_layout c91_data [1] /\ masks c91_layout [1] c91_layout c91_mask /\ moderate_where all_used c91_layout c91_data /\ moderate_where (unmasked c91_layout c91_mask) c91_layout c91_data /\
  ints_of (float_var nojunk32 nojunk32 c91_layout c91_data [1]) = Ok [Some 1555; Some 10666] /\
  ints_of (float_masked_var nojunk32 nojunk32 c91_layout c91_data [1] c91_layout c91_mask) = Ok [Some 250; Some 4000].
Proof. destruct C91_case as (A & B & C & D & _). do 4 (split; [assumption|]). vm_compute. split; reflexivity. Qed.
(** The bounds apply to 3, 4 and 5. *)
Example C96_bound_case : let xs := map f32_of_Z [3; 4; 5] in moderate xs /\ 1 <= zlen xs < 2 ^ 31 /\ (mean_square xs <= bpow radix2 125)%R /\ (slack 2 (INR (length xs)) (mean_square xs) < variance xs)%R.
Proof.
  destruct C91_root_case as (A & B & C). cbv zeta in *. split; [exact A|]. split; [exact B|]. split; [|exact C].
  assert (V : vals (map f32_of_Z [3; 4; 5]) = [3; 4; 5]%R). { unfold vals. cbn [map]. rewrite (proj1 (f32_of_Z_ok 3 ltac:(lia))), (proj1 (f32_of_Z_ok 4 ltac:(lia))), (proj1 (f32_of_Z_ok 5 ltac:(lia))). reflexivity. }
  unfold mean_square. rewrite V, map_length. cbn [length map INR]. rewrite !rsum_cons, !rsum_nil. apply Rle_trans with (bpow radix2 10); [|apply bpow_le; lia]. change (bpow radix2 10) with 1024%R. lra.
Qed.
