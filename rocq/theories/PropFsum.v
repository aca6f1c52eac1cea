(** C91: rounding errors of sums, means and standard deviations of float arrays. *)
From Verif Require Import RedProofs3 NdIndexFacts NdMemFacts NdProofs NdProofs2 PropRed PropTRed.
From Verif Require Import TypeModel DriftFloatProofs FsumModel FsumProofs2.
From Coq Require Import ZifyBool Lia Reals Lra.
From Flocq Require Import Core BinarySingleNaN.
Local Open Scope Z_scope.

(** ** What is expected *)
(** An array none of whose dimensions is empty, of less than 2^31 elements, and axes that it has. *)
Definition float_array (l : layout) (m : mem f32) (axes : list Z) : Prop :=
  red_hyps m l axes /\ Forall (fun d => 0 < d) (l_shape l) /\ zprod (l_shape l) < 2 ^ 31.
(** The elements that are used are numbers of magnitude at most 2^126. *)
Definition moderate_where (use : list Z -> bool) (l : layout) (m : mem f32) : Prop :=
  forall idx x, in_range (l_shape l) idx -> use idx = true -> elt m l idx = Some x -> is_finite x = true /\ (Rabs (B2R x) <= bpow radix2 126)%R.
(** [r] has one element for each index [o] that is left, related by [P] to the elements that [use] selects among those reduced to it. *)
Definition float_reduced {V} (l : layout) (m : mem f32) (axes : list Z) (use : list Z -> bool) (P : list f32 -> V -> Prop) (r : outcome (layout * mem V)) : Prop :=
  exists vs, r = Ok (dense (out_shape axes (l_shape l)), vs) /\ zlen vs = zprod (out_shape axes (l_shape l)) /\
    forall o, in_range (out_shape axes (l_shape l)) o -> exists es xs v,
      enumerates (l_shape l) axes o es /\ reads m l (filter use es) xs /\ elt vs (dense (out_shape axes (l_shape l))) o = Some v /\ P xs v.
Definition masks (l : layout) (axes : list Z) (lm : layout) (mask : mem Z) : Prop :=
  l_shape l = l_shape lm /\ (forall idx, in_range (l_shape l) idx -> cell lm idx = cell l idx) /\ inside lm (zlen mask) /\
  forall o, in_range (out_shape axes (l_shape l)) o -> exists idx, in_range (l_shape l) idx /\ out_index axes idx = o /\ elt mask lm idx = Some 0.
Section Bounds.
  Local Open Scope R_scope.
  (** The exact mean of [xs] is [rmean xs]; [magnitude xs] is the mean of their absolute values. *)
  Definition close_mean (k : R) (xs : list f32) (r : f32) : Prop := is_finite r = true /\
    Rabs (B2R r - rmean xs) <= bpow radix2 (-24) * Rabs (rmean xs) + (INR (length xs) + k) * bpow radix2 (-51) * magnitude xs + bpow radix2 (-149).
  (** A deviation is that of [rough_root], unless it is NaN; and this only where the variance is within the error of zero. *)
  Definition root_or_nan (xs : list f32) (r : f32) : Prop :=
    rough_root 2 xs r \/ is_nan r = true /\ variance xs < slack 2 (INR (length xs)) (mean_square xs).
  Definition close_sum (xs : list f32) (r : f32) : Prop :=
    (zlen xs <= 2 ^ 23)%Z -> rabs (vals xs) < bpow radix2 127 -> is_finite r = true /\ Rabs (B2R r - rsum (vals xs)) <= INR (length xs) * bpow radix2 (-23) * rabs (vals xs).
End Bounds.

(** ** Facts *)
Lemma reads_moderate use l m es xs : moderate_where use l m -> (forall idx, In idx es -> in_range (l_shape l) idx /\ use idx = true) -> reads m l es xs -> moderate xs.
Proof.
  intros Hm Hi H. induction H as [|idx x es xs Hx H IH]; [constructor|]. constructor; [|apply IH; intros; apply Hi; now right]. destruct (Hi idx (or_introl eq_refl)) as (R & U). exact (Hm idx x R U Hx).
Qed.
Lemma used_in l axes o es use : enumerates (l_shape l) axes o es -> forall idx, In idx (filter use es) -> in_range (l_shape l) idx /\ use idx = true.
Proof. intros (_ & He) idx Hi. apply filter_In in Hi as (Hi & U). apply He in Hi. tauto. Qed.
Lemma reads_zlen {A} (m : mem A) l es xs : reads m l es xs -> zlen xs = zlen es.
Proof. intros H. unfold zlen. f_equal. induction H; cbn [length]; congruence. Qed.
Lemma masked_count l axes lm mask o es : masks l axes lm mask -> in_range (out_shape axes (l_shape l)) o -> enumerates (l_shape l) axes o es ->
  1 <= zlen (filter (unmasked lm mask) es) <= zlen es.
Proof.
  intros (_ & _ & _ & Hu) Ho (N & He). destruct (Hu o Ho) as (idx & R & O & E). split.
  - assert (I : In idx (filter (unmasked lm mask) es)) by (apply filter_In; split; [now apply He|unfold unmasked; now rewrite E]).
    destruct (filter _ es); [destruct I|]. unfold zlen. cbn [length]. lia.
  - clear. induction es as [|e es IH]; cbn [filter]; [reflexivity|]. destruct (unmasked lm mask e); unfold zlen in *; cbn [length]; lia.
Qed.
Lemma unmasked_result {V} l m axes (P : list f32 -> V -> Prop) vs : float_array l m axes -> moderate_where all_used l m -> zlen vs = zprod (out_shape axes (l_shape l)) ->
  (forall o, in_range (out_shape axes (l_shape l)) o -> exists es xs v, enumerates (l_shape l) axes o es /\ reads m l es xs /\ elt vs (dense (out_shape axes (l_shape l))) o = Some v /\
     (moderate xs -> 1 <= zlen xs < 2 ^ 31 -> zlen xs = zlen es -> zlen es = float_count l axes -> P xs v)) ->
  float_reduced l m axes all_used P (Ok (dense (out_shape axes (l_shape l)), vs)).
Proof.
  intros (Hr & Hp & Hb) Hm Hl H. exists vs. split; [reflexivity|]. split; [exact Hl|]. intros o Ho. destruct (H o Ho) as (es & xs & v & He & Hx & E & Hv). exists es, xs, v. split; [exact He|].
  assert (Fe : filter all_used es = es) by apply filter_all. rewrite Fe. split; [exact Hx|]. split; [exact E|].
  destruct (enumerated_count _ _ _ _ (proj1 (proj2 (proj2 Hr))) Hp Hb Ho He) as (N & C). pose proof (reads_zlen _ _ _ _ Hx) as L. apply Hv.
  - apply (reads_moderate all_used l m es); [exact Hm| |exact Hx]. rewrite <- Fe. apply (used_in l axes o). exact He.
  - lia.
  - exact L.
  - rewrite C. unfold float_count. change (zlen (l_shape l)) with (ndim l). unfold all_if_nil. destruct axes; reflexivity.
Qed.
Lemma masked_result {V D} (zero : D) (add : D -> f32 -> D) (fin : D -> Z -> V) junk l m lm mask axes (P : list f32 -> V -> Prop) :
  float_array l m axes -> masks l axes lm mask -> moderate_where (unmasked lm mask) l m ->
  (forall xs, moderate xs -> 1 <= zlen xs < 2 ^ 31 -> P xs (fin (fold_left add xs zero) (zlen xs))) ->
  float_reduced l m axes (unmasked lm mask) P (nd_masked zero add fin junk l m lm mask axes).
Proof.
  intros (Hr & Hp & Hb) HM Hm H. pose proof HM as (M1 & M2 & M3 & M4). destruct (C10_masked _ _ _ zero add fin junk l m lm mask axes Hr M1 M2 M3) as (C & _). destruct (C M4) as (vs & E & Hl & Hv).
  exists vs. split; [exact E|]. split; [exact Hl|]. intros o Ho. destruct (Hv o Ho) as (es & xs & He & Hx & Ee). exists es, xs. eexists. split; [exact He|]. split; [exact Hx|]. split; [exact Ee|].
  destruct (enumerated_count _ _ _ _ (proj1 (proj2 (proj2 Hr))) Hp Hb Ho He) as (N & _). pose proof (reads_zlen _ _ _ _ Hx) as L. pose proof (masked_count _ _ _ _ _ _ HM Ho He) as U. apply H.
  - apply (reads_moderate (unmasked lm mask) l m (filter (unmasked lm mask) es)); [exact Hm| |exact Hx]. apply (used_in l axes o). exact He.
  - fold (unmasked lm mask) in L. lia.
Qed.

(** ** Means *)
Theorem C91_mean : forall junk l m axes, float_array l m axes -> moderate_where all_used l m -> float_reduced l m axes all_used (close_mean 1) (float_mean junk l m axes).
Proof.
  intros junk l m axes H Hm. unfold float_mean. pose proof H as (Hr & _). destruct (mean_correct (B754_zero false : f64) add64 mean64 junk l m axes Hr) as (vs & -> & Hl & Hv).
  apply unmasked_result; [exact H|exact Hm|exact Hl|]. intros o Ho. destruct (Hv o Ho) as (es & xs & He & Hx & E). exists es, xs. eexists. split; [exact He|]. split; [exact Hx|]. split; [exact E|].
  intros Mx Nx L _. rewrite <- L. apply mean64_ok; assumption.
Qed.
Print Assumptions C91_mean.
Theorem C91_masked_mean : forall junk l m lm mask axes, float_array l m axes -> masks l axes lm mask -> moderate_where (unmasked lm mask) l m ->
  float_reduced l m axes (unmasked lm mask) (close_mean 1) (float_masked_mean junk l m axes lm mask).
Proof. intros. apply masked_result; auto. intros xs Mx Nx. apply mean64_ok; assumption. Qed.
Print Assumptions C91_masked_mean.

(** ** Standard deviations *)
Theorem C91_stddev : forall junk l m axes, float_array l m axes -> moderate_where all_used l m -> float_reduced l m axes all_used (rough_root 3) (float_stddev junk l m axes).
Proof.
  intros junk l m axes H Hm. unfold float_stddev. pose proof H as (Hr & _). destruct (stddev_correct (B754_zero false : f64) (add_scaled (float_count l axes)) (add_scaled_square (float_count l axes)) scaled_deviation junk l m axes Hr) as (vs & -> & Hl & Hv).
  apply unmasked_result; [exact H|exact Hm|exact Hl|]. intros o Ho. destruct (Hv o Ho) as (es & xs & He & Hx & E). exists es, xs. eexists. split; [exact He|]. split; [exact Hx|]. split; [exact E|].
  intros Mx Nx L C. rewrite <- C, <- L. apply scaled_deviation_ok; assumption.
Qed.
Print Assumptions C91_stddev.
Theorem C91_mean_stddev : forall junk l m axes, float_array l m axes -> moderate_where all_used l m ->
  float_reduced l m axes all_used (fun xs r => close_mean 3 xs (fst r) /\ rough_root 3 xs (snd r)) (float_both l m axes junk).
Proof.
  intros junk l m axes H Hm. unfold float_both. pose proof H as (Hr & _).
  destruct (stddev_correct (B754_zero false : f64) (add_scaled (float_count l axes)) (add_scaled_square (float_count l axes)) (fun s1 s2 => (narrow s1, scaled_deviation s1 s2)) junk l m axes Hr) as (vs & -> & Hl & Hv).
  apply unmasked_result; [exact H|exact Hm|exact Hl|]. intros o Ho. destruct (Hv o Ho) as (es & xs & He & Hx & E). exists es, xs. eexists. split; [exact He|]. split; [exact Hx|]. split; [exact E|].
  intros Mx Nx L C. rewrite <- C, <- L. cbn [fst snd]. split; [apply scaled_mean_ok; assumption|apply scaled_deviation_ok; assumption].
Qed.
Print Assumptions C91_mean_stddev.
Theorem C91_masked_stddev : forall junk l m lm mask axes, float_array l m axes -> masks l axes lm mask -> moderate_where (unmasked lm mask) l m ->
  float_reduced l m axes (unmasked lm mask) root_or_nan (float_masked_stddev junk l m axes lm mask).
Proof. intros. apply masked_result; auto. intros xs Mx Nx. apply deviation64_ok; assumption. Qed.
Print Assumptions C91_masked_stddev.
Theorem C91_masked_mean_stddev : forall junk l m lm mask axes, float_array l m axes -> masks l axes lm mask -> moderate_where (unmasked lm mask) l m ->
  float_reduced l m axes (unmasked lm mask) (fun xs r => close_mean 1 xs (fst r) /\ root_or_nan xs (snd r)) (float_masked_both l m axes junk lm mask).
Proof.
  intros. apply masked_result; auto. intros xs Mx Nx. cbn [fst snd]. split; [|apply deviation64_ok; assumption].
  pose proof (mean64_ok xs Mx Nx) as Q. cbv zeta in Q. rewrite fold_add64 in Q. rewrite fold_both. exact Q.
Qed.
Print Assumptions C91_masked_mean_stddev.
(** What this means for the standard deviation itself. *)
Theorem C91_stddev_error : forall k xs r, moderate xs -> 1 <= zlen xs -> rough_root k xs r ->
  let B := slack k (INR (length xs)) (mean_square xs) in let sigma := sqrt (variance xs) in
  (Rabs (B2R r - sigma) <= bpow radix2 (-23) * (sigma + sqrt B) + sqrt B + bpow radix2 (-149) /\
   (0 < variance xs -> Rabs (B2R r - sigma) <= bpow radix2 (-23) * (sigma + B / sigma) + B / sigma + bpow radix2 (-149)))%R.
Proof. exact rough_root_bound. Qed.
Print Assumptions C91_stddev_error.

(** The masked deviation of equal elements may be NaN. *)
Definition constant : f32 := @B754_finite 24 128 false 11780113 (-23) eq_refl.
Definition constant_data : mem f32 := repeat constant 65.
Definition constant_layout : layout := dense [65].
Definition no_mask : mem Z := repeat 0 65.
Lemma all_equal {A} (c : A) xs : Forall (fun x => x = c) xs -> xs = repeat c (length xs).
Proof. induction 1 as [|x xs -> H IH]; [reflexivity|]. cbn [length repeat]. congruence. Qed.
Lemma reads_from {A} (m : mem A) l es xs c : (forall x, In x m -> x = c) -> reads m l es xs -> xs = repeat c (length xs).
Proof.
  intros Hc H. apply all_equal. induction H as [|idx x es xs Hx H IH]; constructor; [|exact IH]. apply Hc. unfold elt, znth in Hx. destruct (cell l idx <? 0); [discriminate|]. now apply nth_error_In in Hx.
Qed.
Lemma constant_array : float_array constant_layout constant_data [] /\ masks constant_layout [] constant_layout no_mask /\ moderate_where (unmasked constant_layout no_mask) constant_layout constant_data.
Proof.
  assert (In : inside constant_layout 65). { intros idx R. inversion R as [|? i ? r Hi R']; subst. inversion R'; subst. unfold cell, constant_layout. cbn. lia. }
  split; [|split].
  - split; [|split; [repeat (apply Forall_cons || apply Forall_nil); lia|reflexivity]].
    split; [split; reflexivity|]. split; [repeat (apply Forall_cons || apply Forall_nil); lia|]. split; [split; [constructor|constructor]|]. split; [reflexivity|exact In].
  - split; [reflexivity|]. split; [reflexivity|]. split; [exact In|]. intros o R. exists [0]. split; [repeat (apply Forall2_cons || apply Forall2_nil); lia|].
    split; [|reflexivity]. change (out_shape [] (l_shape constant_layout)) with [1] in R. inversion R as [|? i ? r Hi R']; subst. inversion R'; subst. replace i with 0 by lia. reflexivity.
  - intros idx x R U E. assert (X : x = constant). { unfold elt, znth in E. destruct (cell constant_layout idx <? 0); [discriminate|]. apply nth_error_In in E. now apply repeat_spec in E. }
    subst x. split; [reflexivity|]. apply Rle_trans with (bpow radix2 24 * bpow radix2 (-23))%R; [|rewrite <- bpow_plus; apply bpow_le; lia].
    unfold constant. cbn [B2R]. unfold F2R. cbn [Fnum Fexp]. rewrite Rabs_mult, (Rabs_pos_eq (bpow _ _)) by apply bpow_ge_0. apply Rmult_le_compat_r; [apply bpow_ge_0|].
    rewrite Rabs_pos_eq by (apply IZR_le; cbn; lia). rewrite <- (IZR_pow2 24) by lia. apply IZR_le. cbn. lia.
Qed.
Lemma some_inj {A} (a b : A) : Some a = Some b -> a = b. Proof. congruence. Qed.
Lemma constant_nan : is_nan (deviation64 (fold_left add_both (repeat constant 65) (B754_zero false, B754_zero false)) (zlen (repeat constant 65))) = true.
Proof. vm_compute. reflexivity. Qed.
Theorem C91_masked_stddev_refuted : exists l m lm mask,
  (float_array l m [] /\ masks l [] lm mask /\ moderate_where (unmasked lm mask) l m) /\ (forall x y, In x m -> In y m -> x = y) /\
  forall junk, exists r, float_masked_stddev junk l m [] lm mask = Ok (dense [1], [r]) /\ is_nan r = true.
Proof.
  exists constant_layout, constant_data, constant_layout, no_mask. split; [exact constant_array|]. split; [intros x y Hx Hy; apply repeat_spec in Hx, Hy; congruence|].
  intros junk. destruct constant_array as (H & HM & _). pose proof H as (Hr & Hp & Hb). pose proof HM as (M1 & M2 & M3 & M4).
  destruct (C10_masked _ _ _ (B754_zero false : f64, B754_zero false : f64) add_both deviation64 junk constant_layout constant_data constant_layout no_mask [] Hr M1 M2 M3) as (C & _). destruct (C M4) as (vs & E & Hl & Hv).
  assert (R0 : in_range (out_shape [] (l_shape constant_layout)) [0]) by (change (out_shape [] (l_shape constant_layout)) with [1]; repeat (apply Forall2_cons || apply Forall2_nil); lia).
  destruct (Hv [0] R0) as (es & xs & He & Hx & Ee). fold (unmasked constant_layout no_mask) in Hx.
  assert (Fu : filter (unmasked constant_layout no_mask) es = es).
  { destruct He as (_ & He). assert (Q : forall idx, In idx es -> unmasked constant_layout no_mask idx = true).
    { intros idx Hi. apply He in Hi as (R & _). pose proof (M3 idx R) as Q. unfold unmasked, elt, znth. destruct (cell constant_layout idx <? 0) eqn:N; [lia|]. destruct (nth_error no_mask (Z.to_nat (cell constant_layout idx))) as [b|] eqn:B.
      - apply nth_error_In, repeat_spec in B. subst. reflexivity.
      - apply nth_error_None in B. unfold zlen in Q. lia. }
    clear - Q. induction es as [|e es IH]; [reflexivity|]. cbn [filter]. rewrite (Q e) by now left. f_equal. apply IH. intros idx Hi. apply Q. now right. }
  rewrite Fu in Hx. destruct (enumerated_count _ _ _ _ (proj1 (proj2 (proj2 Hr))) Hp Hb R0 He) as (_ & N). pose proof (reads_zlen _ _ _ _ Hx) as L. rewrite N in L. change (zlen xs = 65) in L.
  pose proof (reads_from _ _ _ _ constant (fun x Hi => repeat_spec 65 constant x Hi) Hx) as X. unfold zlen in L. replace (length xs) with 65%nat in X by lia. subst xs.
  change (zlen vs = 1) in Hl. destruct vs as [|r [|? ?]]; unfold zlen in Hl; cbn [length] in Hl; try lia. exists r. split; [exact E|]. change (Some r = Some (deviation64 (fold_left add_both (repeat constant 65) (B754_zero false, B754_zero false)) (zlen (repeat constant 65)))) in Ee.
  apply some_inj in Ee. rewrite Ee. exact constant_nan.
Qed.
Print Assumptions C91_masked_stddev_refuted.

(** ** Sums *)
Theorem C91_sum : forall junk l m axes, float_array l m axes -> moderate_where all_used l m -> float_reduced l m axes all_used close_sum (float_sum junk l m axes).
Proof.
  intros junk l m axes H Hm. unfold float_sum. pose proof H as (Hr & _). destruct (sum_correct (B754_zero false : f32) (Bplus mode_NE) junk l m axes Hr) as (vs & -> & Hl & Hv).
  apply unmasked_result; [exact H|exact Hm|exact Hl|]. intros o Ho. destruct (Hv o Ho) as (es & xs & He & Hx & E). exists es, xs. eexists. split; [exact He|]. split; [exact Hx|]. split; [exact E|].
  intros Mx Nx L _ N B. apply sum32_ok; [now apply moderate_finite|exact N|exact B].
Qed.
Print Assumptions C91_sum.
(** Ones are counted only up to 2^24. *)
Theorem C91_sum_refuted : forall junk l m axes, float_array l m axes -> (forall x, In x m -> x = f32_of_Z 1) ->
  exists vs, float_sum junk l m axes = Ok (dense (out_shape axes (l_shape l)), vs) /\
    forall o, in_range (out_shape axes (l_shape l)) o -> exists es v, enumerates (l_shape l) axes o es /\ elt vs (dense (out_shape axes (l_shape l))) o = Some v /\ is_finite v = true /\ B2R v = IZR (Z.min (zlen es) (2 ^ 24)).
Proof.
  intros junk l m axes H H1. unfold float_sum. pose proof H as (Hr & _). destruct (sum_correct (B754_zero false : f32) (Bplus mode_NE) junk l m axes Hr) as (vs & -> & Hl & Hv).
  exists vs. split; [reflexivity|]. intros o Ho. destruct (Hv o Ho) as (es & xs & He & Hx & E). exists es. eexists. split; [exact He|]. split; [exact E|]. rewrite (reads_from _ _ _ _ _ H1 Hx). fold one32. rewrite ones_sum.
  pose proof (reads_zlen _ _ _ _ Hx) as L. unfold zlen in L |- *. rewrite L. destruct (f32_of_Z_ok (Z.min (Z.of_nat (length es)) (2 ^ 24)) ltac:(lia)) as (V & F). auto.
Qed.
Print Assumptions C91_sum_refuted.

(** ** Cases *)
Definition c91_data : mem f32 := map f32_of_Z [3; 1; 4; 1; 5; 9].
Definition c91_layout : layout := dense [2; 3].
Definition c91_mask : mem Z := [0; 1; 0; 0; 0; 7].
Definition ints_of (r : outcome (layout * mem f32)) : outcome (list (option Z)) := let! x := r in Ok (map (fun v => trunc_Z (Bmult mode_NE (widen v) (f64_of_Z 1000))) (snd x)).
Definition nojunk32 : Z -> f32 := fun _ => B754_nan.
Example C91_case : float_array c91_layout c91_data [1] /\ masks c91_layout [1] c91_layout c91_mask /\ moderate_where all_used c91_layout c91_data /\ moderate_where (unmasked c91_layout c91_mask) c91_layout c91_data /\
  ints_of (float_sum nojunk32 c91_layout c91_data [1]) = Ok [Some 8000; Some 15000] /\ ints_of (float_mean nojunk32 c91_layout c91_data [1]) = Ok [Some 2666; Some 5000] /\
  ints_of (float_stddev nojunk32 c91_layout c91_data [1]) = Ok [Some 1247; Some 3265] /\ ints_of (float_masked_mean nojunk32 c91_layout c91_data [1] c91_layout c91_mask) = Ok [Some 3500; Some 3000] /\
  ints_of (float_masked_stddev nojunk32 c91_layout c91_data [1] c91_layout c91_mask) = Ok [Some 500; Some 2000].
Proof.
  assert (In : inside c91_layout 6). { intros idx R. inversion R as [|? i ? r Hi R']; subst. inversion R' as [|? j ? r' Hj R'']; subst. inversion R''; subst. unfold cell, c91_layout. cbn. lia. }
  assert (M : forall use, moderate_where use c91_layout c91_data).
  { intros use idx x R _ E. assert (X : exists z, 0 <= z <= 9 /\ x = f32_of_Z z).
    { unfold elt, znth in E. destruct (cell c91_layout idx <? 0); [discriminate|]. apply nth_error_In in E. unfold c91_data in E. apply in_map_iff in E as (z & <- & Hz). exists z. split; [|reflexivity]. cbn in Hz. lia. }
    destruct X as (z & Hz & ->). destruct (f32_of_Z_ok z ltac:(lia)) as (V & F). split; [exact F|]. rewrite V, Rabs_pos_eq by (apply IZR_le; lia). apply Rle_trans with (bpow radix2 4); [|apply bpow_le; lia]. rewrite <- (IZR_pow2 4) by lia. apply IZR_le. lia. }
  split; [|split; [|split; [apply M|split; [apply M|vm_compute; repeat split; reflexivity]]]].
  - split; [|split; [repeat (apply Forall_cons || apply Forall_nil); lia|reflexivity]].
    split; [split; reflexivity|]. split; [repeat (apply Forall_cons || apply Forall_nil); lia|]. split; [|split; [reflexivity|exact In]].
    split; [constructor; [intros []|constructor]|]. constructor; [cbn; repeat split; try lia|constructor].
  - split; [reflexivity|]. split; [reflexivity|]. split; [exact In|]. intros o R. change (out_shape _ _) with [2] in R. inversion R as [|? i ? r Hi R']; subst. inversion R'; subst. exists [i; 0]. split; [repeat (apply Forall2_cons || apply Forall2_nil); cbn; lia|].
    split; [reflexivity|]. assert (i = 0 \/ i = 1) as [-> | ->] by lia; reflexivity.
Qed.
(** The bounds apply: the variance of 3, 4 and 5 exceeds what could make the masked deviation NaN. *)
Example C91_root_case : let xs := map f32_of_Z [3; 4; 5] in moderate xs /\ 1 <= zlen xs < 2 ^ 31 /\ (slack 2 (INR (length xs)) (mean_square xs) < variance xs)%R.
Proof.
  assert (V : vals (map f32_of_Z [3; 4; 5]) = [3; 4; 5]%R). { unfold vals. cbn [map]. rewrite (proj1 (f32_of_Z_ok 3 ltac:(lia))), (proj1 (f32_of_Z_ok 4 ltac:(lia))), (proj1 (f32_of_Z_ok 5 ltac:(lia))). reflexivity. }
  cbv zeta. split; [|split; [unfold zlen; cbn; lia|]].
  - unfold moderate. apply Forall_map. assert (Q : forall z, 0 <= z <= 9 -> is_finite (f32_of_Z z) = true /\ (Rabs (B2R (f32_of_Z z)) <= bpow radix2 126)%R).
    { intros z Hz. destruct (f32_of_Z_ok z ltac:(lia)) as (W & F). split; [exact F|]. rewrite W, Rabs_pos_eq by (apply IZR_le; lia). apply Rle_trans with (bpow radix2 4); [|apply bpow_le; lia]. rewrite <- (IZR_pow2 4) by lia. apply IZR_le. lia. }
    repeat (apply Forall_cons || apply Forall_nil); apply Q; lia.
  - unfold variance, slack, mean_square, rmean. rewrite V. rewrite map_length. cbn [length map INR]. rewrite !rsum_cons, !rsum_nil.
    assert (S : (bpow radix2 (-50) <= / 1000000)%R) by (change (bpow radix2 (-50)) with (/ IZR 1125899906842624)%R; lra).
    assert (T : (bpow radix2 (-900) <= bpow radix2 (-50))%R) by (apply bpow_le; lia). pose proof (bpow_gt_0 radix2 (-50)). set (b := bpow radix2 (-50)) in *. lra.
Qed.
