(** C117: samples scaled and clipped on a GPU. *)
From Verif Require Import PropGred GredReal GredExact GredKernels GaccRel GvarModel.
From Coq Require Import ZifyBool ZifyNat Lia Reals Lra Psatz.
From Flocq Require Import Core BinarySingleNaN.
From Verif Require Import DriftFloatProofs HitFacts NdIndexFacts NdMemFacts NdProofs RedProofs3 FsumFacts FsumProofs GaccProofs PropGacc GvarProofs PropGvar GclipModel GclipProofs PropGclip FlagProofs FlagProofs2 PropFlag PropGmag GnormModel PropLax PropGlax PropEq PropGnorm PropGain GprepModel.
From Verif Require BlandDriftProofs.
Local Open Scope Z_scope.

(** The samples scaled by [M], as they lie in memory. *)
Definition scaled (x : mem f32) (M : f32) : mem f32 := map (fun v => Bdiv mode_NE v M) x.
Lemma znth_map {A B} (f : A -> B) l i : znth (map f l) i = option_map f (znth l i).
Proof. unfold znth. destruct (i <? 0); [reflexivity|]. apply nth_error_map. Qed.
Lemma znth_ext {A} (a b : list A) : zlen a = zlen b -> (forall i, 0 <= i < zlen a -> znth a i = znth b i) -> a = b.
Proof.
  exact (BlandDriftProofs.list_ext a b).
Qed.
Definition at_ (x : mem f32) (i : Z) : f32 := match znth x i with Some v => v | None => B754_nan end.
Lemma at_all x : map (at_ x) (zrange (zlen x)) = x.
Proof.
  assert (L : zlen (map (at_ x) (zrange (zlen x))) = zlen x) by (unfold zlen at 1; rewrite map_length; pose proof (zrange_length (zlen x)) as K; pose proof (Zle_0_nat (length x)); unfold zlen in *; lia).
  apply znth_ext; [exact L|]. intros i Hi. assert (Hi' : 0 <= i < zlen x) by (rewrite <- L; exact Hi).
  rewrite znth_map_zrange by exact Hi'. unfold at_. destruct (znth_some x i Hi') as (v & ->). reflexivity.
Qed.
Lemma at_is x i : 0 <= i < zlen x -> znth x i = Some (at_ x i).
Proof. intros Hi. unfold at_. destruct (znth_some x i Hi) as (v & ->). reflexivity. Qed.

Lemma normalized_is lowest junk sh x d r : powers sh x d -> is_finite lowest = true -> (B2R lowest < 0)%R -> gpu_normalize lowest junk (dense sh, x) r ->
  exists M, greatest sh d M /\ r = (dense sh, scaled x M).
Proof.
  intros H Fl Ll Hr. destruct (proj2 (C115_gpu_normalize lowest junk sh x d H Fl Ll) r Hr) as (M & q & G & E1 & L & A & Q & _). exists M. split; [exact G|]. destruct r as (l & y). cbn [fst snd] in *. subst l. f_equal.
  destruct H as (P & N & H4 & Hb & Hx & E & F). assert (Ls : zlen (scaled x M) = zlen x) by (unfold scaled, zlen; now rewrite map_length).
  apply znth_ext; [lia|]. intros i Hi. destruct (dense_hit sh i) as (idx & R & <-); [eapply Forall_impl; [|exact P]; cbn; intros; lia|lia|]. destruct A as (_ & _ & _ & A). specialize (A idx R). cbn [fst snd] in A. unfold elt in A. rewrite A, (Q idx R).
  unfold scaled. rewrite znth_map. specialize (E idx R). unfold elt in E. exact (eq_sym (f_equal (option_map (fun v => Bdiv mode_NE v M)) E)).
Qed.
(** Scaled samples are within reach of the GPU's statistics, whatever the samples were. *)
Lemma unit_reach xs : Forall (fun v : f32 => is_finite v = true /\ (0 <= B2R v <= 1)%R) xs -> zlen xs < 2 ^ 31 -> squares_in_reach xs.
Proof.
  intros H L. split; [eapply Forall_impl; [|exact H]; cbn; tauto|]. apply Rle_trans with (IZR (zlen xs)).
  - clear L. induction H as [|v xs (_ & Hv) _ IH]; [apply Rle_refl|]. cbn [map]. change (rsum (?a :: ?l)) with (a + rsum l)%R. replace (zlen (v :: xs)) with (1 + zlen xs) by (unfold zlen; cbn [length]; lia). rewrite plus_IZR. apply Rplus_le_compat; [nra|exact IH].
  - apply IZR_lt in L. change (IZR (2 ^ 31)) with (bpow radix2 31) in L. assert (K : (bpow radix2 31 <= bpow radix2 122)%R) by (apply bpow_le; lia). lra.
Qed.
Lemma nan_inside m s low high : outside m s low high B754_nan = 0.
Proof. unfold outside, f32lt, f32gt. cbn [Bcompare]. destruct (Bminus mode_NE m (Bmult mode_NE s low)), (Bplus mode_NE m (Bmult mode_NE s high)); reflexivity. Qed.

(** C117: under every schedule scaling and clipping end and never fail, whatever the samples (finite, nonnegative), the mask, the number of rounds and the bounds; later steps see the samples divided by a greatest
    one and the mask with 0, 32 or 64 added.  A channel without any power keeps its mask: its samples are all NaN, and none is flagged. *)
Theorem C117_prepare : forall cx cd xa xb lowest junk jz sh x d mask m max_iter low high, powers sh x d -> is_finite lowest = true -> (B2R lowest < 0)%R -> arr_is mask sh m -> (forall i, in_range sh i -> byte (m i)) -> 0 <= max_iter ->
  (exists o, gpu_prepare cx cd xa xb lowest junk jz (dense sh, x) mask max_iter low high o) /\
  forall o, gpu_prepare cx cd xa xb lowest junk jz (dense sh, x) mask max_iter low high o ->
    exists M k F, o = Ok ((dense sh, scaled x M), k) /\ greatest sh d M /\ arr_is k sh F /\
      (forall i, in_range sh i -> exists b, 0 <= b <= 2 /\ F i = to_uint8 (m i + 32 * b)) /\
      ((forall i, in_range sh i -> B2R (d i) = 0%R) -> forall i, in_range sh i -> elt (scaled x M) (dense sh) i = Some B754_nan /\ F i = m i).
Proof.
  intros cx cd xa xb lowest junk jz sh x d mask m max_iter low high H Fl Ll Am Hm Hi. pose proof H as (P & N & H4 & Hb & Hx & E & Fin).
  assert (Ls : forall M, zlen (scaled x M) = zprod sh) by (intros M; rewrite <- Hx; unfold scaled, zlen; now rewrite map_length).
  assert (Vs : forall M i, 0 <= i < zprod sh -> znth (scaled x M) i = Some (at_ (scaled x M) i)) by (intros M i Hj; apply at_is; now rewrite Ls). split.
  - destruct (C115_gpu_normalize lowest junk sh x d H Fl Ll) as ((r & Hr) & _). destruct (normalized_is lowest junk sh x d r H Fl Ll Hr) as (M & _ & ->).
    destruct (C113_channels cx cd xa xb junk jz sh (scaled x M) (at_ (scaled x M)) mask m max_iter low high P N H4 Hb (Ls M) (Vs M) Am Hi) as ((o & Ho) & _). eexists _, _, o. split; [exact Hr|]. split; [exact Ho|reflexivity].
  - intros o (r & o' & Hr & Ho & ->). destruct (normalized_is lowest junk sh x d r H Fl Ll Hr) as (M & G & ->).
    destruct (C113_channels cx cd xa xb junk jz sh (scaled x M) (at_ (scaled x M)) mask m max_iter low high P N H4 Hb (Ls M) (Vs M) Am Hi) as (_ & K). destruct (K o' Ho) as (k & F & r & _ & _ & Rd & _ & -> & A).
    exists M, r, (fun idx => to_uint8 (m idx + 32 * F (cell (dense sh) idx))). split; [reflexivity|]. split; [exact G|]. split; [exact A|]. split.
    + intros i R. exists (F (cell (dense sh) i)). split; [|reflexivity]. inversion Rd; subst; [lia|apply outside_range].
    + intros Z0 i R. pose proof G as ((im & Rm & Em) & _). destruct (Fin im Rm) as (Fm & _). pose proof (Z0 im Rm) as Zm. rewrite Em in Fm, Zm. destruct (Fin i R) as (Fi & _).
      assert (Q : znth (scaled x M) (cell (dense sh) i) = Some B754_nan).
      { unfold scaled. rewrite znth_map. specialize (E i R). unfold elt in E. refine (eq_trans (f_equal (option_map (fun v => Bdiv mode_NE v M)) E) _). cbn [option_map]. f_equal. pose proof (zero_by_zero (d i) M Fi (Z0 i R) Fm Zm) as Nn. destruct (Bdiv mode_NE (d i) M); try discriminate Nn; reflexivity. }
      split; [exact Q|]. assert (F0 : F (cell (dense sh) i) = 0). { inversion Rd; subst; [reflexivity|]. unfold at_. rewrite Q. apply nan_inside. }
      rewrite F0. specialize (Hm i R). unfold byte in Hm. unfold to_uint8. rewrite Z.mod_small; lia.
Qed.
Print Assumptions C117_prepare.
(** C117: one round on a channel with any power and a clean mask: no assumption on the size of the samples is left. *)
Theorem C117_one_round : forall cx cd xa xb lowest junk jz sh x d mask low high, powers sh x d -> is_finite lowest = true -> (B2R lowest < 0)%R -> arr_is mask sh (fun _ => 0) -> (exists i, in_range sh i /\ (0 < B2R (d i))%R) ->
  is_finite low = true -> (0 <= B2R low <= bpow radix2 20)%R -> is_finite high = true -> (0 <= B2R high <= bpow radix2 20)%R ->
  forall o, gpu_prepare cx cd xa xb lowest junk jz (dense sh, x) mask 1 low high o ->
    exists M k F, o = Ok ((dense sh, scaled x M), k) /\ greatest sh d M /\ arr_is k sh F /\ forall i, in_range sh i -> let xs := scaled x M in let v := B2R (Bdiv mode_NE (d i) M) in
      ((v < rmean xs - B2R low * sigma xs - clip_margin (B2R low) xs)%R \/ (rmean xs + B2R high * sigma xs + clip_margin (B2R high) xs < v)%R -> F i <> 0) /\
      ((rmean xs - B2R low * sigma xs + clip_margin (B2R low) xs <= v <= rmean xs + B2R high * sigma xs - clip_margin (B2R high) xs)%R -> F i = 0).
Proof.
  intros cx cd xa xb lowest junk jz sh x d mask low high H Fl Ll Am (ip & Rp & Pp) Flo Hlo Fhi Hhi o (r & o' & Hr & Ho & ->). pose proof H as (P & N & H4 & Hb & Hx & E & Fin).
  destruct (normalized_is lowest junk sh x d r H Fl Ll Hr) as (M & G & ->). pose proof G as ((im & Rm & Em) & U). destruct (Fin im Rm) as (Fm & _). rewrite Em in Fm. assert (PM : (0 < B2R M)%R) by (specialize (U ip Rp); lra).
  assert (Ls : zlen (scaled x M) = zprod sh) by (rewrite <- Hx; unfold scaled, zlen; now rewrite map_length).
  assert (Vs : forall i, 0 <= i < zprod sh -> znth (scaled x M) i = Some (at_ (scaled x M) i)) by (intros i Hj; apply at_is; now rewrite Ls).
  assert (Xs : map (at_ (scaled x M)) (zrange (zprod sh)) = scaled x M) by (rewrite <- Ls; apply at_all).
  assert (Cl : forall i, in_range sh i -> at_ (scaled x M) (cell (dense sh) i) = Bdiv mode_NE (d i) M) by (intros i R; unfold at_, scaled; rewrite znth_map; specialize (E i R); unfold elt in E; exact (f_equal (fun o => match option_map (fun v => Bdiv mode_NE v M) o with Some v => v | None => B754_nan end) E)).
  assert (Sq : squares_in_reach (map (at_ (scaled x M)) (zrange (zprod sh)))).
  { apply unit_reach; [|rewrite Xs, Ls; exact Hb]. apply Forall_forall. intros v Hv. apply in_map_iff in Hv as (j & <- & Hj). apply in_zrange in Hj. destruct (dense_hit sh j) as (i & R & <-); [eapply Forall_impl; [|exact P]; cbn; intros; lia|exact Hj|].
    rewrite (Cl i R). destruct (Fin i R). apply quotient_ok; auto. }
  destruct (C113_one_round cx cd xa xb junk jz sh (scaled x M) (at_ (scaled x M)) mask (fun _ => 0) low high P N H4 Hb Ls Vs Am (fun _ _ => eq_refl) Sq Flo Hlo Fhi Hhi o' Ho) as (k & F & -> & A & K).
  exists M, k, F. split; [reflexivity|]. split; [exact G|]. split; [exact A|]. intros i R. specialize (K i R). cbv zeta in K |- *. rewrite Xs, (Cl i R) in K. exact K.
Qed.
Print Assumptions C117_one_round.
(** C117: let every sample be [g] times as large (exactly).  What later steps can see - the scaled samples and the mask, under any schedules - is the same. *)
Lemma gain_scaled g sh x x' d d' M M' : powers sh x d -> powers sh x' d' -> (0 < g)%R -> (forall i, in_range sh i -> B2R (d' i) = (g * B2R (d i))%R /\ Bsign (d' i) = Bsign (d i)) ->
  greatest sh d M -> greatest sh d' M' -> scaled x' M' = scaled x M.
Proof.
  intros (P & N & H4 & Hb & Hx & E & F) (_ & _ & _ & _ & Hx' & E' & F') Hg S ((im & Rm & Em) & U) ((im' & Rm' & Em') & U').
  assert (Ls : zlen (scaled x M) = zprod sh) by (rewrite <- Hx; unfold scaled, zlen; now rewrite map_length). assert (Ls' : zlen (scaled x' M') = zprod sh) by (rewrite <- Hx'; unfold scaled, zlen; now rewrite map_length).
  apply znth_ext; [congruence|]. intros j Hj. rewrite Ls' in Hj. destruct (dense_hit sh j) as (i & R & <-); [eapply Forall_impl; [|exact P]; cbn; intros; lia|exact Hj|].
  unfold scaled. rewrite !znth_map. specialize (E i R). specialize (E' i R). unfold elt in E, E'. refine (eq_trans (f_equal (option_map (fun v => Bdiv mode_NE v M')) E') (eq_trans _ (eq_sym (f_equal (option_map (fun v => Bdiv mode_NE v M)) E)))). cbn [option_map]. f_equal.
  destruct (F i R) as (Fi & Pi). destruct (F' i R) as (Fi' & Pi'). destruct (F im Rm) as (Fm & Pm). destruct (F' im' Rm') as (Fm' & Pm'). destruct (S i R) as (Ei & Si).
  assert (Q : B2R M' = (g * B2R M)%R) by (subst M M'; apply Rle_antisym; [rewrite (proj1 (S im' Rm')); apply Rmult_le_compat_l; [lra|now apply U]|rewrite <- (proj1 (S im Rm)); now apply U']).
  pose proof (U i R) as Ui. rewrite Em in Fm, Pm. rewrite Em' in Fm', Pm'. destruct (Rlt_dec 0 (B2R M)) as [K|K]; [apply (same_quotient g); auto|].
  assert (M0 : B2R M = 0%R) by lra. rewrite M0, Rmult_0_r in Q. assert (D0 : B2R (d i) = 0%R) by lra. rewrite D0, Rmult_0_r in Ei.
  pose proof (zero_by_zero (d i) M Fi D0 Fm M0) as N1. pose proof (zero_by_zero (d' i) M' Fi' Ei Fm' Q) as N2. destruct (Bdiv mode_NE (d i) M); try discriminate N1. destruct (Bdiv mode_NE (d' i) M'); try discriminate N2. reflexivity.
Qed.
Lemma gain_forward cx cd xa xb lowest junk jz g sh x x' d d' mask max_iter low high : powers sh x d -> powers sh x' d' -> is_finite lowest = true -> (B2R lowest < 0)%R -> (0 < g)%R ->
  (forall i, in_range sh i -> B2R (d' i) = (g * B2R (d i))%R /\ Bsign (d' i) = Bsign (d i)) ->
  forall o, gpu_prepare cx cd xa xb lowest junk jz (dense sh, x) mask max_iter low high o -> gpu_prepare cx cd xa xb lowest junk jz (dense sh, x') mask max_iter low high o.
Proof.
  intros H H' Fl Ll Hg S o (r & o' & Hr & Ho & ->). destruct (normalized_is lowest junk sh x d r H Fl Ll Hr) as (M & G & ->).
  destruct (C115_gpu_normalize lowest junk sh x' d' H' Fl Ll) as ((r' & Hr') & _). destruct (normalized_is lowest junk sh x' d' r' H' Fl Ll Hr') as (M' & G' & ->).
  rewrite (gain_scaled g sh x x' d d' M M' H H' Hg S G G') in Hr'. exists (dense sh, scaled x M), o'. auto.
Qed.
Theorem C117_gain : forall cx cd xa xb lowest junk jz g sh x x' d d' mask max_iter low high, powers sh x d -> powers sh x' d' -> is_finite lowest = true -> (B2R lowest < 0)%R -> (0 < g)%R ->
  (forall i, in_range sh i -> B2R (d' i) = (g * B2R (d i))%R /\ Bsign (d' i) = Bsign (d i)) ->
  forall o, gpu_prepare cx cd xa xb lowest junk jz (dense sh, x) mask max_iter low high o <-> gpu_prepare cx cd xa xb lowest junk jz (dense sh, x') mask max_iter low high o.
Proof.
  intros cx cd xa xb lowest junk jz g sh x x' d d' mask max_iter low high H H' Fl Ll Hg S o. split; [now apply (gain_forward cx cd xa xb lowest junk jz g sh x x' d d')|].
  apply (gain_forward cx cd xa xb lowest junk jz (/ g) sh x' x d' d); auto; [now apply Rinv_0_lt_compat|]. intros i R. destruct (S i R) as (E & E2). split; [rewrite E; field; lra|now symmetry].
Qed.
Print Assumptions C117_gain.
(** Two spectra of three samples, words 5 and 9 behind the shapes, three rounds; and the same with no power at all. *)
(** [C116_case] meets the hypotheses of [C117_gain]. *)
Definition dead : mem f32 := map f32_of_Z [0; 0; 0; 0; 0; 0].
Example C117_case : powers [2; 3] six (lit (f32_of_Z 0) [2; 3] six) /\ powers [2; 3] dead (fun _ => f32_of_Z 0) /\ arr_is (dense [2; 3], map (fun _ => 0) (zrange 6)) [2; 3] (fun _ => 0) /\
  (exists o, gpu_prepare true false (fun _ => 5) (fun _ => 9) (f32_of_Z (-1)) (fun _ => f32_of_Z 7) (fun _ => 0) (dense [2; 3], six) (dense [2; 3], map (fun _ => 0) (zrange 6)) 3 (f32_of_Z 2) (f32_of_Z 2) o /\ o <> UB) /\
  exists o, gpu_prepare true false (fun _ => 5) (fun _ => 9) (f32_of_Z (-1)) (fun _ => f32_of_Z 7) (fun _ => 0) (dense [2; 3], dead) (dense [2; 3], map (fun _ => 0) (zrange 6)) 3 (f32_of_Z 2) (f32_of_Z 2) o /\ o <> UB.
Proof.
  destruct C115_case as (H6 & Fl & Ll & _).
  assert (Hd : powers [2; 3] dead (fun _ => f32_of_Z 0)).
  { split; [repeat constructor|]. split; [discriminate|]. split; [vm_compute; discriminate|]. split; [reflexivity|]. split; [reflexivity|]. split.
    - intros i R. apply in_range2 in R as (t & c & -> & Ht & Hc). assert (Dt : t = 0 \/ t = 1) by lia. assert (Dc : c = 0 \/ c = 1 \/ c = 2) by lia. destruct Dt as [-> | ->], Dc as [-> | [-> | ->] ]; reflexivity.
    - intros i _. split; [reflexivity|]. rewrite (proj1 (f32_of_Z_ok 0 ltac:(lia))). lra. }
  assert (Az : arr_is (dense [2; 3], map (fun _ => 0) (zrange 6)) [2; 3] (fun _ => 0)).
  { apply arr_is_dense; [reflexivity|]. intros idx R. unfold elt. pose proof (dense_inside [2; 3] idx R) as K. change (zprod [2; 3]) with 6 in K. now rewrite znth_map_zrange by lia. }
  split; [exact H6|]. split; [exact Hd|]. split; [exact Az|]. split.
  - destruct (C117_prepare true false (fun _ => 5) (fun _ => 9) (f32_of_Z (-1)) (fun _ => f32_of_Z 7) (fun _ => 0) [2; 3] six _ _ _ 3 (f32_of_Z 2) (f32_of_Z 2) H6 Fl Ll Az ltac:(intros; unfold byte; lia) ltac:(lia)) as ((o & Ho) & K). exists o. split; [exact Ho|]. destruct (K o Ho) as (M & k & F & -> & _). discriminate.
  - destruct (C117_prepare true false (fun _ => 5) (fun _ => 9) (f32_of_Z (-1)) (fun _ => f32_of_Z 7) (fun _ => 0) [2; 3] dead _ _ _ 3 (f32_of_Z 2) (f32_of_Z 2) Hd Fl Ll Az ltac:(intros; unfold byte; lia) ltac:(lia)) as ((o & Ho) & K). exists o. split; [exact Ho|]. destruct (K o Ho) as (M & k & F & -> & _). discriminate.
Qed.
