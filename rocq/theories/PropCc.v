(** Property theorems C26-C31: protohit searches on the CPU. *)
From Verif Require Import CcFacts LmProofs CcFloat.
From Coq Require Import ZifyBool ZifyNat Reals Lra.
Local Open Scope Z_scope.

(** ** A concrete plane: 2 drifts, 4 channels, SNR = value *)
Definition ex_plane : list Z := [0; 5; 9; 0;
                                 7; 0; 0; 6].
Definition ex_noise : list Z := [1; 1].
Definition ex_counts (k : Z) : layout * mem Z := (dense [2; 4], map (fun i => k + i) (zrange 8)).
Definition ex_X (c : coord) : Z := nth (Z.to_nat (fst c * 4 + snd c)) ex_plane 0.
Definition ex_R (c : coord) : Z * Z * Z := (fst c * 4 + snd c, 10 + (fst c * 4 + snd c), 20 + (fst c * 4 + snd c)).
Definition ex_snr (x w : Z) : Z := x.

Lemma bin_cases c : bin 2 4 c -> In c [(0,0);(0,1);(0,2);(0,3);(1,0);(1,1);(1,2);(1,3)].
Proof.
  destruct c as [d f]. unfold bin. cbn [fst snd]. intros (Hd & Hf).
  assert (Ed : d = 0 \/ d = 1) by lia. assert (Ef : f = 0 \/ f = 1 \/ f = 2 \/ f = 3) by lia.
  destruct Ed as [->| ->], Ef as [->|[->|[->| ->]]]; cbn; tauto.
Qed.
Lemma ex_inputs : inputs (dense [2; 4]) ex_plane ex_noise (ex_counts 0) (ex_counts 10) (ex_counts 20) 2 4 ex_X (fun _ => 1) ex_R.
Proof.
  split; [|split; [|split; [|repeat split; lia]]].
  - split; [reflexivity|]. intros c Hc. apply bin_cases in Hc. cbn [In] in Hc. intuition subst; reflexivity.
  - intros d Hd. assert (E : d = 0 \/ d = 1) by lia. destruct E as [->| ->]; reflexivity.
  - intros c Hc. apply bin_cases in Hc. cbn [In] in Hc. intuition subst; reflexivity.
Qed.
Definition ex_run := cc_cpu ex_snr Z.gtb 4 2 0 0 200 (dense [2; 4]) ex_plane ex_noise (ex_counts 0) (ex_counts 10) (ex_counts 20) 2.

(** ** C26 *)
Theorem C26_terminates : forall F snr gt (thr half fmin fzero : F) ls spec noise low high roll L D N X W R,
  inputs ls spec noise low high roll D N X W R ->
  exists fuel0, forall fuel, (fuel0 <= fuel)%nat ->
    exists r, cc_cpu snr gt thr half fmin fzero fuel ls spec noise low high roll L = Some (Ok r).
Proof.
  intros F snr gt thr half fmin fzero ls spec noise low high roll L D N X W R (H1 & H2 & H3 & H4 & H5 & H6).
  exists (enough D N (l1_offsets L)). intros fuel Hf. eapply cc_cpu_terminates; eauto.
Qed.
Print Assumptions C26_terminates.
Example C26_terminates_example : exists r, ex_run = Some (Ok r) /\ map ph_locs r = [[(0,1);(0,2)]; [(1,0)]; [(1,3)]].
Proof. eexists. split; [vm_compute; reflexivity|reflexivity]. Qed.

Theorem C26_components_partition : forall F snr gt (thr half fmin fzero : F) ls spec noise low high roll L D N X W R,
  inputs ls spec noise low high roll D N X W R ->
  (forall s, gt s thr = true -> gt s half = true) ->
  exists fuel0, forall fuel, (fuel0 <= fuel)%nat ->
    exists r, cc_cpu snr gt thr half fmin fzero fuel ls spec noise low high roll L = Some (Ok r) /\
      partitioned D N (fun c => gt (snr (X c) (W (fst c))) thr = true) (fun c => gt (snr (X c) (W (fst c))) half = true) (map ph_locs r).
Proof.
  intros F snr gt thr half fmin fzero ls spec noise low high roll L D N X W R (H1 & H2 & H3 & H4 & H5 & H6) Hth.
  exists (enough D N (l1_offsets L)). intros fuel Hf.
  destruct (cc_cpu_correct snr gt thr half fmin fzero ls spec noise low high roll L D N X W R H1 H2 H3 H4 H5 H6 fuel Hth Hf) as (segs & E & Hs & _).
  eexists. split; [exact E|]. rewrite map_map.
  erewrite map_ext; [eapply segmentation_partition; [exact Hs|intros c; apply Hth|intros c d; apply near_by_bin]|].
  intros (s & ms). unfold cc_finish. cbn [fst snd]. destruct (freq_extent _ _). cbn [ph_locs]. apply cluster_locs.
Qed.
Print Assumptions C26_components_partition.
Example C26_components_partition_example : forall s, (s >? 4) = true -> (s >? 2) = true. Proof. lia. Qed.

(** The same for binary32 planes and any finite threshold that is not negative. *)
Theorem C26_components_partition_float : forall floor (thr : f32) ls spec noise low high roll L D N X W R,
  inputs ls spec noise low high roll D N X W R -> is_finite thr = true -> (0 <= B2R thr)%R ->
  exists fuel0, forall fuel, (fuel0 <= fuel)%nat ->
    exists r, cc_cpu (f32snr floor) f32gt thr (f32half thr) f32_min (f32_of_Z 0) fuel ls spec noise low high roll L = Some (Ok r) /\
      partitioned D N (fun c => f32gt (f32snr floor (X c) (W (fst c))) thr = true)
                      (fun c => f32gt (f32snr floor (X c) (W (fst c))) (f32half thr) = true) (map ph_locs r).
Proof.
  intros. eapply C26_components_partition; eauto. intros s. now apply thr_half.
Qed.
Print Assumptions C26_components_partition_float.
Example C26_components_partition_float_example : is_finite (f32_of_Z 10) = true /\ (0 <= B2R (f32_of_Z 10))%R.
Proof. split; [reflexivity|]. vm_compute. lra. Qed.

(** A negative threshold is below its half: a seed can fail its own membership test and an empty
    component is reported. *)
Theorem C26_negative_threshold_refuted : exists (thr x : Z),
  match cc_cpu ex_snr Z.gtb thr (Z.quot thr 2) 0 0 10 (dense [1; 1]) [x] [1] (dense [1; 1], [0]) (dense [1; 1], [0]) (dense [1; 1], [0]) 7 with
  | Some (Ok [p]) => (x >? thr) = true /\ ph_locs p = []
  | _ => False
  end.
Proof. exists (-4), (-3). vm_compute. auto. Qed.
Print Assumptions C26_negative_threshold_refuted.

(** ** C27 *)
Theorem C27_component_is_reachable_set : forall F snr gt (thr half fmin fzero : F) ls spec noise low high roll L D N X W R,
  inputs ls spec noise low high roll D N X W R ->
  (forall s, gt s thr = true -> gt s half = true) ->
  exists fuel0, forall fuel, (fuel0 <= fuel)%nat ->
    exists r seeds, cc_cpu snr gt thr half fmin fzero fuel ls spec noise low high roll L = Some (Ok r) /\
      length seeds = length r /\
      segmentation D N (fun c => gt (snr (X c) (W (fst c))) thr = true) (fun c => gt (snr (X c) (W (fst c))) half = true)
                   (near_by D N (l1_offsets L)) (combine seeds (map ph_locs r)).
Proof.
  intros F snr gt thr half fmin fzero ls spec noise low high roll L D N X W R (H1 & H2 & H3 & H4 & H5 & H6) Hth.
  exists (enough D N (l1_offsets L)). intros fuel Hf.
  destruct (cc_cpu_correct snr gt thr half fmin fzero ls spec noise low high roll L D N X W R H1 H2 H3 H4 H5 H6 fuel Hth Hf) as (segs & E & Hs & _).
  eexists. exists (map fst segs). split; [exact E|]. split; [now rewrite !map_length|].
  replace (combine _ _) with segs; [exact Hs|]. clear. induction segs as [|(s & ms) segs IH]; [reflexivity|].
  cbn [map combine]. rewrite <- IH. f_equal. cbn [fst snd]. f_equal. unfold cc_finish. destruct (freq_extent _ _). cbn [ph_locs]. symmetry. apply cluster_locs.
Qed.
Print Assumptions C27_component_is_reachable_set.
Example C27_component_is_reachable_set_example :
  near_by 2 4 (l1_offsets 2) (0, 1) (0, 2) /\ ~ near_by 2 4 (l1_offsets 2) (0, 0) (0, 3).
Proof. split; [split; [unfold bin; cbn; lia|vm_compute; tauto]|]. intros (_ & H). vm_compute in H. intuition congruence. Qed.

(** The neighbourhood is not symmetric: its frequency offsets are -L..L-1 and its drift offsets, at
    frequency offset o, are -(L-|o|)..L-|o|-1. *)
Theorem C27_neighbourhood : forall L d f, In (d, f) (l1_offsets L) <->
  - L <= f < L /\ - (L - Z.abs f) <= d < L - Z.abs f.
Proof.
  intros L d f. unfold l1_offsets. rewrite in_flat_map. split.
  - intros (fo & Hf & H). apply in_map_iff in H as (dr & E & H). injection E as -> ->. apply in_zspan in Hf. apply in_zspan in H. lia.
  - intros (Hf & H). exists f. split; [apply in_zspan; lia|]. apply in_map_iff. exists d. split; [reflexivity|]. apply in_zspan. lia.
Qed.
Print Assumptions C27_neighbourhood.
Theorem C27_neighbourhood_symmetric_refuted : forall L, 1 <= L ->
  exists d f, In (d, f) (l1_offsets L) /\ ~ In (- d, - f) (l1_offsets L).
Proof. intros L HL. exists (- L), 0. rewrite !C27_neighbourhood. lia. Qed.
Print Assumptions C27_neighbourhood_symmetric_refuted.
Example C27_neighbourhood_example : l1_offsets 1 = [(-1, 0); (0, 0)]. Proof. reflexivity. Qed.

(** ** C28 *)
Theorem C28_peak_is_strongest : forall F snr gt (thr half fmin fzero : F) ls spec noise low high roll L D N X W R,
  inputs ls spec noise low high roll D N X W R ->
  (forall s, gt s thr = true -> gt s half = true) -> (forall s, gt s half = true -> gt s fmin = true) ->
  (forall a b c, gt a b = true -> gt b c = true -> gt a c = true) -> (forall a, gt a a = false) ->
  exists fuel0, forall fuel, (fuel0 <= fuel)%nat ->
    exists r, cc_cpu snr gt thr half fmin fzero fuel ls spec noise low high roll L = Some (Ok r) /\
      Forall (fun p => describes gt X W (fun c => snr (X c) (W (fst c))) (ph_locs p) p) r.
Proof.
  intros F snr gt thr half fmin fzero ls spec noise low high roll L D N X W R (H1 & H2 & H3 & H4 & H5 & H6) Hth Hmin Htr Hirr.
  exists (enough D N (l1_offsets L)). intros fuel Hf.
  destruct (cc_cpu_correct snr gt thr half fmin fzero ls spec noise low high roll L D N X W R H1 H2 H3 H4 H5 H6 fuel Hth Hf) as (segs & E & Hs & Hne).
  eexists. split; [exact E|]. apply Forall_map, Forall_forall. intros (s & ms) Hin. cbn [fst snd].
  destruct (Hne s ms Hin) as (c & rest & -> & Hc).
  assert (HN31 : 0 < D -> N < 2 ^ 31) by nia.
  assert (Hb : forall d, In d (c :: rest) -> bin D N d) by (intros d Hd; apply (seg_member_ok D N _ _ _ segs s (c :: rest) d Hs (near_by_bin D N _) Hin Hd)).
  assert (HDp : 0 < D) by (destruct (Hb c (or_introl eq_refl)); lia).
  destruct (finish_describes snr gt fmin fzero D N X W R Htr Hirr s c rest (HN31 HDp) Hb (Hmin _ Hc)) as (Hd & _).
  assert (El : ph_locs (cc_finish (cluster snr gt fmin fzero X W R s (c :: rest))) = c :: rest) by apply Hd.
  rewrite El. exact Hd.
Qed.
Print Assumptions C28_peak_is_strongest.
Example C28_peak_is_strongest_example :
  (forall s, (s >? 4) = true -> (s >? 2) = true) /\ (forall s, (s >? 2) = true -> (s >? 0) = true) /\
  match ex_run with Some (Ok (p :: _)) => (ph_max p, ph_snr p, ph_width p, ph_center p) = ((0, 2), 9, 1, (0, 1)) | _ => False end.
Proof. split; [lia|]. split; [lia|]. vm_compute. reflexivity. Qed.

(** binary32: thresholds from 2^-125 up. *)
Theorem C28_peak_is_strongest_float : forall floor (thr : f32) ls spec noise low high roll L D N X W R,
  inputs ls spec noise low high roll D N X W R -> is_finite thr = true -> (bpow radix2 (-125) <= B2R thr)%R ->
  exists fuel0, forall fuel, (fuel0 <= fuel)%nat ->
    exists r, cc_cpu (f32snr floor) f32gt thr (f32half thr) f32_min (f32_of_Z 0) fuel ls spec noise low high roll L = Some (Ok r) /\
      Forall (fun p => describes f32gt X W (fun c => f32snr floor (X c) (W (fst c))) (ph_locs p) p) r.
Proof.
  intros floor thr ls spec noise low high roll L D N X W R Hi Hf Ht. eapply C28_peak_is_strongest; eauto.
  - intros s. apply thr_half; [auto|]. pose proof (bpow_gt_0 radix2 (-125)). lra.
  - intros s. now apply half_min.
  - exact f32gt_trans.
  - exact f32gt_irrefl.
Qed.
Print Assumptions C28_peak_is_strongest_float.
Example C28_peak_is_strongest_float_example : is_finite (f32_of_Z 10) = true /\ (bpow radix2 (-125) <= B2R (f32_of_Z 10))%R.
Proof.
  split; [reflexivity|]. replace (B2R (f32_of_Z 10)) with 10%R by (vm_compute; lra).
  assert (bpow radix2 (-125) <= bpow radix2 0)%R by (apply bpow_le; lia). cbn in *. lra.
Qed.

(** ** C29 *)
(** The counters are those of the bin the component was started from: the first bin of the scan that is
    above threshold and not yet claimed. *)
Theorem C29_counts_are_of_the_seed : forall F snr gt (thr half fmin fzero : F) ls spec noise low high roll L D N X W R,
  inputs ls spec noise low high roll D N X W R ->
  (forall s, gt s thr = true -> gt s half = true) -> (forall s, gt s half = true -> gt s fmin = true) ->
  (forall a b c, gt a b = true -> gt b c = true -> gt a c = true) -> (forall a, gt a a = false) ->
  exists fuel0, forall fuel, (fuel0 <= fuel)%nat ->
    exists r seeds, cc_cpu snr gt thr half fmin fzero fuel ls spec noise low high roll L = Some (Ok r) /\
      segmentation D N (fun c => gt (snr (X c) (W (fst c))) thr = true) (fun c => gt (snr (X c) (W (fst c))) half = true)
                   (near_by D N (l1_offsets L)) (combine seeds (map ph_locs r)) /\
      map ph_rfi r = map (fun s => Some (R s)) seeds.
Proof.
  intros F snr gt thr half fmin fzero ls spec noise low high roll L D N X W R (H1 & H2 & H3 & H4 & H5 & H6) Hth Hmin Htr Hirr.
  exists (enough D N (l1_offsets L)). intros fuel Hf.
  destruct (cc_cpu_correct snr gt thr half fmin fzero ls spec noise low high roll L D N X W R H1 H2 H3 H4 H5 H6 fuel Hth Hf) as (segs & E & Hs & Hne).
  eexists. exists (map fst segs). split; [exact E|]. split.
  - replace (combine _ _) with segs; [exact Hs|]. clear. induction segs as [|(s & ms) segs IH]; [reflexivity|].
    cbn [map combine]. rewrite <- IH. f_equal. cbn [fst snd]. f_equal. unfold cc_finish. destruct (freq_extent _ _). cbn [ph_locs]. symmetry. apply cluster_locs.
  - rewrite !map_map. apply map_ext_in. intros (s & ms) Hin. cbn [fst snd].
    destruct (Hne s ms Hin) as (c & rest & -> & Hc).
    assert (HN31 : 0 < D -> N < 2 ^ 31) by nia.
    assert (Hb : forall d, In d (c :: rest) -> bin D N d) by (intros d Hd; apply (seg_member_ok D N _ _ _ segs s (c :: rest) d Hs (near_by_bin D N _) Hin Hd)).
    assert (HDp : 0 < D) by (destruct (Hb c (or_introl eq_refl)); lia).
    apply (finish_describes snr gt fmin fzero D N X W R Htr Hirr s c rest (HN31 HDp) Hb (Hmin _ Hc)).
Qed.
Print Assumptions C29_counts_are_of_the_seed.
Theorem C29_counts_of_the_peak_refuted :
  match ex_run with
  | Some (Ok (p :: _)) => ph_max p = (0, 2) /\ ph_rfi p = Some (ex_R (0, 1)) /\ ex_R (0, 1) <> ex_R (ph_max p)
  | _ => False
  end.
Proof. vm_compute. split; [reflexivity|]. split; [reflexivity|]. discriminate. Qed.
Print Assumptions C29_counts_of_the_peak_refuted.
Example C29_counts_are_of_the_seed_example : inputs (dense [2; 4]) ex_plane ex_noise (ex_counts 0) (ex_counts 10) (ex_counts 20) 2 4 ex_X (fun _ => 1) ex_R.
Proof. exact ex_inputs. Qed.

(** ** C30 *)
Theorem C30_mask_components_partition : forall junk lm (mask : mem Z) D N offsets X,
  wf lm -> l_shape lm = [D; N] -> 0 <= D -> 0 < N -> D * N < 2 ^ 31 -> inside lm (zlen mask) ->
  (forall c, bin D N c -> elt mask lm [fst c; snd c] = Some (X c)) ->
  exists fuel0, forall fuel, (fuel0 <= fuel)%nat ->
    exists comps, mask_components fuel junk lm mask offsets = Some (Ok comps) /\
      partitioned D N (fun c => 0 < X c) (fun c => 0 < X c) comps /\
      Forall (fun ms => exists s, connected (near_by D N offsets) s ms) comps.
Proof.
  intros junk lm mask D N offsets X H1 H2 H3 H4 H5 H6 H7. exists (enough D N offsets). intros fuel Hf.
  destruct (mask_components_correct fuel junk lm mask D N offsets X H1 H2 H3 H4 H5 H6 H7 Hf) as (segs & E & Hs).
  exists (map snd segs). split; [exact E|]. split.
  - eapply segmentation_partition; eauto. intros c d; apply near_by_bin.
  - apply Forall_map, Forall_forall. intros (s & ms) Hin. exists s. eapply segmentation_connected; eauto.
Qed.
Print Assumptions C30_mask_components_partition.
Example C30_mask_components_partition_example :
  (exists r, mask_components 100 (fun _ => 77) (dense [2; 4]) [0; 1; 1; 0; 1; 0; 0; 3] [(0, 1); (0, -1); (1, 0); (-1, 0)] = Some (Ok r) /\
     r = [[(0,1);(0,2)]; [(1,0)]; [(1,3)]]) /\
  (forall c, bin 2 4 c -> exists v, elt [0; 1; 1; 0; 1; 0; 0; 3] (dense [2; 4]) [fst c; snd c] = Some v).
Proof.
  split; [eexists; split; vm_compute; reflexivity|]. intros c Hc. apply bin_cases in Hc. cbn [In] in Hc.
  intuition subst; eexists; reflexivity.
Qed.

(** With a symmetric neighbourhood, two neighbouring set bins are never in different components. *)
Theorem C30_mask_components_maximal : forall junk lm (mask : mem Z) D N offsets X,
  wf lm -> l_shape lm = [D; N] -> 0 <= D -> 0 < N -> D * N < 2 ^ 31 -> inside lm (zlen mask) ->
  (forall c, bin D N c -> elt mask lm [fst c; snd c] = Some (X c)) ->
  (forall d f, In (d, f) offsets -> In (- d, - f) offsets) ->
  exists fuel0, forall fuel, (fuel0 <= fuel)%nat ->
    exists comps, mask_components fuel junk lm mask offsets = Some (Ok comps) /\
      forall ms c d, In ms comps -> In c ms -> near_by D N offsets c d -> 0 < X d -> In d ms.
Proof.
  intros junk lm mask D N offsets X H1 H2 H3 H4 H5 H6 H7 Hsym. exists (enough D N offsets). intros fuel Hf.
  destruct (mask_components_correct fuel junk lm mask D N offsets X H1 H2 H3 H4 H5 H6 H7 Hf) as (segs & E & Hs).
  exists (map snd segs). split; [exact E|]. intros ms c d Hin Hc Hadj Hd. apply In_nth_error in Hin as (i & Hi).
  eapply (segmentation_maximal D N (fun c => 0 < X c) _ _ Hs); eauto.
  - intros x y; apply near_by_bin.
  - intros x y Hx (Hy & Ho). split; [auto|]. apply Hsym in Ho.
    replace (fst x - fst y) with (- (fst y - fst x)) by ring. replace (snd x - snd y) with (- (snd y - snd x)) by ring. exact Ho.
Qed.
Print Assumptions C30_mask_components_maximal.
Example C30_mask_components_maximal_example :
  forall d f, In (d, f) [(0, 1); (0, -1); (1, 0); (-1, 0)] -> In (- d, - f) [(0, 1); (0, -1); (1, 0); (-1, 0)].
Proof. intros d f H. cbn in H. intuition (match goal with E : _ = _ |- _ => injection E as <- <- end; cbn; tauto). Qed.

(** ** C31 *)
(** Each bin is compared with itself as part of its own neighbourhood. *)
Theorem C31_local_maxima_refuted : forall F snr gt (thr : F) lt rtol ls spec noise low high roll L D N X W R,
  inputs ls spec noise low high roll D N X W R -> 1 <= L -> (forall s, gt s (rtol s) = false) ->
  lm_cpu snr gt thr lt rtol ls spec noise low high roll L = Some (Ok []).
Proof.
  intros F snr gt thr lt rtol ls spec noise low high roll L D N X W R (H1 & H2 & H3 & H4 & H5 & H6) HL Hs.
  eapply lm_never; eauto.
Qed.
Print Assumptions C31_local_maxima_refuted.
Theorem C31_local_maxima_float_refuted : forall floor (thr : f32) ls spec noise low high roll L D N X W R,
  inputs ls spec noise low high roll D N X W R -> 1 <= L ->
  lm_cpu (f32snr floor) f32gt thr f32lt (fun s => s) ls spec noise low high roll L = Some (Ok []).
Proof. intros. eapply C31_local_maxima_refuted; eauto. exact f32gt_irrefl. Qed.
Print Assumptions C31_local_maxima_float_refuted.
Example C31_local_maxima_example :
  lm_cpu ex_snr Z.gtb 4 Z.ltb (fun s => s) (dense [2; 4]) ex_plane ex_noise (ex_counts 0) (ex_counts 10) (ex_counts 20) 7 = Some (Ok []).
Proof. vm_compute. reflexivity. Qed.

(** Without a neighbourhood (distance 0) every report is a significant bin with its own values, and
    every significant bin is reported or lies on a descending flank of a report. *)
Theorem C31_no_neighbourhood : forall F snr gt (thr : F) lt rtol ls spec noise low high roll L D N X W R,
  inputs ls spec noise low high roll D N X W R -> L <= 0 -> N < 2 ^ 30 ->
  exists found, lm_cpu snr gt thr lt rtol ls spec noise low high roll L = Some (Ok found) /\
    Forall (peak_report snr gt thr lt D N X W R) found /\ NoDup (map ph_max found) /\
    (forall c, bin D N c -> gt (snr (X c) (W (fst c))) thr = true ->
       exists p, In p found /\ flank lt (fun c => gt (snr (X c) (W (fst c))) thr) X N (ph_max p) c).
Proof.
  intros F snr gt thr lt rtol ls spec noise low high roll L D N X W R (H1 & H2 & H3 & H4 & H5 & H6) HL HN.
  eapply lm_zero; eauto.
Qed.
Print Assumptions C31_no_neighbourhood.
Example C31_no_neighbourhood_example :
  match lm_cpu ex_snr Z.gtb 4 Z.ltb (fun s => s) (dense [2; 4]) ex_plane ex_noise (ex_counts 0) (ex_counts 10) (ex_counts 20) 0 with
  | Some (Ok r) => map ph_max r = [(0, 1); (0, 2); (1, 0); (1, 3)]
  | _ => False
  end.
Proof. vm_compute. reflexivity. Qed.
