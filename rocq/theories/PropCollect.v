(** C84: the bandwidth, centre and flag counts of GPU protohits. *)
From Verif Require Import CcCollect PropCcCuda PropCc.
From Coq Require Import ZifyBool ZifyNat Lia Permutation.
Local Open Scope Z_scope.

(** [lo] and [up] enclose the run of bins around [f] that satisfy [hit]; the ends do not, unless the plane ends there. *)
Definition edges (hit : Z -> Prop) (N f lo up : Z) : Prop :=
  0 <= lo < f /\ f < up < N /\ (forall g, lo < g < up -> g <> f -> hit g) /\ (hit lo -> lo = 0) /\ (hit up -> up = N - 1).

Lemma low_edge_ok N lab (hit : Z -> Prop) d : (forall g, 0 <= g < N -> exists v, znth lab (d * N + g) = Some v /\ (1 < v <-> hit g)) ->
  forall fuel f, 1 <= f <= N -> f <= Z.of_nat fuel -> exists lo, low_edge N lab fuel d f = Ok lo /\ 0 <= lo < f /\ (forall g, lo < g < f -> hit g) /\ (hit lo -> lo = 0).
Proof.
  intros Hl. induction fuel as [|fuel IH]; intros f Hf Hk; [lia|]. cbn [low_edge].
  destruct (Hl (f - 1)) as (v & Ev & Hv); [lia|]. unfold load, zget. rewrite Ev. cbn [obind].
  destruct ((1 <? v) && (0 <? f - 1)) eqn:E.
  - destruct (IH (f - 1)) as (lo & -> & L1 & L2 & L3); [lia|lia|]. exists lo. split; [reflexivity|]. split; [lia|]. split; [|exact L3].
    intros g Hg. destruct (Z.eq_dec g (f - 1)) as [->|Hne]; [apply Hv; lia|apply L2; lia].
  - exists (f - 1). split; [reflexivity|]. split; [lia|]. split; [intros; lia|]. intros Hh. apply Hv in Hh. lia.
Qed.
Lemma high_edge_ok N lab (hit : Z -> Prop) d : (forall g, 0 <= g < N -> exists v, znth lab (d * N + g) = Some v /\ (1 < v <-> hit g)) ->
  forall fuel f, 0 <= f < N - 1 -> N - f <= Z.of_nat fuel -> exists up, high_edge N lab fuel d f = Ok up /\ f < up < N /\ (forall g, f < g < up -> hit g) /\ (hit up -> up = N - 1).
Proof.
  intros Hl. induction fuel as [|fuel IH]; intros f Hf Hk; [lia|]. cbn [high_edge].
  destruct (Hl (f + 1)) as (v & Ev & Hv); [lia|]. unfold load, zget. rewrite Ev. cbn [obind].
  destruct ((1 <? v) && (f + 1 <? N - 1)) eqn:E.
  - destruct (IH (f + 1)) as (up & -> & L1 & L2 & L3); [lia|lia|]. exists up. split; [reflexivity|]. split; [lia|]. split; [|exact L3].
    intros g Hg. destruct (Z.eq_dec g (f + 1)) as [->|Hne]; [apply Hv; lia|apply L2; lia].
  - exists (f + 1). split; [reflexivity|]. split; [lia|]. split; [intros; lia|]. intros Hh. apply Hv in Hh. lia.
Qed.

(** What a protohit with peak [p] should carry. *)
Definition described (hit : coord -> Prop) (N : Z) (low high : list Z) (p : coord) (v : pmeta) : Prop :=
  exists lo up, edges (fun g => hit (fst p, g)) N (snd p) lo up /\ znth low (fst p * N + snd p) = Some (pm_low v) /\ znth high (fst p * N + snd p) = Some (pm_high v) /\
    pm_width v = up - lo /\ pm_center v = (fst p, (lo + up) / 2).

(** Every schedule of the last kernel ends without undefined behaviour.  The exported protohits are the surviving peaks of C32, each with the flag counts of
    its own bin and the width and middle of the run of labelled bins around it. *)
Theorem C84_collected : forall F snr gt (thr half : F) D N L spec noise X W low high G H m,
  gpu_inputs snr gt thr half D N L spec noise X W -> zlen low = D * N -> zlen high = D * N -> 0 < G -> 0 < H ->
  cuda_run snr gt thr half D N L spec noise G m ->
  let S := fun c => snr (X c) (W (fst c)) in
  let start := (fresh_table m, map CIdle (work (zlen (g_claims m)) 1 H)) in
  always_ends (collect_step N (g_labels m) low high (g_max m) (g_inv m)) start /\
  (forall o, msteps (collect_step N (g_labels m) low high (g_max m) (g_inv m)) start o -> exists c, o = Ok c) /\
  (exists tab, collect_run N low high H m tab) /\
  forall tab, collect_run N low high H m tab -> map fst (exported m tab) = survivors m /\
    forall e, In e (exported m tab) -> exists p v, e = (Some (fst p * N + snd p), Some v) /\ winner gt thr half D N L S p /\
      described (fun c => exists q, owned gt thr half D N L S c q) N low high p v.
Proof.
  intros F snr gt thr half D N L spec noise X W low high G H m Hin Hlo Hhi HG HH Hr S start. destruct Hin as (H1 & H2 & H3 & H4 & H5 & H6 & H7).
  pose proof (run_table snr gt thr half D N L spec noise X W H1 H2 H3 H4 H5 H6 H7 G HG m Hr) as RT.
  pose proof (run_labels snr gt thr half D N L spec noise X W H1 H2 H3 H4 H5 H6 H7 G HG m Hr) as RL.
  set (hit := fun c => exists q, owned gt thr half D N L S c q).
  assert (One : forall p, peak gt thr half D N L S p -> exists v, collect_one N (g_labels m) low high (fst p * N + snd p) = Ok v /\ described hit N low high p v).
  { intros p (((Hb & Hnb & _) & _) & _). assert (B1 : bin D N (fst p, snd p - 1)) by (apply Hnb; unfold nb; cbn [fst snd]; lia).
    assert (B2 : bin D N (fst p, snd p + 1)) by (apply Hnb; unfold nb; cbn [fst snd]; lia).
    unfold bin in Hb, B1, B2. cbn [fst snd] in *. unfold collect_one.
    assert (Q : Z.quot (fst p * N + snd p) N = fst p) by (rewrite Z.quot_div_nonneg by nia; symmetry; apply Z.div_unique with (snd p); lia).
    assert (Rm : Z.rem (fst p * N + snd p) N = snd p) by (rewrite Z.rem_mod_nonneg by nia; symmetry; apply Z.mod_unique with (fst p); lia).
    rewrite Q, Rm.
    assert (HL : forall g, 0 <= g < N -> exists v, znth (g_labels m) (fst p * N + g) = Some v /\ (1 < v <-> hit (fst p, g))).
    { intros g Hg. destruct (RL (fst p, g)) as (v & Ev & Hv); [unfold bin; cbn; lia|]. exists v. split; [exact Ev|].
      destruct Hv as [(q & Ho & H8 & _)|(-> & Hno)]; [split; [intros _; exists q; exact Ho|lia]|]. split; [lia|]. intros (q & Ho). exfalso. exact (Hno q Ho). }
    destruct (low_edge_ok N (g_labels m) _ _ HL (Datatypes.S (Z.to_nat (snd p))) (snd p)) as (lo & -> & L1 & L2 & L3); [lia|lia|]. cbn [obind].
    destruct (high_edge_ok N (g_labels m) _ _ HL (Datatypes.S (Z.to_nat (N - snd p))) (snd p)) as (up & -> & U1 & U2 & U3); [lia|lia|]. cbn [obind].
    destruct (znth_some low (fst p * N + snd p)) as (a & Ea); [nia|]. destruct (znth_some high (fst p * N + snd p)) as (b & Eb); [nia|].
    unfold load, zget. rewrite Ea, Eb. cbn [obind]. rewrite Z.quot_div_nonneg by lia. eexists. split; [reflexivity|].
    exists lo, up. cbn [pm_low pm_high pm_width pm_center]. repeat split; auto; try lia.
    intros g Hg Hne. destruct (Z_lt_le_dec g (snd p)); [apply L2; lia|apply U2; lia]. }
  set (K := zlen (g_claims m)).
  set (want := fun p => match znth (g_inv m) (8 + p), znth (g_max m) (8 + p) with
                        | Some i, Some (Some n) => if i =? 0 then match collect_one N (g_labels m) low high n with Ok v => Some v | _ => None end else None | _, _ => None end).
  assert (HW : forall p, 0 <= p < K -> exists i, zget (g_inv m) (8 + p) = Ok i /\
    (i <> 0 /\ want p = None \/ i = 0 /\ exists n v, zget (g_max m) (8 + p) = Ok (Some n) /\ collect_one N (g_labels m) low high n = Ok v /\ want p = Some v)).
  { intros i Hi. destruct (RT i Hi) as (p & v & Pk & Em & Ei & Hv). exists v. unfold zget, want. rewrite Em, Ei. split; [reflexivity|].
    destruct (Z.eq_dec v 0) as [->|Hne]; [right|left; split; [exact Hne|]; replace (v =? 0) with false by lia; reflexivity].
    split; [reflexivity|]. destruct (One p Pk) as (w & Ew & _). unfold index_of_coord. exists (fst p * N + snd p), w. rewrite Ew. auto. }
  destruct (collect_all N (g_labels m) low high (g_max m) (g_inv m) K want ltac:(unfold K, zlen; lia) HW H HH) as (A1 & A2).
  split; [exact A1|]. split; [intros o Ho; destruct (A2 o Ho) as (tab & ss & -> & _); eauto|]. split.
  { destruct (end_exists _ _ A1) as ((tab & ss) & R & Hh); [intros o Ho; destruct (A2 o Ho) as (tab & ss & -> & _); eauto|]. exists tab, ss. auto. }
  intros tab (ss & R & Hh). destruct (A2 _ R) as (tab' & ss' & E & Hf). injection E as <- <-. destruct (Hf Hh) as (_ & Hf').
  split.
  - unfold exported, survivors. rewrite map_map. cbn [fst]. rewrite <- (map_map (fun i => 8 + i) (fun id => match znth (g_max m) id with Some o => o | None => None end)).
    f_equal. generalize (zrange (zlen (g_claims m))). intros l. induction l as [|i l IH]; [reflexivity|]. cbn [filter map].
    destruct (match znth (g_inv m) (8 + i) with Some v => v =? 0 | None => false end); cbn [map]; rewrite IH; reflexivity.
  - intros e He. unfold exported in He. apply in_map_iff in He as (i & <- & Hi). apply filter_In in Hi as (Hi & Hz). apply in_zrange in Hi.
    destruct (RT i Hi) as (p & v & Pk & Em & Ei & Hv). rewrite Ei in Hz. destruct (One p Pk) as (w & Ew & Hd). exists p, w.
    rewrite Em, (Hf' i Hi). unfold want. rewrite Em, Ei, Hz. unfold index_of_coord. rewrite Ew. split; [reflexivity|]. split; [apply Hv; lia|exact Hd].
Qed.
Print Assumptions C84_collected.
(** A complete run with 3 threads, then 2, on the plane of C32. *)
Definition gx_low : list Z := map (fun i => i mod 5) (zrange 64).
Definition gx_high : list Z := map (fun i => i mod 7) (zrange 64).
Definition collect3 (N H : Z) (low high : list Z) (m : gmem) : option (list (option Z * option pmeta)) :=
  match exec (collect_step N (g_labels m) low high (g_max m) (g_inv m)) 200 (fresh_table m, map CIdle (work (zlen (g_claims m)) 1 H)) with
  | Some (Ok (tab, _)) => Some (exported m tab) | _ => None end.
Lemma collect3_ok N H low high m l : collect3 N H low high m = Some l -> exists tab, collect_run N low high H m tab /\ exported m tab = l.
Proof.
  unfold collect3. destruct (exec _ _ _) as [[(tab & ss)| |]|] eqn:E; try discriminate. intros Hl. injection Hl as <-.
  apply exec_run in E as (R & Hh). exists tab. split; [|reflexivity]. exists ss. auto.
Qed.
Example C84_collected_example : gpu_inputs gx_snr Z.gtb 4 2 8 8 2 gx_plane gx_noise (gx_X gx_plane 8) (fun _ => 1) /\ zlen gx_low = 64 /\ zlen gx_high = 64 /\
  exists m tab, cuda_run gx_snr Z.gtb 4 2 8 8 2 gx_plane gx_noise 3 m /\ collect_run 8 gx_low gx_high 2 m tab /\
    exported m tab = [(Some 19, Some (PMeta 4 5 4 (2, 3))); (Some 46, Some (PMeta 1 4 3 (5, 5)))].
Proof.
  split; [exact gx_inputs|]. split; [reflexivity|]. split; [reflexivity|].
  destruct (ran_ok (collect3 8 2 gx_low gx_high) (run3 3 2 4 2 8 8 gx_plane gx_noise) (Some [(Some 19, Some (PMeta 4 5 4 (2, 3))); (Some 46, Some (PMeta 1 4 3 (5, 5)))])) as (m & E & H); [vm_compute; reflexivity|].
  destruct (collect3_ok _ _ _ _ _ _ H) as (tab & R & Ex). exists m, tab. split; [exact (run3_ok _ _ _ _ _ _ _ _ _ E)|]. auto.
Qed.

(** No GPU protohit is narrower than two bins, although one lit bin is one bin wide. *)
Theorem C84_two_bins_refuted : forall hit N low high p v, described hit N low high p v -> 2 <= pm_width v.
Proof. intros hit N low high p v (lo & up & (H1 & H2 & _) & _ & _ & -> & _). lia. Qed.
Print Assumptions C84_two_bins_refuted.
Example C84_two_bins_example : described (fun _ => False) 8 gx_low gx_high (2, 3) (PMeta 4 5 2 (2, 3)).
Proof. exists 2, 4. cbn [fst snd pm_low pm_high pm_width pm_center]. split; [unfold edges; split; [lia|]; split; [lia|]; split; [intros; lia|]; tauto|]. repeat split. Qed.

(** On the same plane the CPU search reports the same peaks with other bandwidths. *)
Theorem C84_widths_differ_refuted : exists m tab ps,
  cuda_run gx_snr Z.gtb 4 2 8 8 2 gx_plane gx_noise 3 m /\ collect_run 8 gx_low gx_high 2 m tab /\
  cc_cpu gx_snr Z.gtb 4 2 0 0 1000 (dense [8; 8]) gx_plane gx_noise (dense [8; 8], gx_low) (dense [8; 8], gx_high) (dense [8; 8], gx_low) 2 = Some (Ok ps) /\
  map (fun p => Some (fst (ph_max p) * 8 + snd (ph_max p))) ps = map fst (exported m tab) /\
  map (@ph_width Z) ps = [2; 1] /\ map (fun e => option_map pm_width (snd e)) (exported m tab) = [Some 4; Some 3].
Proof.
  destruct C84_collected_example as (_ & _ & _ & m & tab & R1 & R2 & E). exists m, tab.
  destruct (cc_cpu gx_snr Z.gtb 4 2 0 0 1000 (dense [8; 8]) gx_plane gx_noise (dense [8; 8], gx_low) (dense [8; 8], gx_high) (dense [8; 8], gx_low) 2) as [[ps| |]|] eqn:Ec; vm_compute in Ec; try discriminate.
  injection Ec as <-. eexists. split; [exact R1|]. split; [exact R2|]. split; [reflexivity|]. rewrite E. vm_compute. repeat split.
Qed.
Print Assumptions C84_widths_differ_refuted.

Lemma znth_past {A} (l : list A) i : i < 0 \/ zlen l <= i -> znth l i = None.
Proof. intros H. unfold znth. destruct (i <? 0) eqn:E; [reflexivity|]. apply nth_error_None. unfold zlen in H. lia. Qed.
(** A peak in the last bin of the plane makes the kernel read one label past the end; one in the first bin, one before the start. *)
Theorem C84_last_bin_refuted : forall N D lab low high, 0 < N -> 0 < D -> zlen lab = D * N ->
  collect_one N lab low high (D * N - 1) = UB /\ collect_one N lab low high 0 = UB.
Proof.
  intros N D lab low high HN HD Hl. unfold collect_one.
  assert (Q : Z.quot (D * N - 1) N = D - 1) by (rewrite Z.quot_div_nonneg by nia; symmetry; apply Z.div_unique with (N - 1); nia).
  assert (R : Z.rem (D * N - 1) N = N - 1) by (rewrite Z.rem_mod_nonneg by nia; symmetry; apply Z.mod_unique with (D - 1); nia).
  rewrite Q, R. split.
  - destruct (low_edge _ _ _ _ _) as [lo|e|] eqn:El; [|exfalso|reflexivity].
    + cbn [obind high_edge]. unfold load, zget. replace ((D - 1) * N + (N - 1 + 1)) with (D * N) by nia.
      replace (znth lab (D * N)) with (@None Z); [reflexivity|]. symmetry. apply (znth_past lab); lia.
    + revert El. generalize (S (Z.to_nat (N - 1))). generalize (N - 1) at 1. intros f k. revert f. induction k as [|k IH]; intros f; cbn [low_edge]; [discriminate|].
      unfold load, zget. destruct (znth lab _) as [v|]; [|discriminate]. cbn [obind]. destruct (_ && _); [apply IH|discriminate].
  - rewrite Z.quot_0_l, Z.rem_0_l by lia. cbn [low_edge]. unfold load, zget. replace (znth lab (0 * N + (0 - 1))) with (@None Z); [reflexivity|].
    symmetry. apply (znth_past lab); lia.
Qed.
Print Assumptions C84_last_bin_refuted.
Example C84_last_bin_example : zlen [0; 8; 0; 9] = 2 * 2.
Proof. reflexivity. Qed.
