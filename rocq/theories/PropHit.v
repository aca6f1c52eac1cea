(** Property theorems C34-C39: hits, filtering, events. *)
From Verif Require Import HitProofs PropCc.
From Coq Require Import ZifyBool ZifyNat Reals Lra Permutation.
Local Open Scope Z_scope.

(** ** C34 *)
(** What a hit [h] says about a component with bins [ms]; [X], [W]: power and noise of the plane. *)
Definition hit_describes (m : meta) (thr : f32) (X : coord -> f32) (W : Z -> f32) (ms : list coord) (h : hit) : Prop :=
  exists peak lo up,
    strongest f32gt (fun c => f32snr (m_floor m) (X c) (W (fst c))) ms peak /\ spans ms (fst peak) lo up /\
    h_index h = snd peak /\ h_rate h = fst peak /\ znth (m_rates m) (fst peak) = Some (h_drift h) /\
    h_snr h = f32snr (m_floor m) (X peak) (W (fst peak)) /\ f32gt (h_snr h) thr = true /\
    h_power h = widen (sub32 (X peak) (m_floor m)) /\
    h_bins h = up - lo /\ h_band h = narrow (mul64 (f64_of_Z (up - lo)) (Babs (mul64 (f64_of_Z 1000000) (m_foff m)))) /\
    h_freq h = add64 (m_fch1 m) (mul64 (m_foff m) (f64_of_Z ((lo + up) / 2))) /\
    h_time h = mul64 (mul64 (mul64 (m_tstart m) (f64_of_Z 24)) (f64_of_Z 60)) (f64_of_Z 60) /\
    h_dur h = mul64 (m_tsamp m) (f64_of_Z (m_steps m)) /\ h_coarse h = m_coarse m.

(** A search on the CPU: one hit per component, in order; its SNR is the largest of the component, is
    above the threshold, and the fields are those of the component.  [junk] is whatever the
    uninitialised time_span_steps contains. *)
Theorem C34_search_hits : forall m (thr : f32) ls spec noise low high roll L D N X W R junk,
  inputs ls spec noise low high roll D N X W R -> is_finite thr = true -> (bpow radix2 (-125) <= B2R thr)%R ->
  zlen (m_rates m) = D ->
  exists fuel0, forall fuel, (fuel0 <= fuel)%nat ->
    exists ps hs, cc_cpu (f32snr (m_floor m)) f32gt thr (f32half thr) f32_min (f32_of_Z 0) fuel ls spec noise low high roll L = Some (Ok ps) /\
      make_hits m junk ps = Ok hs /\
      partitioned D N (fun c => f32gt (f32snr (m_floor m) (X c) (W (fst c))) thr = true)
                      (fun c => f32gt (f32snr (m_floor m) (X c) (W (fst c))) (f32half thr) = true) (map ph_locs ps) /\
      Forall2 (hit_describes m thr X W) (map ph_locs ps) hs.
Proof.
  intros m thr ls spec noise low high roll L D N X W R junk Hi Hf Ht HD.
  assert (Ht0 : (0 <= B2R thr)%R) by (pose proof (bpow_gt_0 radix2 (-125)); lra).
  destruct (C26_components_partition_float (m_floor m) thr ls spec noise low high roll L D N X W R Hi Hf Ht0) as (f1 & G1).
  destruct (C28_peak_is_strongest_float (m_floor m) thr ls spec noise low high roll L D N X W R Hi Hf Ht) as (f2 & G2).
  destruct (C27_component_is_reachable_set f32 (f32snr (m_floor m)) f32gt thr (f32half thr) f32_min (f32_of_Z 0) ls spec noise low high roll L D N X W R Hi) as (f3 & G3).
  { intros s. now apply thr_half. }
  exists (f1 + f2 + f3)%nat. intros fuel Hfu.
  destruct (G1 fuel ltac:(lia)) as (ps & E1 & Hp). destruct (G2 fuel ltac:(lia)) as (ps2 & E2 & Hd). destruct (G3 fuel ltac:(lia)) as (ps3 & seeds & E3 & Hl & Hseg).
  rewrite E1 in E2, E3. injection E2 as <-. injection E3 as <-.
  assert (Hmax : forall p, In p ps -> bin D N (ph_max p) /\ ph_noise p = Some (W (fst (ph_max p)))).
  { intros p Hin. rewrite Forall_forall in Hd. destruct (Hd p Hin) as (_ & (Hm & _) & _ & _ & Hn & _). split; [|exact Hn].
    destruct Hp as (Hp & _). apply (Hp (ph_locs p)); [now apply in_map|exact Hm]. }
  destruct (make_hits_ok m junk ps) as (hs & Eh & F2).
  { intros p Hin. destruct (Hmax p Hin) as ((Hb & _) & Hn). split; [lia|]. rewrite Hn. discriminate. }
  exists ps, hs. split; [exact E1|]. split; [exact Eh|]. split; [exact Hp|].
  assert (Habove : Forall (fun p => f32gt (ph_snr p) thr = true) ps).
  { apply Forall_forall. intros p Hin. rewrite Forall_forall in Hd. destruct (Hd p Hin) as (_ & (Hm & Hst) & Hsn & _).
    assert (exists s, In s (ph_locs p) /\ f32gt (f32snr (m_floor m) (X s) (W (fst s))) thr = true) as (s & Hs & Ha).
    { destruct (In_nth_error ps p Hin) as (k & Hk). destruct (nth_error seeds k) as [s|] eqn:Es.
      2:{ apply nth_error_None in Es. assert (k < length ps)%nat by (apply nth_error_Some; congruence). lia. }
      exists s. destruct Hseg as (Hseg & _).
      assert (Hc : nth_error (combine seeds (map ph_locs ps)) k = Some (s, ph_locs p)).
      { clear - Hk Es. revert k ps Hk Es. induction seeds as [|s0 seeds IH]; intros [|k] [|p0 ps] Hk Es; try discriminate; cbn in *; [congruence|auto]. }
      apply nth_error_split in Hc as (pre & post & Ec & _). specialize (Hseg pre s (ph_locs p) post Ec).
      destruct Hseg as (_ & Ha & _ & Hr & _ & Hnc). split; [|exact Ha]. apply Hr. apply reach_start; [now left|]. split; [now apply thr_half|exact Hnc]. }
    rewrite Hsn. specialize (Hst s Hs). destruct Hp as (Hp & _). destruct (proj2 (proj2 (Hp (ph_locs p) (in_map _ _ _ Hin))) _ Hm) as (_ & Hok).
    apply f32gt_val in Ha as (A1 & A2 & A3). apply f32gt_val in Hok as (B1 & _ & _). apply f32gt_val. split; [exact B1|]. split; [exact A2|].
    destruct (Rlt_le_dec (fval (f32snr (m_floor m) (X (ph_max p)) (W (fst (ph_max p))))) (fval (f32snr (m_floor m) (X s) (W (fst s))))) as [C|C]; [|lra].
    assert (f32gt (f32snr (m_floor m) (X s) (W (fst s))) (f32snr (m_floor m) (X (ph_max p)) (W (fst (ph_max p)))) = true) by (apply f32gt_val; auto). congruence. }
  clear - F2 Hd Habove. induction F2 as [|p h ps hs (j & Eh) F2 IH]; [constructor|].
  inversion Hd as [|? ? Hp Hd']; subst. inversion Habove as [|? ? Ha Habove']; subst. cbn [map]. constructor; [|auto].
  destruct Hp as (_ & Hst & Hsn & Hpw & Hno & lo & up & Hsp & Hw & Hc). exists (ph_max p), lo, up. split; [exact Hst|]. split; [exact Hsp|].
  unfold make_hit, zget in Eh. destruct (znth (m_rates m) (fst (ph_max p))) as [r|] eqn:Er; [|discriminate]. cbn [obind] in Eh. rewrite Hno in Eh. injection Eh as <-.
  cbn [h_index h_rate h_drift h_snr h_power h_bins h_band h_freq h_time h_dur h_coarse]. rewrite Hpw, Hw, Hc, Hsn in *. cbn [fst snd]. repeat split; auto.
Qed.
Print Assumptions C34_search_hits.
Definition fz (l : list Z) : list f32 := map f32_of_Z l.
Definition hx_plane : list f32 := fz [0; 5; 9; 0; 0; 0; 0; 0].
Definition hx_meta : meta := Meta (f64_of_Z 8000) (f64_of_Z (-3)) (f64_of_Z 59000) (f64_of_Z 18) 16 [f64_of_Z 0; f64_of_Z 1] (f32_of_Z 0) 7.
Definition hx_search : option (outcome (list hit)) :=
  match cc_cpu (f32snr (f32_of_Z 0)) f32gt (f32_of_Z 6) (f32half (f32_of_Z 6)) f32_min (f32_of_Z 0) 400 (dense [2; 4]) hx_plane (fz [1; 1])
               (ex_counts 0) (ex_counts 10) (ex_counts 20) 2 with
  | Some (Ok ps) => Some (make_hits hx_meta (fun _ => 0) ps)
  | _ => None
  end.
Lemma hx_inputs : inputs (dense [2; 4]) hx_plane (fz [1; 1]) (ex_counts 0) (ex_counts 10) (ex_counts 20) 2 4
                         (fun c => nth (Z.to_nat (fst c * 4 + snd c)) hx_plane (f32_of_Z 0)) (fun _ => f32_of_Z 1) ex_R.
Proof.
  destruct ex_inputs as (_ & _ & E3 & E4 & E5 & E6). repeat split; auto.
  - intros c Hc. apply bin_cases in Hc. cbn in Hc. repeat (destruct Hc as [<-|Hc]; [reflexivity|]). destruct Hc.
  - intros d Hd. assert (E : d = 0 \/ d = 1) by lia. destruct E as [->| ->]; reflexivity.
Qed.
Example C34_search_hits_example :
  inputs (dense [2; 4]) hx_plane (fz [1; 1]) (ex_counts 0) (ex_counts 10) (ex_counts 20) 2 4
         (fun c => nth (Z.to_nat (fst c * 4 + snd c)) hx_plane (f32_of_Z 0)) (fun _ => f32_of_Z 1) ex_R /\
  is_finite (f32_of_Z 6) = true /\ (bpow radix2 (-125) <= B2R (f32_of_Z 6))%R /\ zlen (m_rates hx_meta) = 2 /\
  match hx_search with Some (Ok [h]) => (h_index h, h_rate h, h_bins h, h_coarse h) | _ => (0, 0, 0, 0) end = (2, 0, 1, 7).
Proof.
  split; [exact hx_inputs|]. split; [reflexivity|].
  split; [destruct (f32_of_Z_ok 6) as (-> & _); [lia|]; apply Rle_trans with (bpow radix2 0); [apply bpow_le; lia|cbn; lra]|].
  split; [reflexivity|]. vm_compute. reflexivity.
Qed.

(** The table is indexed by the drift row of the peak without check: outside it the behaviour is undefined. *)
Theorem C34_short_table : forall m j p, ~ 0 <= fst (ph_max p) < zlen (m_rates m) -> make_hit m j p = UB.
Proof.
  intros m j p H. unfold make_hit, zget. destruct (znth (m_rates m) (fst (ph_max p))) as [r|] eqn:E; [|reflexivity].
  apply znth_bounds in E. lia.
Qed.
Print Assumptions C34_short_table.
Example C34_short_table_example : make_hit hx_meta 0 (Protohit (2, 0) (2, 0) (f32_of_Z 9) (f32_of_Z 9) (Some (f32_of_Z 1)) 0 [(2, 0)] None) = UB.
Proof. apply C34_short_table. change (zlen (m_rates hx_meta)) with 2. cbn [ph_max fst]. lia. Qed.

(** start_freq_MHz is not the frequency of start_freq_index: it is that of the middle of the extent. *)
Theorem C34_start_frequency_refuted :
  match hx_search with
  | Some (Ok [h]) => f64eq (h_freq h) (add64 (m_fch1 hx_meta) (mul64 (m_foff hx_meta) (f64_of_Z (h_index h))))
  | _ => true
  end = false.
Proof. vm_compute. reflexivity. Qed.
Print Assumptions C34_start_frequency_refuted.
(** Two searches of the same channel need not produce equal hits: time_span_steps is never written. *)
Theorem C34_uninitialised_field_refuted : forall m p j j' h h',
  make_hit m j p = Ok h -> make_hit m j' p = Ok h' -> j <> j' -> hit_eqb h h' = false.
Proof.
  intros m p j j' h h' H H' Hj. unfold make_hit, zget in *. destruct (znth _ _); [|discriminate]. cbn [obind] in *. destruct (ph_noise p); [|discriminate].
  injection H as <-. injection H' as <-. unfold hit_eqb. cbn [h_index h_freq h_time h_dur h_rate h_drift h_power h_steps h_snr h_band h_bins h_rfi].
  replace (j =? j') with false by (symmetry; now apply Z.eqb_neq). now rewrite andb_false_r.
Qed.
Print Assumptions C34_uninitialised_field_refuted.

(** ** C35 *)
Theorem C35_filter_keeps : forall zero_drift hs, Forall (fun h => is_map (h_rfi h)) hs ->
  exists ks, selects (kept zero_drift) hs ks /\ Forall2 recounted ks (filter_hits zero_drift hs).
Proof. intros. now apply filter_hits_spec. Qed.
Print Assumptions C35_filter_keeps.
Definition h0 : hit := Hit 1 (f64_of_Z 8000) (f64_of_Z 0) (f64_of_Z 288) 2 (f64_of_Z 1) (f64_of_Z 5) 16 (f32_of_Z 20) (f32_of_Z 3) 4 [(1, 0); (2, 0); (4, 9)] 0.
Definition with_rfi (h : hit) (m : rfi) : hit :=
  Hit (h_index h) (h_freq h) (h_time h) (h_dur h) (h_rate h) (h_drift h) (h_power h) (h_steps h) (h_snr h) (h_band h) (h_bins h) m (h_coarse h).
Definition with_drift (h : hit) (x : f64) : hit :=
  Hit (h_index h) (h_freq h) (h_time h) (h_dur h) (h_rate h) x (h_power h) (h_steps h) (h_snr h) (h_band h) (h_bins h) (h_rfi h) (h_coarse h).
Example C35_filter_keeps_example :
  Forall (fun h => is_map (h_rfi h)) [h0; with_rfi h0 [(2, 3)]; with_drift h0 (f64_of_Z 0); with_rfi h0 []] /\
  map h_rfi (filter_hits true [h0; with_rfi h0 [(2, 3)]; with_drift h0 (f64_of_Z 0); with_rfi h0 []]) = [[(1, 0); (2, 0); (4, 9)]; [(1, 0); (2, 0)]] /\
  length (filter_hits false [h0; with_rfi h0 [(2, 3)]; with_drift h0 (f64_of_Z 0); with_rfi h0 []]) = 3%nat.
Proof. split; [repeat (constructor; [cbn; lia|]); constructor|]. split; vm_compute; reflexivity. Qed.

Theorem C35_filter_idempotent : forall zero_drift hs, Forall (fun h => is_map (h_rfi h)) hs ->
  filter_hits zero_drift (filter_hits zero_drift hs) = filter_hits zero_drift hs.
Proof. intros. now apply filter_hits_twice. Qed.
Print Assumptions C35_filter_idempotent.
Example C35_filter_idempotent_example : Forall (fun h => is_map (h_rfi h)) [with_rfi h0 []].
Proof. repeat constructor. Qed.

(** A channel without hits is an error, never an empty result. *)
Theorem C35_channel_without_hits : forall zero_drift o r, filter_channel zero_drift o = r ->
  (r = Throw InvalidArgument <-> o = None) /\ (forall r', r = Ok r' -> exists hs, o = Some hs /\ r' = Some (filter_hits zero_drift hs)).
Proof. intros z [hs|] r <-; cbn; split; try (split; intros; congruence); intros r' H; [injection H as <-; eauto|discriminate]. Qed.
Print Assumptions C35_channel_without_hits.
Example C35_channel_without_hits_example : filter_channel true None = Throw InvalidArgument. Proof. reflexivity. Qed.

(** A kept hit need not equal the original one: looking a count up inserts it. *)
Theorem C35_unchanged_refuted : exists h, is_map (h_rfi h) /\
  match filter_hits true [h] with [h'] => hit_eqb h h' | _ => true end = false.
Proof. exists (with_rfi h0 []). split; [exact I|]. vm_compute. reflexivity. Qed.
Print Assumptions C35_unchanged_refuted.

(** ** C36 *)
(** What the cached distance may answer: the distance of a pair the map takes for (a, b). *)
Definition cache_can (a b : hit) (d : f32) : Prop := exists p, same_key p (a, b) /\ d = distance_func (fst p) (snd p).
Definition cache_legal {S} (dist : S -> hit -> hit -> f32 * S) (Inv : S -> Prop) : Prop :=
  forall s a b, Inv s -> Inv (snd (dist s a b)) /\ cache_can a b (fst (dist s a b)).

Lemma picks_added can l ev ev' : picks can l ev ev' ->
  exists added ks, ev' = ev ++ added /\ Sorted.StronglySorted lt ks /\
    Forall2 (fun k h => exists hs, nth_error l k = Some hs /\ In h hs) ks added /\
    forall pre h post, added = pre ++ h :: post -> near_event can (ev ++ pre) h (f32_of_Z 50).
Proof.
  induction 1 as [ev|hs l ev ev' P (added & ks & E & Hs & F & Hn)|hs h l ev ev' Hin Hh P (added & ks & E & Hs & F & Hn)].
  - exists [], []. rewrite app_nil_r. repeat split; try constructor. intros [|] ? ? G; discriminate.
  - exists added, (map S ks). split; [exact E|].
    split; [clear - Hs; induction Hs; cbn; constructor; auto; apply Forall_map; eapply Forall_impl; [|eassumption]; cbn; lia|].
    split; [clear - F; induction F; cbn; constructor; auto|exact Hn].
  - exists (h :: added), (O :: map S ks). split; [rewrite E, <- app_assoc; reflexivity|].
    split; [constructor; [clear - Hs; induction Hs; cbn; constructor; auto; apply Forall_map; eapply Forall_impl; [|eassumption]; cbn; lia|apply Forall_map, Forall_forall; lia]|].
    split; [constructor; [exists hs; auto|clear - F; induction F; cbn; constructor; auto]|].
    intros [|x pre] y post G; cbn in G; injection G as <- G; [rewrite app_nil_r; exact Hh|]. subst added.
    specialize (Hn pre y post eq_refl). now rewrite <- app_assoc in Hn.
Qed.

(** Every hit of the on-target scans is in at most one event; an event has at least two hits, at most
    one of each on-target scan, in scan order, each below the limit from an earlier hit of the event; no
    off-target hit has a mean distance below the limit. *)
Theorem C36_events : forall S (dist : S -> hit -> hit -> f32 * S) Inv s on off,
  cache_legal dist Inv -> Inv s ->
  exists evs, event_search dist s (on :: off) = Ok evs /\
    (exists lost, Permutation (flat_map ev_hits evs ++ lost) (flat_map snd on)) /\
    forall e, In e evs ->
      2 <= zlen (ev_hits e) /\
      (exists ks, Sorted.StronglySorted lt ks /\
         Forall2 (fun k h => exists sc, nth_error on k = Some sc /\ In h (snd sc)) ks (ev_hits e)) /\
      (forall pre h post, ev_hits e = pre ++ h :: post -> pre <> [] -> near_event cache_can pre h (f32_of_Z 50)) /\
      (forall o sc, In sc (concat off) -> In o (snd sc) ->
         exists m, mean_distance cache_can o (ev_hits e) m /\ f32lt m (f32_of_Z 50) = false).
Proof.
  intros S dist Inv s on off Hl HI. unfold event_search.
  destruct (from_scans_spec dist Inv cache_can Hl (flat_map snd (concat off)) (map fst on) s (map snd on) HI) as (evs & s' & E & _ & F).
  rewrite E. cbn [obind fst]. exists evs. split; [reflexivity|].
  split; [destruct (fromall_perm _ _ _ _ _ F) as (lost & P); exists lost; now rewrite (flat_map_concat_map snd on)|].
  intros e He. destruct (fromall_events _ _ _ _ _ F e He) as (k & sp & starts & h & ev & A & B & C & D & (-> & Hz & Ho)).
  cbn [averaged ev_hits]. destruct (picks_added _ _ _ _ D) as (added & ks & -> & Hs & F2 & Hn).
  split; [lia|]. split; [|split].
  - exists (k :: map (fun i => (Datatypes.S k + i)%nat) ks). split.
    + constructor; [clear - Hs; induction Hs; cbn; constructor; auto; apply Forall_map; eapply Forall_impl; [|eassumption]; cbn; lia|apply Forall_map, Forall_forall; lia].
    + cbn [app]. constructor.
      * rewrite nth_error_map in B. destruct (nth_error on k) as [sc|]; [|discriminate]. injection B as <-. exists sc. auto.
      * clear - F2. induction F2 as [|i x is xs (hs & N1 & N2) F IH]; cbn [map]; constructor; auto.
        assert (N1' : nth_error (map snd on) (Datatypes.S k + i) = Some hs).
        { rewrite <- N1. clear. generalize (Datatypes.S k) as n. generalize (map snd on) as l. intros l n. revert l. induction n as [|n IH]; intros [|x l]; cbn; auto. now destruct i. }
        rewrite nth_error_map in N1'. destruct (nth_error on (Datatypes.S k + i)) as [sc|]; [|discriminate]. injection N1' as <-. eauto.
  - intros [|x pre] y post G Hp; [contradiction|]. cbn [app] in G. injection G as <- G. exact (Hn pre y post G).
  - intros o sc Hsc Hin. apply Ho. apply in_flat_map. eauto.
Qed.
Print Assumptions C36_events.

(** A cache kept as a list of entries is legal. *)
Definition list_cache (c : list (hit * hit * f32)) (a b : hit) : f32 * list (hit * hit * f32) :=
  match find (fun e => negb (cache_ltb (fst e) (a, b)) && negb (cache_ltb (a, b) (fst e))) c with
  | Some e => (snd e, c)
  | None => (distance_func a b, (a, b, distance_func a b) :: c)
  end.
Lemma same_key_refl p : same_key p p.
Proof.
  assert (H : cache_ltb p p = false); [|split; exact H]. unfold cache_ltb. destruct (_ && _); [reflexivity|]. destruct (_ && _); [reflexivity|].
  assert (L : forall h, hit_ltb h h = false).
  { intros h. unfold hit_ltb. rewrite !Z.eqb_refl, !Z.ltb_irrefl. cbn [negb].
    assert (E : forall x : f64, f64lt x x = false).
    { intros x. unfold f64lt. destruct (is_nan x) eqn:En; [rewrite compare_nan; auto|]. rewrite compare_val by auto. now rewrite Rcompare_Eq. }
    assert (E' : forall x : f32, f32lt x x = false) by (intros; apply f32gt_irrefl). rewrite !E, !E'.
    assert (R : forall m, rfi_ltb m m = false).
    { induction m as [|(k, v) m IH]; [reflexivity|]. cbn [rfi_ltb]. unfold pair_ltb. cbn [fst snd]. rewrite !Z.ltb_irrefl. cbn. exact IH. }
    rewrite R. destruct (f64eq _ _), (f64eq _ _), (f64eq _ _), (f64eq _ _), (f64eq _ _), (f32eq _ _), (f32eq _ _); reflexivity. }
  unfold hpair_ltb. rewrite !L. reflexivity.
Qed.
Example C36_events_example :
  cache_legal list_cache (fun c => Forall (fun e => snd e = distance_func (fst (fst e)) (snd (fst e))) c) /\
  let a := h0 in let b := with_drift h0 (f64_of_Z 1) in
  match event_search list_cache [] [[(Span (f64_of_Z 0) (f64_of_Z 288), [a]); (Span (f64_of_Z 0) (f64_of_Z 288), [with_drift a (f64_of_Z 1000); b])]; []] with
  | Ok [e] => zlen (ev_hits e) | _ => 0 end = 2.
Proof.
  split.
  - intros c a b HI. unfold list_cache. destruct (find _ c) as [e|] eqn:E; cbn [fst snd].
    + apply find_some in E as (Hin & E). split; [exact HI|]. rewrite Forall_forall in HI. exists (fst e). split; [|now apply HI].
      apply andb_prop in E as (E1 & E2). split; [now apply negb_true_iff in E1|now apply negb_true_iff in E2].
    + split; [constructor; auto|]. exists (a, b). split; [apply same_key_refl|reflexivity].
  - vm_compute. reflexivity.
Qed.

(** For hits without NaN the map takes for (a, b) only the pairs equal to (a, b) or (b, a). *)
Theorem C36_cache_key : forall a b c d, no_nan a -> no_nan b -> no_nan c -> no_nan d ->
  same_key (a, b) (c, d) <-> (hit_eqb a c = true /\ hit_eqb b d = true) \/ (hit_eqb a d = true /\ hit_eqb b c = true).
Proof. apply same_key_pair. Qed.
Print Assumptions C36_cache_key.
Example C36_cache_key_example : no_nan h0. Proof. vm_compute. tauto. Qed.

(** A cadence without observations: the first one is accessed all the same. *)
Theorem C36_no_observation_refuted : forall S (dist : S -> hit -> hit -> f32 * S) s, event_search dist s [] = UB.
Proof. reflexivity. Qed.
Print Assumptions C36_no_observation_refuted.

(** The order of the cache is not one: std::map requires a transitive comparison. *)
Theorem C36_cache_order_refuted : forall a b c, no_nan a -> no_nan b -> no_nan c -> hit_ltb a b = true -> hit_ltb b c = true ->
  cache_ltb (a, b) (a, c) = true /\ cache_ltb (a, c) (b, a) = true /\ cache_ltb (a, b) (b, a) = false.
Proof.
  intros a b c Ha Hb Hc Hab Hbc.
  assert (N : forall x y, no_nan x -> no_nan y -> hit_ltb x y = true -> hit_eqb x y = false /\ hit_eqb y x = false).
  { intros x y Hx Hy H. apply hit_ltb_key in H; auto.
    split; [destruct (hit_eqb x y) eqn:E|destruct (hit_eqb y x) eqn:E]; auto; apply hit_eqb_key in E; auto; rewrite E in H; exfalso; now apply lex_irrefl in H. }
  assert (Hac : hit_ltb a c = true) by (apply hit_ltb_key; auto; apply lex_trans with (key b); now apply hit_ltb_key).
  assert (Haa : hit_ltb a a = false).
  { destruct (hit_ltb a a) eqn:E; auto. apply hit_ltb_key in E; auto. exfalso. now apply lex_irrefl in E. }
  destruct (N a b) as (N1 & N2); auto. destruct (N b c) as (N3 & N4); auto. destruct (N a c) as (N5 & N6); auto.
  unfold cache_ltb, hpair_ltb. cbn [fst snd]. rewrite (hit_eqb_refl a), (hit_eqb_refl b), N1, N2, N3, N5, Hab, Hbc, Haa by auto. rewrite ?N4, ?N6. cbn. auto.
Qed.
Print Assumptions C36_cache_order_refuted.
Example C36_cache_order_example : hit_ltb h0 (with_drift h0 (f64_of_Z 2)) = true /\ hit_ltb (with_drift h0 (f64_of_Z 2)) (with_drift h0 (f64_of_Z 3)) = true.
Proof. vm_compute. auto. Qed.

(** ** C37 *)
(** In exact arithmetic the distance is symmetric when the durations or the drift rates agree. *)
Theorem C37_symmetric_exact : forall eps cent (a b : motion R) sd,
  t_dur a = t_dur b \/ t_drift a = t_drift b ->
  distance_gen (arithR eps cent) a b sd = distance_gen (arithR eps cent) b a sd.
Proof. exact distance_sym_R. Qed.
Print Assumptions C37_symmetric_exact.
Example C37_symmetric_exact_example : t_dur (Motion 1 2 288 3)%R = t_dur (Motion 4 5 288 6)%R. Proof. reflexivity. Qed.
(** Otherwise the order of the arguments moves the meeting time by half the difference of durations. *)
Theorem C37_symmetric_exact_refuted : forall eps (a b : motion R),
  t_drift a = 1%R -> t_drift b = 0%R -> t_time a = 0%R -> t_time b = 0%R -> t_freq a = 0%R -> t_freq b = 0%R ->
  (0 <= t_dur a)%R -> (0 <= t_dur b)%R ->
  (distance_gen (arithR eps 1) a b 0 - distance_gen (arithR eps 1) b a 0 = (t_dur b - t_dur a) / 2)%R.
Proof. exact distance_asym_R. Qed.
Print Assumptions C37_symmetric_exact_refuted.
(** The same in doubles: hits may match in one order and not in the other. *)
Theorem C37_symmetric_refuted : exists a b, no_nan a /\ no_nan b /\
  f32lt (distance_func a b) (f32_of_Z 50) = true /\ f32lt (distance_func b a) (f32_of_Z 50) = false.
Proof.
  exists (Hit 0 (f64_of_Z 1) (f64_of_Z 0) (f64_of_Z 20000) 0 (f64_of_Z 10) (f64_of_Z 1) 0 (f32_of_Z 1) (f32_of_Z 1) 1 [] 0).
  exists (Hit 0 (f64_of_Z 1) (f64_of_Z 0) (f64_of_Z 100) 0 (f64_of_Z 9) (f64_of_Z 1) 0 (f32_of_Z 1) (f32_of_Z 1) 1 [] 0).
  vm_compute. tauto.
Qed.
Print Assumptions C37_symmetric_refuted.

(** ** C38 *)
Theorem C38_strict_order : forall a b c, no_nan a -> no_nan b -> no_nan c ->
  hit_ltb a a = false /\
  (hit_ltb a b = true -> hit_ltb b c = true -> hit_ltb a c = true) /\
  (hit_ltb a b = true -> hit_ltb b a = false) /\
  (hit_eqb a b = true <-> hit_ltb a b = false /\ hit_ltb b a = false).
Proof.
  intros a b c Ha Hb Hc.
  assert (Hf : forall x y, no_nan x -> no_nan y -> hit_ltb x y = false <-> ~ lex (key x) (key y)).
  { intros x y Hx Hy. rewrite <- hit_ltb_key by auto. now destruct (hit_ltb x y). }
  rewrite !Hf, !hit_ltb_key, hit_eqb_key by auto. split; [apply lex_irrefl|]. split; [apply lex_trans|].
  split; [intros H H'; exact (lex_irrefl _ (lex_trans _ _ _ H H'))|].
  split; [intros ->; split; apply lex_irrefl|]. intros (H1 & H2). destruct (lex_total (key a) (key b)) as [H|[H|H]]; tauto.
Qed.
Print Assumptions C38_strict_order.
Theorem C38_equality : forall a b c, no_nan a -> no_nan b -> no_nan c ->
  hit_eqb a a = true /\ hit_eqb a b = hit_eqb b a /\ (hit_eqb a b = true -> hit_eqb b c = true -> hit_eqb a c = true) /\
  (hit_eqb a b = true -> hit_ltb a c = hit_ltb b c /\ hit_ltb c a = hit_ltb c b).
Proof.
  intros a b c Ha Hb Hc. split; [now apply hit_eqb_refl|]. split; [now apply hit_eqb_sym|]. split; [rewrite !hit_eqb_key by auto; congruence|].
  intros H. apply hit_eqb_key in H; auto.
  split; apply Bool.eq_true_iff_eq; rewrite !hit_ltb_key by auto; rewrite H; reflexivity.
Qed.
Print Assumptions C38_equality.
Example C38_example : no_nan h0 /\ no_nan (with_drift h0 (B754_zero true)) /\ no_nan (with_drift h0 (B754_infinity true)) /\
  hit_ltb (with_drift h0 (B754_infinity true)) h0 = true /\ hit_eqb (with_drift h0 (B754_zero true)) (with_drift h0 (B754_zero false)) = true.
Proof. vm_compute. tauto. Qed.
(** With NaN hits the order is not even a weak one: "neither is smaller" is not transitive. *)
Theorem C38_nan_refuted : exists a b c, no_nan a /\ no_nan c /\
  hit_ltb a b = false /\ hit_ltb b a = false /\ hit_ltb b c = false /\ hit_ltb c b = false /\ hit_ltb a c = true.
Proof. exists h0, (with_drift h0 B754_nan), (with_drift h0 (f64_of_Z 2)). vm_compute. tauto. Qed.
Print Assumptions C38_nan_refuted.
(** Hits of different coarse channels can be equal keys. *)
Theorem C38_coarse_channel_refuted : forall h k, no_nan h ->
  let h' := Hit (h_index h) (h_freq h) (h_time h) (h_dur h) (h_rate h) (h_drift h) (h_power h) (h_steps h) (h_snr h) (h_band h) (h_bins h) (h_rfi h) k in
  hit_eqb h h' = true /\ hit_ltb h h' = false /\ hit_ltb h' h = false.
Proof.
  intros h k H. cbv zeta. set (h' := Hit _ _ _ _ _ _ _ _ _ _ _ _ _). assert (H' : no_nan h') by exact H.
  assert (E : hit_eqb h h' = true) by (apply hit_eqb_key; auto). split; [exact E|]. now apply (proj2 (proj2 (proj2 (C38_strict_order h h' h H H' H)))).
Qed.
Print Assumptions C38_coarse_channel_refuted.

(** ** C39 *)
(** Rebuilding a hit from its state: integers, snr and bandwidth exactly; frequency, drift and power
    when they are binary32 values; time_span_steps up to 2^24.  The other fields are those of the
    object assigned to. *)
Theorem C39_state_fields : forall h target h', set_state target (get_state h) = Ok h' ->
  h_index h' = h_index h /\ h_rate h' = h_rate h /\ h_bins h' = h_bins h /\ h_snr h' = h_snr h /\ h_band h' = h_band h /\
  (forall x, h_freq h = widen x -> h_freq h' = h_freq h) /\
  (forall x, h_drift h = widen x -> h_drift h' = h_drift h) /\
  (forall x, h_power h = widen x -> h_power h' = h_power h) /\
  (Z.abs (h_steps h) <= 2 ^ 24 -> h_steps h' = h_steps h) /\
  h_time h' = h_time target /\ h_dur h' = h_dur target /\ h_rfi h' = h_rfi target /\ h_coarse h' = h_coarse target.
Proof.
  intros h target h'. unfold set_state. cbn [get_state st_index st_freq st_rate st_drift st_power st_steps st_snr st_band st_bins].
  destruct (trunc_to_int64 (f32_of_Z (h_steps h))) as [t| |] eqn:E; try discriminate. cbn [obind]. intros H. injection H as <-.
  cbn [h_index h_freq h_time h_dur h_rate h_drift h_power h_steps h_snr h_band h_bins h_rfi h_coarse].
  rewrite narrow_widen. repeat split; auto; try (intros x ->; now rewrite narrow_widen).
  intros Ht. rewrite steps_exact in E by auto. congruence.
Qed.
Print Assumptions C39_state_fields.
Example C39_state_fields_example : exists h', set_state h0 (get_state h0) = Ok h'.
Proof. unfold set_state. cbn [get_state st_steps h0 h_steps]. rewrite steps_exact by (vm_compute; discriminate). cbn [obind]. eauto. Qed.

(** Pickling a second time loses nothing more. *)
Theorem C39_state_stable : forall h target h', set_state target (get_state h) = Ok h' -> get_state h' = get_state h.
Proof. exact state_again. Qed.
Print Assumptions C39_state_stable.

(** A frequency in MHz with more than 24 bits is not given back. *)
Theorem C39_round_trip_refuted : exists h, no_nan h /\
  match set_state h (get_state h) with Ok h' => hit_eqb h' h | _ => true end = false.
Proof.
  exists (Hit 1 (f64_of_Z 16777217) (f64_of_Z 0) (f64_of_Z 288) 2 (f64_of_Z 1) (f64_of_Z 5) 16 (f32_of_Z 20) (f32_of_Z 3) 4 [] 0).
  split; [vm_compute; tauto|]. vm_compute. reflexivity.
Qed.
Print Assumptions C39_round_trip_refuted.
(** The largest step counts do not survive: the float rounds up to 2^63 and the conversion back is undefined. *)
Theorem C39_large_steps_refuted : forall target h, h_steps h = 2 ^ 63 - 1 -> set_state target (get_state h) = UB.
Proof. intros target h E. unfold set_state. cbn [get_state st_steps]. rewrite E. reflexivity. Qed.
Print Assumptions C39_large_steps_refuted.
