(** Property theorems C78: the search of one channel on the CPU, from samples to hits. *)
From Verif Require Import DriftAgree NdProofs NdIndexFacts NdMemFacts FlagProofs FlagProofs3 PipeModel DriftSearchProofs DriftProofs GredReal CcSpec CcProofs2 HitProofs PropFlag PropDrift PropCc PropHit FloatErr PipeProofs.
From Coq Require Import ZifyBool ZifyNat Reals Lra Permutation.
Local Open Scope Z_scope.
Local Open Scope list_scope.

(** ** Specification *)
(** Average power along the line of span [s] that begins in channel [f]. *)
Definition mean_power (S : Z -> Z -> f32) (T N : Z) (desmear : bool) (s f : Z) : f32 :=
  let r := cpu_rate T desmear s in
  f32_div_int (lsum add32 (f32_of_Z 0) (map (fun tc => f32_div_int (S (fst tc) (snd tc)) (width T desmear s)) (track N T r f))) T.
(** Noise of an average over T spectra and [w] channels. *)
Definition mean_noise (power : f32) (T w : Z) : f32 :=
  narrow (div64 (widen power) (Bsqrt (prec := 53) (emax := 1024) mode_NE (f64_of_Z (T * w)))).
(** Drift rate in Hz per second of a line of span [s]. *)
Definition line_hz (foff tsamp : f64) (T s : Z) : f64 :=
  div64 (mul64 (mul64 (widen (slope T s)) foff) (f64_of_Z 1000000)) tsamp.
(** Number of flagged samples (modulo 256) on the line. *)
Definition line_flags (M : Z -> Z -> Z) (T N : Z) (desmear : bool) (flag s f : Z) : Z := flagged flag M (track N T (cpu_rate T desmear s) f) mod 256.

Lemma to_uint8_mod a : to_uint8 (a mod 256) = a mod 256.
Proof. unfold to_uint8. apply Zmod_mod. Qed.
Lemma make_hits_rfi m ps : forall junk hs, make_hits m junk ps = Ok hs -> map h_rfi hs = map (fun p => rfi_of (ph_rfi p)) ps.
Proof.
  induction ps as [|p ps IH]; intros junk hs H; cbn [make_hits] in H; [injection H as <-; reflexivity|].
  unfold make_hit in H at 1. destruct (zget _ _) as [r| |]; cbn [obind] in H; try discriminate. destruct (ph_noise p) as [w|]; [|discriminate].
  cbn [obind] in H. destruct (make_hits m _ ps) as [hs'| |] eqn:E; cbn [obind] in H; try discriminate. injection H as <-.
  cbn [map h_rfi]. f_equal. eapply IH; eauto.
Qed.

Section Search.
Variables (i : channel_info) (o : search_options) (T N : Z) (S : Z -> Z -> f32) (M : Z -> Z -> Z).
Let D := grid_size (s_low o) (s_high o) (s_step o).
Let span d := grid_span (s_low o) (s_step o) d.
(** The search grid is not empty, its lines fit into the channel, and the plane has fewer than 2^31 bins. *)
Definition good_grid : Prop :=
  2 <= T <= 2 ^ 24 /\ 0 < N /\ s_step o <> 0 /\ 0 < D /\ moderate (s_low o) (s_high o) (s_step o) /\ D * N < 2 ^ 31 /\
  forall d, 0 <= d < D -> Z.abs (span d) + width T (s_desmear o) (span d) - 1 <= N.
Definition bin_power (c : coord) : f32 := mean_power S T N (s_desmear o) (span (fst c)) (snd c).
Definition bin_noise (power : f32) (d : Z) : f32 := mean_noise power T (width T (s_desmear o) (span d)).
Definition bin_snr (floor power : f32) (c : coord) : f32 := f32snr floor (bin_power c) (bin_noise power (fst c)).
Definition bin_flags (c : coord) : rfi :=
  let n flag := line_flags M T N (s_desmear o) flag (span (fst c)) (snd c) in [(1, n flag_rolloff); (2, n flag_low_sk); (4, n flag_high_sk)].
Definition channel_meta (floor : f32) : meta :=
  Meta (ci_fch1 i) (ci_foff i) (ci_tstart i) (ci_tsamp i) T (map (fun d => line_hz (ci_foff i) (ci_tsamp i) T (span d)) (zrange D)) floor (ci_number i).
(** The hits [hs] are those of the components [comps]: one each, in order. *)
Definition found (floor power : f32) (comps : list (list coord)) (hs : list hit) : Prop :=
  partitioned D N (fun c => f32gt (bin_snr floor power c) (s_threshold o) = true) (fun c => f32gt (bin_snr floor power c) (f32half (s_threshold o)) = true) comps /\
  Forall2 (hit_describes (channel_meta floor) (s_threshold o) bin_power (bin_noise power)) comps hs /\
  exists seeds, length seeds = length comps /\ map h_rfi hs = map bin_flags seeds /\
    segmentation D N (fun c => f32gt (bin_snr floor power c) (s_threshold o) = true) (fun c => f32gt (bin_snr floor power c) (f32half (s_threshold o)) = true)
      (near_by D N (l1_offsets (s_distance o))) (combine seeds comps).

Definition bin_counts (c : coord) : Z * Z * Z :=
  let n flag := line_flags M T N (s_desmear o) flag (span (fst c)) (snd c) in (n flag_low_sk, n flag_high_sk, n flag_rolloff).
Lemma search_inputs ls lm data mask power :
  holds ls data T N S -> holds lm mask T N M -> good_grid ->
  exists ds st, compute_drifts T (s_low o) (s_high o) (s_step o) (s_desmear o) = Ok ds /\ zlen ds = D /\
    search_drifts_cpu (f32_of_Z 0) add32 f32_div_int ls lm data mask (s_low o) (s_high o) (s_step o) (s_desmear o) = Ok st /\
    (forall floor, map (drift_hz (ci_foff i) (ci_tsamp i)) ds = m_rates (channel_meta floor)) /\
    let lp := dense [D; N] in
    inputs lp (p_sum st) (map (adjusted_noise power T) ds) (lp, p_low st) (lp, p_high st) (lp, p_roll st) D N bin_power (bin_noise power) bin_counts.
Proof.
  intros Hs Hm (HT & HN & Hst & HD & Hmod & HDN & Hw).
  assert (HN63 : 0 <= N < 2 ^ 63) by nia.
  pose proof (compute_drifts_ok T (s_low o) (s_high o) (s_step o) (s_desmear o) HT Hst ltac:(fold D; lia) Hmod) as Ed. fold D in Ed.
  set (ds := map _ _) in Ed.
  assert (Ld : zlen ds = D) by (unfold ds, zlen; rewrite map_length; pose proof (zrange_length D); unfold zlen in *; lia).
  destruct (cpu_exact (f32_of_Z 0) add32 f32_div_int ls lm data mask (cpu_rates T (s_low o) (s_high o) (s_step o) (s_desmear o)) T N S M Hs Hm HN63) as (st & Est & Hsz & Hcell).
  { unfold cpu_rates. apply Forall_map, Forall_forall. intros d Hd. apply in_zrange in Hd. apply cpu_rate_signed; auto. }
  { unfold cpu_rates. apply Forall_map, Forall_forall. intros d Hd. apply in_zrange in Hd. apply cpu_rate_fits; auto. }
  assert (Hat : forall d f, 0 <= d < D -> 0 <= f < N -> at_cell st (d * N + f) (bin_power (d, f))
     (line_flags M T N (s_desmear o) flag_low_sk (span d) f) (line_flags M T N (s_desmear o) flag_high_sk (span d) f) (line_flags M T N (s_desmear o) flag_rolloff (span d) f)).
  { intros d f Hd Hf'. apply (Hcell d (cpu_rate T (s_desmear o) (span d)) f); [|exact Hf'].
    unfold cpu_rates, znth. replace (d <? 0) with false by lia. rewrite nth_error_map, nth_error_zrange by exact Hd. reflexivity. }
  set (lp := dense [D; N]).
  assert (Hi : inputs lp (p_sum st) (map (adjusted_noise power T) ds) (lp, p_low st) (lp, p_high st) (lp, p_roll st) D N bin_power (bin_noise power) bin_counts).
  { split; [split; [reflexivity|]|].
    - intros c (Hd & Hf'). unfold lp. rewrite lin_dense. destruct c as (d, f). apply (Hat d f Hd Hf').
    - split; [|split; [|lia]].
      + intros d Hd. unfold ds. rewrite map_map. unfold znth. replace (d <? 0) with false by lia. rewrite nth_error_map, nth_error_zrange by exact Hd. reflexivity.
      + intros (d, f) (Hd & Hf'). cbn [fst snd] in *. destruct (Hat d f Hd Hf') as (_ & A1 & A2 & A3). unfold rfi_at. cbn [fst snd].
        assert (Es : forall m : mem Z, scalarize m lp [d; f] = match znth m (d * N + f) with Some v => Ok v | None => UB end).
        { intros m. unfold scalarize, lp, load, zget. cbn -[znth Z.mul Z.add]. now replace (0 + d * (1 * N) + (0 + f * 1 + 0)) with (d * N + f) by ring. }
        rewrite !Es, A1, A2, A3. reflexivity. }
  exists ds, st. split; [exact Ed|]. split; [exact Ld|]. split.
  { rewrite (search_reduces (f32_of_Z 0) add32 f32_div_int ls lm data mask T N) by (auto; apply Hs). exact Est. }
  split; [|exact Hi]. intros floor. unfold ds. rewrite map_map. apply map_ext. reflexivity.
Qed.

Lemma search_ok ls lm data mask floor power junk :
  holds ls data T N S -> holds lm mask T N M -> good_grid -> s_method o = ConnectedComponents ->
  is_finite (s_threshold o) = true -> (bpow radix2 (-125) <= B2R (s_threshold o))%R ->
  exists fuel0, forall fuel, (fuel0 <= fuel)%nat -> exists comps hs,
    search_channel fuel junk i o floor power (ls, data) (lm, mask) = Some (Ok hs) /\ found floor power comps hs.
Proof.
  intros Hs Hm Hg Hmeth Hf Ht. destruct (search_inputs ls lm data mask power Hs Hm Hg) as (ds & st & Ed & Ld & Est & Em & Hi).
  cbn zeta in Hi. set (lp := dense [D; N]) in *. assert (HD : 0 < D) by apply Hg.
  destruct (C34_search_hits (channel_meta floor) (s_threshold o) lp (p_sum st) _ _ _ _ (s_distance o) D N bin_power (bin_noise power) bin_counts junk Hi Hf Ht) as (f1 & G1).
  { cbn. unfold zlen. rewrite map_length. pose proof (zrange_length D). unfold zlen in *. lia. }
  assert (Ht0 : (0 <= B2R (s_threshold o))%R) by (pose proof (bpow_gt_0 radix2 (-125)); lra).
  destruct (C29_counts_are_of_the_seed f32 (f32snr floor) f32gt (s_threshold o) (f32half (s_threshold o)) f32_min (f32_of_Z 0) lp (p_sum st) _ _ _ _ (s_distance o) D N bin_power (bin_noise power) bin_counts Hi) as (f2 & G2).
  { intros s. now apply thr_half. } { intros s. now apply half_min. } { exact f32gt_trans. } { exact f32gt_irrefl. }
  exists (f1 + f2)%nat. intros fuel Hfu. destruct (G1 fuel ltac:(lia)) as (ps & hs & E1 & E2 & Hp & Hh). destruct (G2 fuel ltac:(lia)) as (ps' & seeds & E3 & Hseg & Hr).
  change (m_floor (channel_meta floor)) with floor in *. rewrite E1 in E3. injection E3 as <-.
  exists (map ph_locs ps), hs. split.
  - unfold search_channel. cbn [fst snd]. pose proof Hs as (Hsh & _). rewrite Hsh, Ed. cbn [lift rbind]. rewrite Est. cbn [rbind].
    unfold protohits. rewrite Hmeth, Ld. fold lp. rewrite E1. cbn [rbind]. rewrite (Em floor). unfold lift. f_equal. exact E2.
  - split; [exact Hp|]. split; [exact Hh|]. exists seeds. split.
    + rewrite map_length. apply (f_equal (@length _)) in Hr. rewrite !map_length in Hr. now symmetry.
    + split; [|exact Hseg]. rewrite (make_hits_rfi _ _ _ _ E2).
      rewrite <- (map_map ph_rfi rfi_of), Hr, map_map. apply map_ext. intros c. unfold bin_counts, bin_flags, rfi_of, line_flags. now rewrite !to_uint8_mod.
Qed.
End Search.

(** ** The noise estimate *)
(** [es] lists the unflagged samples of a T x N channel, each once. *)
Definition unflagged (T N : Z) (M : Z -> Z -> Z) (es : list (Z * Z)) : Prop :=
  NoDup es /\ forall t c, In (t, c) es <-> 0 <= t < T /\ 0 <= c < N /\ M t c = 0.
Definition channel_of {V} (m : mem V) (T N : Z) (S : Z -> Z -> V) : Prop := holds (dense [T; N]) m T N S /\ zlen m = T * N.

Lemma channel_grid {V} (m : mem V) T N S (d : V) : channel_of m T N S -> 0 <= T -> 0 <= N ->
  on_grid [T; N] m (fun idx => match idx with [t; c] => S t c | _ => d end).
Proof.
  intros ((_ & _ & _ & H) & L) HT HN. assert (L' : zlen m = zprod [T; N]) by (rewrite L; unfold zprod; cbn; ring). split; [exact L'|].
  apply arr_is_dense; [exact L'|]. intros idx R. apply in_range2 in R as (t & c & -> & Ht & Hc). now apply H.
Qed.

Theorem C78_noise_of_unflagged : forall F G (O : numops G) sqrtG (up : F -> G) down jn jz data mask T N S M,
  channel_of data T N S -> channel_of mask T N M -> 0 <= T -> 0 <= N -> T * N < 2 ^ 31 -> (exists t c, 0 <= t < T /\ 0 <= c < N /\ M t c = 0) ->
  exists es v, unflagged T N M es /\ masked_noise O sqrtG up down jn jz (dense [T; N], data) (dense [T; N], mask) = Ok (Some (dense [1], [v])) /\
    v = (let xs := map (fun tc => S (fst tc) (snd tc)) es in stat_fin O sqrtG down (fold_left (stat_add O up) xs (stat_zero O)) (zlen xs)).
Proof.
  intros F G O sqrtG up down jn jz data mask T N S M Hd Hm HT HN HTN (t0 & c0 & Ht0 & Hc0 & HM0).
  assert (Hs : small [T; N]) by (split; [repeat constructor; lia|unfold zprod; cbn; lia]).
  pose proof (channel_grid data T N S (S 0 0) Hd HT HN) as G1. pose proof (channel_grid mask T N M 0 Hm HT HN) as G2.
  destruct (C50_unflagged_samples F (G * G) (stat_zero O) (stat_add O up) (stat_fin O sqrtG down) (fun d _ => d) (fun d _ => d) (fun _ _ => (down (o_of O 0), down (o_of O 0)))
    jn jz [T; N] data mask _ _ Hs G1 G2) as [(Hall & _)|(_ & r & es & v & E & Er & Lr & Hp & Hv)].
  { exfalso. apply (Hall [t0; c0]); [now apply in_range2i|exact HM0]. }
  assert (Hr : r = [v]).
  { destruct r as [|x [|y r]]; unfold zlen in Lr; cbn [length] in Lr; try lia. cbn in Er. now injection Er as ->. }
  set (d := fun idx : list Z => match idx with [t; c] => S t c | _ => S 0 0 end) in *. set (m := fun idx : list Z => match idx with [t; c] => M t c | _ => 0 end) in *.
  set (pair2 := fun idx : list Z => match idx with [t; c] => (t, c) | _ => (0, 0) end).
  set (fs := filter (fun idx => m idx =? 0) es).
  assert (Hfs : forall idx, In idx fs <-> exists t c, idx = [t; c] /\ 0 <= t < T /\ 0 <= c < N /\ M t c = 0).
  { intros idx. unfold fs. rewrite filter_In. split.
    - intros (Hin & Hz). apply (Permutation_in _ Hp) in Hin. apply in_all_indices, in_range2 in Hin as (t & c & -> & Ht & Hc). exists t, c. cbn in Hz. repeat split; auto; lia.
    - intros (t & c & -> & Ht & Hc & Hz). split; [|cbn; lia]. apply (Permutation_in _ (Permutation_sym Hp)). apply in_all_indices. now apply in_range2i. }
  assert (Hnd : NoDup fs).
  { unfold fs. apply NoDup_filter. apply (Permutation_NoDup (Permutation_sym Hp)). apply all_indices_nodup. }
  exists (map pair2 fs), v. split; [split|split].
  - assert (Q : forall l, (forall idx, In idx l -> exists t c, idx = [t; c]) -> NoDup l -> NoDup (map pair2 l)).
    { induction l as [|x l IH]; intros H1 H2; [constructor|]. inversion H2; subst. cbn. constructor; [|apply IH; [intros; apply H1; now right|auto]].
      intros Hin. apply in_map_iff in Hin as (y & Ey & Hy). destruct (H1 x (or_introl eq_refl)) as (t & c & ->). destruct (H1 y (or_intror Hy)) as (t' & c' & ->).
      cbn in Ey. injection Ey as -> ->. auto. }
    apply Q; [|exact Hnd]. intros idx Hin. apply Hfs in Hin as (t & c & -> & _). eauto.
  - intros t c. rewrite in_map_iff. split.
    + intros (idx & E1 & Hin). apply Hfs in Hin as (t' & c' & -> & H). cbn in E1. injection E1 as -> ->. exact H.
    + intros H. exists [t; c]. split; [reflexivity|]. apply Hfs. eauto.
  - rewrite <- Hr. exact E.
  - rewrite map_map.
    assert (Em : map d fs = map (fun x => S (fst (pair2 x)) (snd (pair2 x))) fs).
    { apply map_ext_in. intros idx Hin. apply Hfs in Hin as (t & c & -> & _). reflexivity. }
    rewrite <- Em. exact Hv.
Qed.
Print Assumptions C78_noise_of_unflagged.

(** In exact arithmetic the floor is the mean of the unflagged samples, the power their standard deviation (not the variance that the
    documentation of noise_stats names), and the amplitude its square root. *)
Theorem C78_noise_real : forall jn jz data mask T N S M,
  channel_of data T N S -> channel_of mask T N M -> 0 <= T -> 0 <= N -> T * N < 2 ^ 31 -> (exists t c, 0 <= t < T /\ 0 <= c < N /\ M t c = 0) ->
  exists es v, unflagged T N M es /\ masked_noise opsR sqrt (fun x => x) (fun x => x) jn jz (dense [T; N], data) (dense [T; N], mask) = Ok (Some (dense [1], [v])) /\
    let xs := map (fun tc => S (fst tc) (snd tc)) es in
    noise_floor v = rmean xs /\ noise_power v = sqrt (rvar xs) /\ noise_amplitude sqrt v = sqrt (sqrt (rvar xs)).
Proof.
  intros jn jz data mask T N S M Hd Hm HT HN HTN Hex.
  destruct (C78_noise_of_unflagged R R opsR sqrt (fun x => x) (fun x => x) jn jz data mask T N S M Hd Hm HT HN HTN Hex) as (es & v & Hu & E & Hv).
  exists es, v. split; [exact Hu|]. split; [exact E|]. cbn zeta in *. set (xs := map _ es) in *.
  assert (Hne : xs <> []).
  { destruct Hex as (t & c & H). apply (proj2 Hu) in H. unfold xs. destruct es; [contradiction|discriminate]. }
  assert (Hf : forall l a b, fold_left (stat_add opsR (fun x : R => x)) l (a, b) = (a + rsum l, b + rsum (squares l))%R).
  { induction l as [|x l IH]; intros a b; cbn [fold_left]; [cbn; f_equal; ring|]. unfold stat_add at 2. cbn [fst snd opsR o_add o_mul]. rewrite IH. unfold squares. cbn [map rsum fold_right]. f_equal; ring. }
  unfold stat_zero in Hv. rewrite Hf in Hv. unfold stat_fin in Hv. cbn [fst snd opsR o_of o_div o_sub o_mul] in Hv. rewrite !Rplus_0_l in Hv. rewrite (rvar_moments xs Hne) in Hv.
  rewrite Hv. cbn. auto.
Qed.
Print Assumptions C78_noise_real.

(** ** From samples to hits *)
Theorem C78_find_hits : forall jn jz junk i o data mask T N S M,
  channel_of data T N S -> channel_of mask T N M -> T * N < 2 ^ 31 -> (exists t c, 0 <= t < T /\ 0 <= c < N /\ M t c = 0) ->
  good_grid o T N -> s_method o = ConnectedComponents -> is_finite (s_threshold o) = true -> (bpow radix2 (-125) <= B2R (s_threshold o))%R ->
  exists es floor power, unflagged T N M es /\
    (floor, power) = (let xs := map (fun tc => S (fst tc) (snd tc)) es in stat_fin ops64 sqrt64 narrow (fold_left (stat_add ops64 widen) xs (stat_zero ops64)) (zlen xs)) /\
    exists fuel0, forall fuel, (fuel0 <= fuel)%nat -> exists comps hs,
      find_hits fuel junk jz jn i o (dense [T; N], data) (dense [T; N], mask) = Some (Ok hs) /\ found i o T N S M floor power comps hs.
Proof.
  intros jn jz junk i o data mask T N S M Hd Hm HTN Hex Hg Hme Hf Ht.
  assert (HT : 0 <= T) by (destruct Hg; lia). assert (HN : 0 <= N) by (destruct Hg as (_ & HN & _); lia).
  destruct (C78_noise_of_unflagged f32 f64 ops64 sqrt64 widen narrow jn jz data mask T N S M Hd Hm HT HN HTN Hex) as (es & (floor & power) & Hu & E & Hv).
  exists es, floor, power. split; [exact Hu|]. split; [exact Hv|].
  destruct (search_ok i o T N S M _ _ data mask floor power junk (proj1 Hd) (proj1 Hm) Hg Hme Hf Ht) as (f0 & H).
  exists f0. intros fuel Hfu. destruct (H fuel Hfu) as (comps & hs & Es & Hfo). exists comps, hs. split; [|exact Hfo].
  unfold find_hits. rewrite E. cbn [lift rbind]. exact Es.
Qed.
Print Assumptions C78_find_hits.

(** Every line whose SNR exceeds the threshold has a hit at least as strong, and every hit is the strongest line of its component, with
    the SNR, start channel and drift rate of that line. *)
Theorem C78_complete_and_sound : forall i o T N S M floor power comps hs, found i o T N S M floor power comps hs ->
  let D := grid_size (s_low o) (s_high o) (s_step o) in let snr := bin_snr o T N S floor power in
  (forall c, bin D N c -> f32gt (snr c) (s_threshold o) = true -> exists h, In h hs /\ f32gt (snr c) (h_snr h) = false) /\
  (forall h, In h hs -> exists c, bin D N c /\ h_snr h = snr c /\ f32gt (snr c) (s_threshold o) = true /\ h_rate h = fst c /\ h_index h = snd c /\
     h_drift h = line_hz (ci_foff i) (ci_tsamp i) T (grid_span (s_low o) (s_step o) (fst c))).
Proof.
  intros i o T N S M floor power comps hs ((Hp & _ & Hc) & Hd & _) D snr. split.
  - intros c Hb Ha. destruct (Hc c Hb Ha) as (ms & Hms & Hin). clear Hc Hp.
    induction Hd as [|ms' h comps hs Hh Hd IH]; [contradiction|]. destruct Hms as [->|Hms].
    + exists h. split; [now left|]. destruct Hh as (pk & lo & up & (_ & Hst) & _ & _ & _ & _ & -> & _). apply Hst. exact Hin.
    + destruct (IH Hms) as (h' & Q1 & Q2). exists h'. split; [now right|exact Q2].
  - intros h Hin. clear Hc. assert (Hp' : forall ms, In ms comps -> forall c, In c ms -> bin D N c) by (intros ms Q c Q'; apply (Hp ms Q); exact Q').
    clear Hp. induction Hd as [|ms' h' comps hs Hh Hd IH]; [contradiction|]. destruct Hin as [->|Hin].
    + destruct Hh as (pk & lo & up & (Hpk & _) & _ & Q1 & Q2 & Q3 & Q4 & Q5 & _). exists pk.
      assert (Hb : bin D N pk) by (apply (Hp' ms'); [now left|exact Hpk]). split; [exact Hb|]. split; [exact Q4|]. split; [rewrite Q4 in Q5; exact Q5|].
      split; [exact Q2|]. split; [exact Q1|]. destruct Hb as (Hb & _).
      cbn [m_rates channel_meta] in Q3. unfold znth in Q3. replace (fst pk <? 0) with false in Q3 by lia. rewrite nth_error_map, nth_error_zrange in Q3 by exact Hb. cbn in Q3. now injection Q3 as <-.
    + apply IH; [exact Hin|]. intros ms Q. apply Hp'. now right.
Qed.
Print Assumptions C78_complete_and_sound.

(** A noise estimate that is NaN hides every signal. *)
Lemma nan_noise T w : mean_noise B754_nan T w = B754_nan.
Proof.
  unfold mean_noise. replace (widen B754_nan : f64) with (B754_nan : f64) by reflexivity. unfold div64. destruct (Bsqrt _ _); reflexivity.
Qed.
Theorem C78_nan_noise_finds_nothing : forall i o T N S M floor comps hs, found i o T N S M floor B754_nan comps hs -> hs = [].
Proof.
  intros i o T N S M floor comps hs H. destruct hs as [|h hs]; [reflexivity|]. exfalso.
  destruct (proj2 (C78_complete_and_sound _ _ _ _ _ _ _ _ _ _ H) h (or_introl eq_refl)) as (c & _ & _ & Hgt & _).
  unfold bin_snr, bin_noise in Hgt. rewrite nan_noise in Hgt. unfold f32snr in Hgt. apply f32gt_val in Hgt as (Hn & _).
  match type of Hn with is_nan (?f ?a B754_nan) = _ => destruct a; discriminate Hn end.
Qed.
Print Assumptions C78_nan_noise_finds_nothing.

(** The masked deviation is the square root of a difference that rounding can make negative (the unmasked one is clamped at zero): 39
    unflagged samples of the same value give NaN, and then nothing is found, whatever the options and however strong the flagged
    sample. *)
Definition flat (t c : Z) : f32 := if (t =? 1) && (c =? 7) then f32_of_Z (2 ^ 60) else f32_of_Z 16777215.
Definition flat_mask (t c : Z) : Z := if (t =? 1) && (c =? 7) then HIGH_SK else 0.
Definition rows {V} (T N : Z) (S : Z -> Z -> V) : list V := flat_map (fun t => map (S t) (zrange N)) (zrange T).
Lemma rows_channel {V} T N (S : Z -> Z -> V) : 0 <= T -> 0 < N -> channel_of (rows T N S) T N S.
Proof.
  intros HT HN. assert (Lz : forall n, 0 <= n -> length (zrange n) = Z.to_nat n) by (intros n Hn; pose proof (zrange_length n); unfold zlen in *; lia).
  assert (G : forall (l : list Z), length (flat_map (fun t => map (S t) (zrange N)) l) = (length l * Z.to_nat N)%nat).
  { induction l as [|t l IH]; [reflexivity|]. cbn [flat_map length]. rewrite app_length, map_length, Lz, IH by lia. lia. }
  assert (Hlen : zlen (rows T N S) = T * N) by (unfold zlen, rows; rewrite G, Lz by lia; nia).
  split; [|exact Hlen].
  destruct (holds_list (rows T N S) T N (S 0 0) ltac:(lia) Hlen) as (A & B & C & E). split; [exact A|]. split; [exact B|]. split; [exact C|].
  intros t c Ht Hc. rewrite (E t c Ht Hc). f_equal. unfold rows.
  assert (Q : forall (l : list Z) k t', nth_error l k = Some t' -> nth (k * Z.to_nat N + Z.to_nat c) (flat_map (fun t => map (S t) (zrange N)) l) (S 0 0) = S t' c).
  { induction l as [|t1 l IH]; intros [|k] t' Hk; cbn in Hk; try discriminate.
    - injection Hk as ->. cbn [flat_map]. rewrite app_nth1 by (rewrite map_length, Lz by lia; lia). cbn. erewrite nth_error_nth; [reflexivity|]. rewrite nth_error_map, nth_error_zrange by lia. reflexivity.
    - cbn [flat_map]. rewrite app_nth2 by (rewrite map_length, Lz by lia; lia). rewrite map_length, Lz by lia.
      replace (Datatypes.S k * Z.to_nat N + Z.to_nat c - Z.to_nat N)%nat with (k * Z.to_nat N + Z.to_nat c)%nat by lia. apply IH. exact Hk. }
  replace (Z.to_nat (t * N + c)) with (Z.to_nat t * Z.to_nat N + Z.to_nat c)%nat by nia. apply Q. apply nth_error_zrange. lia.
Qed.
Theorem C78_flat_noise_hides_refuted : forall jn jz junk i o,
  good_grid o 2 20 -> s_method o = ConnectedComponents -> is_finite (s_threshold o) = true -> (bpow radix2 (-125) <= B2R (s_threshold o))%R ->
  exists fuel0, forall fuel, (fuel0 <= fuel)%nat -> find_hits fuel junk jz jn i o (dense [2; 20], rows 2 20 flat) (dense [2; 20], rows 2 20 flat_mask) = Some (Ok []).
Proof.
  intros jn jz junk i o Hg Hme Hf Ht.
  destruct (C78_find_hits jn jz junk i o (rows 2 20 flat) (rows 2 20 flat_mask) 2 20 flat flat_mask) as (es & floor & power & (Hnd & Hu) & Hv & f0 & H); auto.
  { apply rows_channel; lia. } { apply rows_channel; lia. } { reflexivity. } { exists 0, 0. repeat split; lia. }
  assert (Hx : map (fun tc => flat (fst tc) (snd tc)) es = repeat (f32_of_Z 16777215) 39).
  { assert (Hp : Permutation es (filter (fun tc => negb ((fst tc =? 1) && (snd tc =? 7))) (list_prod (zrange 2) (zrange 20)))).
    { apply NoDup_Permutation; [exact Hnd| |].
      - apply NoDup_filter.
        assert (E : list_prod (zrange 2) (zrange 20) = map (fun k => (k / 20, k mod 20)) (zrange 40)) by (vm_compute; reflexivity).
        rewrite E. apply FinFun.Injective_map_NoDup; [|apply zrange_nodup]. intros x y Q. injection Q as Q1 Q2.
        rewrite (Z_div_mod_eq_full x 20), (Z_div_mod_eq_full y 20). congruence.
      - intros (t & c). rewrite Hu, filter_In, in_prod_iff, !in_zrange. cbn [fst snd]. unfold flat_mask. destruct ((t =? 1) && (c =? 7)); cbn; intuition (discriminate || auto). }
    assert (Hl : length es = 39%nat) by (rewrite (Permutation_length Hp); reflexivity). rewrite <- Hl.
    assert (Ha : forall tc, In tc es -> flat (fst tc) (snd tc) = f32_of_Z 16777215).
    { intros (t & c) Hin. apply Hu in Hin as (_ & _ & Hz). cbn [fst snd]. unfold flat_mask in Hz. unfold flat. destruct ((t =? 1) && (c =? 7)); [discriminate|reflexivity]. }
    clear - Ha. induction es as [|tc es IH]; [reflexivity|]. cbn [map repeat length]. rewrite Ha by now left. f_equal. apply IH. intros; apply Ha; now right. }
  rewrite Hx in Hv. cbn zeta in Hv.
  assert (Hn : is_nan power = true) by (apply (f_equal snd) in Hv; cbn [snd] in Hv; rewrite Hv; vm_compute; reflexivity).
  assert (power = B754_nan) as -> by (clear - Hn; destruct power; try discriminate Hn; reflexivity).
  exists f0. intros fuel Hfu. destruct (H fuel Hfu) as (comps & hs & E & Hfo). rewrite (C78_nan_noise_finds_nothing _ _ _ _ _ _ _ _ _ Hfo) in E. exact E.
Qed.
Print Assumptions C78_flat_noise_hides_refuted.

(** Methods other than connected components find nothing on the CPU; a fully flagged channel is an error. *)
Theorem C78_other_methods : forall fuel junk i o ls lm data mask T N S M floor power,
  holds ls data T N S -> holds lm mask T N M -> good_grid o T N -> s_method o = OtherMethod \/ s_method o = LocalMaxima /\ 1 <= s_distance o ->
  search_channel fuel junk i o floor power (ls, data) (lm, mask) = Some (Ok []).
Proof.
  intros fuel junk i o ls lm data mask T N S M floor power Hs Hm Hg Hmeth.
  destruct (search_inputs i o T N S M ls lm data mask power Hs Hm Hg) as (ds & st & Ed & Ld & Est & _ & Hi).
  unfold search_channel. cbn [fst snd]. pose proof Hs as (Hsh & _). rewrite Hsh, Ed. cbn [lift rbind]. rewrite Est. cbn [rbind].
  assert (E : protohits fuel o floor power T N ds st = Some (Ok [])); [|now rewrite E].
  unfold protohits. destruct Hmeth as [->|(-> & HL)]; [reflexivity|]. rewrite Ld. eapply C31_local_maxima_float_refuted; [exact Hi|exact HL].
Qed.
Print Assumptions C78_other_methods.

(** The noise of an average over T spectra and [w] channels is power / sqrt (T * w) up to 2^-23 relative. *)
Theorem C78_noise_accuracy : forall power T w, is_finite power = true -> (bpow radix2 (-80) <= B2R power <= bpow radix2 90)%R -> 1 <= T * w <= 2 ^ 53 ->
  let exact := (B2R power / sqrt (IZR (T * w)))%R in
  is_finite (mean_noise power T w) = true /\ (Rabs (B2R (mean_noise power T w) - exact) <= bpow radix2 (-23) * exact)%R.
Proof. intros power T w. exact (noise_accuracy power (T * w)). Qed.
Print Assumptions C78_noise_accuracy.

(** Non-trivial cases: a line that drifts by three channels over four spectra. *)
Definition ex_line (t c : Z) : f32 := if c =? 2 + t then f32_of_Z 100 else f32_of_Z (1 + (t + c) mod 2).
Definition ex_flags (t c : Z) : Z := if (t =? 3) && (c =? 0) then LOW_SK else 0.
Definition ex_opts : search_options := Options (-1) 5 1 true ConnectedComponents (f32_of_Z 4) 1.
Definition ex_info : channel_info := Info (f64_of_Z 8000) (f64_of_Z (-3)) (f64_of_Z 59000) (f64_of_Z 18) 7.
Lemma ex_grid : good_grid ex_opts 4 12.
Proof.
  split; [lia|]. split; [lia|]. split; [discriminate|]. split; [reflexivity|]. split; [apply moderate_ends; reflexivity|]. split; [reflexivity|].
  change (grid_size _ _ _) with 6. intros d Hd. assert (d = 0 \/ d = 1 \/ d = 2 \/ d = 3 \/ d = 4 \/ d = 5) as H by lia.
  repeat (destruct H as [->|H]; [vm_compute; discriminate|]). subst. vm_compute. discriminate.
Qed.
Lemma four_ok : is_finite (f32_of_Z 4) = true /\ (bpow radix2 (-125) <= B2R (f32_of_Z 4))%R.
Proof.
  split; [reflexivity|]. replace (B2R (f32_of_Z 4)) with 4%R by (vm_compute; lra).
  assert (bpow radix2 (-125) <= bpow radix2 0)%R by (apply bpow_le; lia). cbn in *. lra.
Qed.
Example C78_case : channel_of (rows 4 12 ex_line) 4 12 ex_line /\ channel_of (rows 4 12 ex_flags) 4 12 ex_flags /\ good_grid ex_opts 4 12 /\
  ex_flags 0 0 = 0 /\ ex_flags 3 0 <> 0 /\ is_finite (s_threshold ex_opts) = true /\ (bpow radix2 (-125) <= B2R (s_threshold ex_opts))%R /\
  match find_hits 1000 (fun _ => 0) (fun _ => 0) (fun _ => (f32_of_Z 0, f32_of_Z 0)) ex_info ex_opts (dense [4; 12], rows 4 12 ex_line) (dense [4; 12], rows 4 12 ex_flags) with
  | Some (Ok [h]) => h_index h = 2 /\ h_rate h = 4
  | _ => False end.
Proof.
  split; [apply rows_channel; lia|]. split; [apply rows_channel; lia|]. split; [exact ex_grid|]. split; [reflexivity|]. split; [discriminate|].
  split; [exact (proj1 four_ok)|]. split; [exact (proj2 four_ok)|]. vm_compute. split; reflexivity.
Qed.
Definition ex_opts2 : search_options := Options (-1) 2 1 false ConnectedComponents (f32_of_Z 4) 1.
Example C78_flat_case : good_grid ex_opts2 2 20 /\ s_method ex_opts2 = ConnectedComponents /\ f32gt (flat 1 7) (flat 0 0) = true.
Proof.
  split; [|split; [reflexivity|vm_compute; reflexivity]].
  split; [lia|]. split; [lia|]. split; [discriminate|]. split; [reflexivity|]. split; [apply moderate_ends; reflexivity|]. split; [reflexivity|].
  change (grid_size _ _ _) with 3. intros d Hd. assert (d = 0 \/ d = 1 \/ d = 2) as H by lia.
  repeat (destruct H as [->|H]; [vm_compute; discriminate|]). subst. vm_compute. discriminate.
Qed.
Example C78_noise_case : channel_of (rows 1 2 (fun _ c => IZR (2 * c))) 1 2 (fun _ c => IZR (2 * c)) /\ unflagged 1 2 (fun _ _ => 0) [(0, 0); (0, 1)] /\
  rvar (map (fun tc => IZR (2 * snd tc)) [(0, 0); (0, 1)]) = 1%R /\
  is_finite (f32_of_Z 3) = true /\ (bpow radix2 (-80) <= B2R (f32_of_Z 3) <= bpow radix2 90)%R.
Proof.
  split; [apply rows_channel; lia|]. split.
  { split; [repeat constructor; cbn; intuition congruence|]. intros t c. cbn. split; [intros [H|[H|[]]]; injection H as <- <-; lia|].
    intros (Ht & Hc & _). assert (t = 0) as -> by lia. assert (c = 0 \/ c = 1) as [->| ->] by lia; auto. }
  split; [unfold rvar, rmean; cbn [map rsum snd]; change (zlen _) with 2; change (IZR (2 * 0)) with 0%R; change (IZR (2 * 1)) with 2%R; field|]. split; [reflexivity|].
  replace (B2R (f32_of_Z 3)) with 3%R by (vm_compute; lra).
  assert (bpow radix2 (-80) <= bpow radix2 0)%R by (apply bpow_le; lia). assert (bpow radix2 2 <= bpow radix2 90)%R by (apply bpow_le; lia). change (bpow radix2 0) with 1%R in *. change (bpow radix2 2) with 4%R in *. lra.
Qed.
