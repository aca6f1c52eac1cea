(** C97: what the searches for local maxima detect, from sample powers to hits. *)
From Verif Require Import CcCudaSpec CcCudaClass CcCudaProofs PropCcCuda LmSearchModel GpuSensProofs LmProofs LmCudaProofs PropLm HitProofs.
From Verif Require Import DriftAgree PipeModel DriftSearchProofs DriftProofs CudaOffsetProofs CcSpec PropDrift PropCc PropPipe FsumModel FsumProofs FsumProofs2.
From Verif Require Import DsumProofs SensProofs PropDsum PropSens PropGpuSens.
From Coq Require Import ZifyBool ZifyNat Lia Reals Lra Psatz Permutation.
From Flocq Require Import Core BinarySingleNaN.
Local Open Scope Z_scope.

(** ** What is expected *)
Section Spec.
  Variables (i : channel_info) (o : search_options) (T N : Z) (S : Z -> Z -> f32) (floor power : f32).
  Notation D := (grid_size (s_low o) (s_high o) (s_step o)).
  Notation L := (s_distance o).
  (** The hit [h] is at the bin [c], whose signal to noise ratio is [s]. *)
  Definition hit_at (s : f32) (c : coord) (h : hit) : Prop :=
    h_index h = snd c /\ h_rate h = fst c /\ h_drift h = line_hz (ci_foff i) (ci_tsamp i) T (line_span o c) /\ h_snr h = s.
  (** Bins around [c]: the half-open diamond. *)
  Definition around (c e : coord) : Prop := - L <= snd e - snd c < L /\ - L + Z.abs (snd e - snd c) <= fst e - fst c < L - Z.abs (snd e - snd c).
  (** The strongest bins around themselves. *)
  Definition summit (c : coord) : Prop := reportable o N c /\ f32gt (gpu_snr o T N S floor power c) (s_threshold o) = true /\
    forall e, around c e -> f32gt (gpu_snr o T N S floor power e) (gpu_snr o T N S floor power c) = false.
  (** Memory for the hits is reserved for one in [L * L] bins. *)
  Definition maxima_room : Z := (D * N) / (L * L).
  Definition maxima_size : Prop := D * N + 512 <= 2 ^ 31 /\ L * L < 2 ^ 31.
  Local Open Scope R_scope.
  (** The exact ratio of a line met by the band, and what rounding may change. *)
  Definition met_ratio (c : coord) : R := (met_average o T N S c - B2R floor) / line_noise o T (B2R power) c.
  Definition met_error (c : coord) : R := met_rounding o T N S c / line_noise o T (B2R power) c.
  Definition ratio_error (c : coord) : R := bpow radix2 (-21) * Rabs (met_ratio c) + 2 * met_error c + bpow radix2 (-150).
  Definition no_overflow (c : coord) : Prop := Rabs (met_ratio c) + met_error c <= bpow radix2 120.
End Spec.
(** The search of samples [S] on CUDA: any schedule, thread count and start contents of the buffers. *)
Definition maxima_found i o T N S floor power hs : Prop :=
  exists spec mask junk blocks bdim hjunk M, holds (dense [T; N]) spec T N S /\ holds (dense [T; N]) mask T N M /\ 0 < blocks /\ 0 < bdim /\
    cuda_maxima i o floor power T N spec mask junk blocks bdim hjunk hs.

(** ** Facts *)
Lemma finite_number (x : f32) : is_finite x = true -> is_nan x = false.
Proof. destruct x; cbn; try discriminate; reflexivity. Qed.
Lemma fval_finite (x : f32) : is_finite x = true -> fval x = B2R x.
Proof. destruct x; cbn; try discriminate; reflexivity. Qed.
Section Facts.
  Variables (i : channel_info) (o : search_options) (T N : Z) (S : Z -> Z -> f32) (floor power : f32).
  Notation D := (grid_size (s_low o) (s_high o) (s_step o)).
  Notation L := (s_distance o).
  Hypothesis Hu : cuda_usable o T N S floor power.
  Hypothesis Hz : maxima_size o N.
  Notation G := (gpu_snr o T N S floor power).
  Notation drifts := (map (drift_of T (s_low o) (s_step o) (s_desmear o)) (zrange D)).
  Notation noise := (map (adjusted_noise power T) drifts).
  Notation X := (gpu_power o T N S).
  Notation W := (bin_noise o T power).

  Lemma summit_peak c : lm_peak f32gt (s_threshold o) D N L G c <-> summit o T N S floor power c.
  Proof.
    assert (HL : 2 <= L) by (destruct Hu as ((_ & _ & _ & _ & _ & HL) & _); exact HL). destruct c as (d & f). unfold lm_peak, summit. split.
    - intros (Hb & Hg & Hn). split; [|split; [exact Hg|]].
      + unfold reportable, bin in *. cbn [fst snd] in *. pose proof (Hn (- L) 0 ltac:(lia) ltac:(lia)) as (H1 & _). pose proof (Hn (L - 1) 0 ltac:(lia) ltac:(lia)) as (H2 & _).
        pose proof (Hn 0 (1 - L) ltac:(lia) ltac:(lia)) as (H3 & _). pose proof (Hn 0 (L - 1) ltac:(lia) ltac:(lia)) as (H4 & _). cbn [fst snd] in *. lia.
      + intros (d' & f') (H1 & H2). cbn [fst snd] in *. pose proof (Hn (d' - d) (f' - f) ltac:(lia) ltac:(lia)) as (_ & H). cbn [fst snd] in H. replace (d + (d' - d)) with d' in H by ring. replace (f + (f' - f)) with f' in H by ring. exact H.
    - intros (Hr & Hg & Hn). unfold reportable, bin in *. cbn [fst snd] in *. split; [lia|]. split; [exact Hg|]. intros dr fo H1 H2. split; [lia|]. apply Hn. unfold around. cbn [fst snd]. lia.
  Qed.
  Lemma drifts_len : zlen drifts = D.
  Proof. destruct Hu as ((_ & _ & _ & HD & _) & _). unfold zlen. rewrite map_length. pose proof (zrange_length D). unfold zlen in *. lia. Qed.
  Section Plane.
    Variables (spec : mem f32) (mask : mem Z) (junk : Z -> f32) (blocks bdim : Z) (M : Z -> Z -> Z).
    Hypotheses (Hs : holds (dense [T; N]) spec T N S) (Hm : holds (dense [T; N]) mask T N M) (Hb : 0 < blocks) (Hd : 0 < bdim).
    Lemma plane_exact ds plane : cuda_plane o T N spec mask junk blocks bdim ds plane -> ds = drifts /\ gpu_plane (dense [D; N]) plane noise D N X W.
    Proof.
      destruct Hu as ((HT & HN & Hst & HD & Hmo & HL) & _). intros Hp. destruct Hp as [ds rates m ps plane E1 E2 Hg Hf Lp Hp].
      rewrite (drifts_ok o T N S floor power Hu junk 0) in E1. injection E1 as <-. rewrite (rates_ok o T N S floor power Hu) in E2. injection E2 as <-.
      assert (RL : zlen (cuda_rates o T) = D) by (apply (rates_len o T N S floor power Hu junk)). rewrite RL in *. split; [reflexivity|].
      split; [reflexivity|]. split; [|split; [apply noise_at; exact junk|]].
      - intros c Hc. pose proof (plane_ok o T N S M floor power Hu spec mask junk blocks bdim Hs Hm Hb Hd m ps Hg Hf c Hc) as E. destruct Hc as (Hc1 & Hc2).
        destruct (znth plane (fst c * N + snd c)) as [v|] eqn:Ev; [|exfalso; unfold znth in Ev; destruct (Z.ltb_spec (fst c * N + snd c) 0); [nia|]; apply nth_error_None in Ev; unfold zlen in Lp; nia].
        rewrite (Hp _ _ Ev) in E. injection E as ->. reflexivity.
      - split; [exact HD|]. split; [exact HN|]. apply Hz.
    Qed.
    Lemma plane_exists : exists plane, cuda_plane o T N spec mask junk blocks bdim drifts plane.
    Proof.
      destruct Hu as ((HT & HN & Hst & HD & Hmo & HL) & _). assert (RL : zlen (cuda_rates o T) = D) by (apply (rates_len o T N S floor power Hu junk)).
      set (start := (cuda_init spec mask junk (zlen (cuda_rates o T) * N), cuda_threads (f32_of_Z 0) add32 f32_div_int N T blocks bdim (cuda_rates o T))).
      assert (Hrun : exists m ps, gsteps addr_eqb start (Ok (m, ps)) /\ finished ps).
      { pose proof (C25_terminates f32 (f32_of_Z 0) add32 f32_div_int spec mask junk T N S M (cuda_rates o T) Hs Hm ltac:(lia) blocks bdim Hb Hd) as A. fold start in A.
        assert (B : forall c, Acc (fun c' c => gstep addr_eqb c (Ok c')) c -> gsteps addr_eqb start (Ok c) -> exists m ps, gsteps addr_eqb start (Ok (m, ps)) /\ finished ps).
        { clear A. induction 1 as [c _ IH]. intros Hc. destruct (C25_every_schedule f32 (f32_of_Z 0) add32 f32_div_int spec mask junk T N S M (cuda_rates o T) Hs Hm ltac:(lia) blocks bdim Hb Hd _ Hc) as (m & ps & E & [Hf|(c' & Hst')] & _).
          - injection E as ->. eauto.
          - injection E as ->. apply (IH c' Hst'). eapply gsteps_snoc; eauto. }
        apply (B start A). constructor. }
      destruct Hrun as (m & ps & Hg & Hf). set (plane := map (fun k => X (coord_of N k)) (zrange (D * N))). exists plane.
      assert (Lp : zlen plane = D * N) by (unfold plane, zlen; rewrite map_length; pose proof (zrange_length (D * N)); unfold zlen in *; nia).
      assert (At : forall k, 0 <= k < D * N -> znth plane k = Some (X (coord_of N k))) by (intros k Hi; unfold plane, znth; replace (k <? 0) with false by lia; rewrite nth_error_map, nth_error_zrange by exact Hi; reflexivity).
      eapply Cuda_plane; [exact (drifts_ok o T N S floor power Hu junk 0)|exact (rates_ok o T N S floor power Hu)|exact Hg|exact Hf|rewrite RL; exact Lp|].
      intros k v E. assert (Hi : 0 <= k < D * N). { unfold znth in E. destruct (Z.ltb_spec k 0); [discriminate|]. assert (H' : (Z.to_nat k < length plane)%nat) by (apply nth_error_Some; congruence). unfold zlen in Lp. lia. }
      rewrite (At k Hi) in E. injection E as <-. unfold start in Hg. rewrite RL in Hg. pose proof (plane_ok o T N S M floor power Hu spec mask junk blocks bdim Hs Hm Hb Hd m ps Hg Hf (coord_of N k) (coord_bin D N k HN Hi)) as E.
      change (fst (coord_of N k) * N + snd (coord_of N k)) with (index_of_coord N (coord_of N k)) in E. rewrite (ix_coord D N k HN Hi) in E. exact E.
    Qed.
  End Plane.
  Definition maxima_meta : meta := Meta (ci_fch1 i) (ci_foff i) (ci_tstart i) (ci_tsamp i) T (map (drift_hz (ci_foff i) (ci_tsamp i)) drifts) floor (ci_number i).
  (** Hits made from reports of peaks. *)
  Lemma hits_of prot hjunk : Forall (lm_report f32gt f32lt (s_threshold o) D N G X W) prot -> (forall p, In p prot -> 0 <= fst (ph_max p) < D) ->
    exists hs, make_hits maxima_meta hjunk prot = Ok hs /\ Forall2 (fun c h => hit_at i o T (G c) c h) (map ph_max prot) hs.
  Proof.
    intros Hr Hb. rewrite Forall_forall in Hr. assert (Lr : zlen (m_rates maxima_meta) = D) by (cbn [maxima_meta m_rates]; unfold zlen; rewrite map_length; apply drifts_len).
    destruct (make_hits_ok maxima_meta hjunk prot) as (hs & E & F2).
    { intros p Hp. rewrite Lr. split; [now apply Hb|]. destruct (Hr p Hp) as (_ & _ & -> & _). discriminate. }
    exists hs. split; [exact E|]. clear E. induction F2 as [|p h prot hs (j & E) F2 IH]; [constructor|]. cbn [map]. constructor; [|apply IH; intros q Hq; [apply Hr|apply Hb]; now right].
    destruct (Hr p (or_introl eq_refl)) as (E1 & E2 & E3 & _). specialize (Hb p (or_introl eq_refl)). unfold make_hit, zget in E. cbn [maxima_meta m_rates] in E. rewrite map_map in E. unfold znth in E. replace (fst (ph_max p) <? 0) with false in E by lia.
    rewrite nth_error_map, nth_error_zrange in E by exact Hb. cbn [option_map obind] in E. rewrite E3 in E. injection E as <-. unfold hit_at. cbn [h_index h_rate h_drift h_snr]. rewrite E2.
    split; [reflexivity|]. split; [reflexivity|]. split; reflexivity.
  Qed.
  Lemma all_some {A} (prot : list A) l : Permutation (map Some prot) l -> exists prot', l = map Some prot' /\ Permutation prot prot'.
  Proof. intros H. apply Permutation_sym, Permutation_map_inv in H as (l' & -> & P). exists l'. split; [reflexivity|exact P]. Qed.
  Lemma launch_facts plane : gpu_plane (dense [D; N]) plane noise D N X W ->
    exists init found, lg_launch (dense [D; N]) L = Ok (D, N, maxima_room o N, init) /\
      let step := maxima_step o floor power T D N (maxima_room o N) drifts plane in
      (forall c, summit o T N S floor power c <-> In c (map ph_max found)) /\ NoDup (map ph_max found) /\ Forall (lm_report f32gt f32lt (s_threshold o) D N G X W) found /\
      always_ends step init /\
      (zlen found <= maxima_room o N -> forall r, msteps step init r -> exists c, r = Ok c /\ (halted step c -> Permutation (lg_export (fst c)) (map Some found))) /\
      (maxima_room o N < zlen found -> msteps step init UB /\ forall c, msteps step init (Ok c) -> ~ halted step c).
  Proof.
    intros Hp. assert (HL : 2 <= L) by (destruct Hu as ((_ & _ & _ & _ & _ & HL) & _); exact HL). destruct Hz as (_ & HL2).
    destruct (C77_local_maxima_gpu f32 (f32snr floor) f32gt f32lt (s_threshold o) (dense [D; N]) plane noise D N L X W Hp ltac:(lia) HL2) as (init & found & El & A & B & C & E & F & H). exists init, found.
    split; [exact El|]. cbv zeta. split; [intros c; rewrite <- A; symmetry; apply summit_peak|]. split; [exact B|]. split; [exact C|]. split; [exact E|]. split; [exact F|exact H].
  Qed.
  Lemma same_count (cs : list coord) (found : list (protohit f32)) : NoDup cs -> NoDup (map ph_max found) -> (forall c, In c cs <-> In c (map ph_max found)) -> zlen found = zlen cs.
  Proof.
    intros A B H. assert (P : Permutation cs (map ph_max found)) by (apply NoDup_Permutation; assumption). apply Permutation_length in P. rewrite map_length in P. unfold zlen. lia.
  Qed.
End Facts.

(** ** CUDA *)
(** The hits are the summits, each once. *)
Theorem C97_hits_are_summits : forall i o T N S floor power hs, cuda_usable o T N S floor power -> maxima_size o N -> maxima_found i o T N S floor power hs ->
  exists cs, NoDup cs /\ (forall c, In c cs <-> summit o T N S floor power c) /\ Forall2 (fun c h => hit_at i o T (gpu_snr o T N S floor power c) c h) cs hs.
Proof.
  intros i o T N S floor power hs Hu Hz (spec & mask & junk & blocks & bdim & hjunk & M & Hs & Hm & Hb & Hd & H). destruct H as [ds plane D' N' cap init c prot hs Hp El Hr Hh Ex Eh].
  destruct (plane_exact o T N S floor power Hu Hz spec mask junk blocks bdim M Hs Hm Hb Hd ds plane Hp) as (-> & Hg). rewrite (drifts_len o T N S floor power Hu) in El.
  destruct (launch_facts o T N S floor power Hu Hz plane Hg) as (init' & found & El' & A & B & C & _ & F & K). rewrite El in El'. injection El' as -> -> -> ->. cbv zeta in F, K.
  destruct (Z_le_gt_dec (zlen found) (maxima_room o N)) as [Q|Q].
  - destruct (F Q _ Hr) as (c' & Ec & P). injection Ec as <-. specialize (P Hh). rewrite Ex in P. apply Permutation_sym in P. destruct (all_some found _ P) as (prot' & E & P').
    assert (E' : prot' = prot). { clear - E. revert prot E. induction prot' as [|x l IH]; intros [|y l'] E; try discriminate; [reflexivity|]. cbn in E. injection E as -> E. f_equal. now apply IH. } subst prot'.
    assert (Pm : Permutation (map ph_max found) (map ph_max prot)) by (apply Permutation_map; exact P').
    assert (Cr : Forall (lm_report f32gt f32lt (s_threshold o) (grid_size (s_low o) (s_high o) (s_step o)) N (gpu_snr o T N S floor power) (gpu_power o T N S) (bin_noise o T power)) prot) by (rewrite Forall_forall in C |- *; intros p Hp'; apply C; eapply Permutation_in; [symmetry; exact P'|exact Hp']).
    destruct (hits_of i o T N S floor power Hu prot hjunk Cr) as (hs' & Eh' & F2).
    { intros p Hp'. assert (Hi : In (ph_max p) (map ph_max found)) by (eapply Permutation_in; [symmetry; exact Pm|now apply in_map]). apply A in Hi as (Hi & _). unfold reportable in Hi. destruct Hu as ((_ & _ & _ & _ & _ & HL) & _). lia. }
    unfold maxima_meta in Eh'. rewrite Eh in Eh'. injection Eh' as <-. exists (map ph_max prot). split; [eapply Permutation_NoDup; [exact Pm|exact B]|]. split; [|exact F2].
    intros e. rewrite A. split; intros He; (eapply Permutation_in; [|exact He]); [symmetry; exact Pm|exact Pm].
  - exfalso. destruct (K ltac:(lia)) as (_ & K'). exact (K' _ Hr Hh).
Qed.
Print Assumptions C97_hits_are_summits.
(** The search completes, whatever the schedule, when there is room for the summits ... *)
Theorem C97_completes : forall i o T N S floor power cs, cuda_usable o T N S floor power -> maxima_size o N -> NoDup cs -> (forall c, In c cs <-> summit o T N S floor power c) -> zlen cs <= maxima_room o N ->
  forall spec mask junk blocks bdim hjunk M, holds (dense [T; N]) spec T N S -> holds (dense [T; N]) mask T N M -> 0 < blocks -> 0 < bdim ->
  (exists hs, cuda_maxima i o floor power T N spec mask junk blocks bdim hjunk hs) /\ ~ cuda_maxima_breaks o floor power T N spec mask junk blocks bdim.
Proof.
  intros i o T N S floor power cs Hu Hz Hn Hc Hroom spec mask junk blocks bdim hjunk M Hs Hm Hb Hd. split.
  - destruct (plane_exists o T N S floor power Hu spec mask junk blocks bdim M Hs Hm Hb Hd) as (plane & Hp).
    destruct (plane_exact o T N S floor power Hu Hz spec mask junk blocks bdim M Hs Hm Hb Hd _ plane Hp) as (_ & Hg).
    destruct (launch_facts o T N S floor power Hu Hz plane Hg) as (init & found & El & A & B & C & E & F & _). cbv zeta in E, F.
    assert (Q : zlen found <= maxima_room o N) by (rewrite (same_count cs found Hn B); [exact Hroom|intros c; rewrite Hc; apply A]). specialize (F Q).
    destruct (end_exists _ init E) as (c & R & Hh). { intros r Hr. destruct (F r Hr) as (c & -> & _). eauto. }
    destruct (F _ R) as (c' & Ec & P). injection Ec as <-. specialize (P Hh). apply Permutation_sym in P. destruct (all_some found _ P) as (prot & Ep & P').
    assert (Cr : Forall (lm_report f32gt f32lt (s_threshold o) (grid_size (s_low o) (s_high o) (s_step o)) N (gpu_snr o T N S floor power) (gpu_power o T N S) (bin_noise o T power)) prot) by (rewrite Forall_forall in C |- *; intros p Hp'; apply C; eapply Permutation_in; [symmetry; exact P'|exact Hp']).
    destruct (hits_of i o T N S floor power Hu prot hjunk Cr) as (hs & Eh & _).
    { intros p Hp'. assert (Hi : In (ph_max p) (map ph_max found)) by (apply in_map; eapply Permutation_in; [symmetry; exact P'|exact Hp']). apply A in Hi as (Hi & _). unfold reportable in Hi. destruct Hu as ((_ & _ & _ & _ & _ & HL) & _). lia. }
    exists hs. eapply Cuda_maxima; [exact Hp|rewrite (drifts_len o T N S floor power Hu); exact El|exact R|exact Hh|exact Ep|exact Eh].
  - intros (ds & plane & D' & N' & cap & init & Hp & El & Hr). destruct (plane_exact o T N S floor power Hu Hz spec mask junk blocks bdim M Hs Hm Hb Hd ds plane Hp) as (-> & Hg). rewrite (drifts_len o T N S floor power Hu) in El.
    destruct (launch_facts o T N S floor power Hu Hz plane Hg) as (init' & found & El' & A & B & C & _ & F & _). rewrite El in El'. injection El' as -> -> -> ->. cbv zeta in F.
    assert (Q : zlen found <= maxima_room o N) by (rewrite (same_count cs found Hn B); [exact Hroom|intros c; rewrite Hc; apply A]). destruct (F Q _ Hr) as (? & ? & _). discriminate.
Qed.
Print Assumptions C97_completes.
(** ... and otherwise never; it may write past the end of the results. *)
Theorem C97_crowded_refuted : forall i o T N S floor power cs, cuda_usable o T N S floor power -> maxima_size o N -> NoDup cs -> (forall c, In c cs -> summit o T N S floor power c) -> maxima_room o N < zlen cs ->
  (forall hs, ~ maxima_found i o T N S floor power hs) /\
  forall spec mask junk blocks bdim M, holds (dense [T; N]) spec T N S -> holds (dense [T; N]) mask T N M -> 0 < blocks -> 0 < bdim -> cuda_maxima_breaks o floor power T N spec mask junk blocks bdim.
Proof.
  intros i o T N S floor power cs Hu Hz Hn Hc Hroom.
  assert (Crowd : forall found : list (protohit f32), (forall c, summit o T N S floor power c <-> In c (map ph_max found)) -> maxima_room o N < zlen found).
  { intros found A. assert (Q : (length cs <= length (map ph_max found))%nat) by (apply NoDup_incl_length; [exact Hn|intros c Hi; apply A, Hc, Hi]). rewrite map_length in Q. unfold zlen in *. lia. }
  split.
  - intros hs (spec & mask & junk & blocks & bdim & hjunk & M & Hs & Hm & Hb & Hd & H). destruct H as [ds plane D' N' cap init c prot hs Hp El Hr Hh Ex Eh].
    destruct (plane_exact o T N S floor power Hu Hz spec mask junk blocks bdim M Hs Hm Hb Hd ds plane Hp) as (-> & Hg). rewrite (drifts_len o T N S floor power Hu) in El.
    destruct (launch_facts o T N S floor power Hu Hz plane Hg) as (init' & found & El' & A & _ & _ & _ & _ & K). pose proof (Crowd found A) as Q. rewrite El in El'. injection El' as -> -> -> ->. exact (proj2 (K Q) _ Hr Hh).
  - intros spec mask junk blocks bdim M Hs Hm Hb Hd. destruct (plane_exists o T N S floor power Hu spec mask junk blocks bdim M Hs Hm Hb Hd) as (plane & Hp).
    destruct (plane_exact o T N S floor power Hu Hz spec mask junk blocks bdim M Hs Hm Hb Hd _ plane Hp) as (_ & Hg).
    destruct (launch_facts o T N S floor power Hu Hz plane Hg) as (init & found & El & A & _ & _ & _ & _ & K). pose proof (Crowd found A) as Q.
    eexists _, plane, _, _, _, init. split; [exact Hp|]. rewrite (drifts_len o T N S floor power Hu). split; [exact El|]. exact (proj1 (K Q)).
Qed.
Print Assumptions C97_crowded_refuted.
(** A line that stands out of the floor by the threshold and of the lines around it, up to rounding, has a hit. *)
Theorem C97_detects : forall i o T N S floor power hs, cuda_usable o T N S floor power -> maxima_size o N -> maxima_found i o T N S floor power hs -> forall c, reportable o N c ->
  (B2R (s_threshold o) * line_noise o T (B2R power) c * (1 + bpow radix2 (-21)) + met_rounding o T N S c <= met_average o T N S c - B2R floor)%R ->
  no_overflow o T N S floor power c ->
  (forall e, around o c e -> e <> c -> no_overflow o T N S floor power e /\ met_ratio o T N S floor power e + ratio_error o T N S floor power e + ratio_error o T N S floor power c <= met_ratio o T N S floor power c)%R ->
  exists h, In h hs /\ hit_at i o T (gpu_snr o T N S floor power c) c h.
Proof.
  intros i o T N S floor power hs Hu Hz Hf c Hc H Ho Hn. destruct (C97_hits_are_summits i o T N S floor power hs Hu Hz Hf) as (cs & _ & Hcs & F2).
  assert (Hin : forall e, reportable o N e -> bin (grid_size (s_low o) (s_high o) (s_step o)) N e) by (intros e He; unfold reportable in He; destruct Hu as ((_ & _ & _ & _ & _ & HL) & _); unfold bin; lia).
  assert (Hs : In c cs).
  { apply Hcs. split; [exact Hc|]. split; [apply gpu_exceeds; auto|]. intros e He. destruct (f32gt (gpu_snr o T N S floor power e) (gpu_snr o T N S floor power c)) eqn:G; [|reflexivity]. exfalso.
    assert (Ne : e <> c) by (intros ->; rewrite f32gt_irrefl in G; discriminate). destruct (Hn e He Ne) as (Oe & Me).
    assert (Be : bin (grid_size (s_low o) (s_high o) (s_step o)) N e). { unfold around in He. unfold reportable in Hc. unfold bin. destruct c, e. cbn [fst snd] in *. lia. }
    destruct (C95_snr_accuracy o T N S floor power Hu c (Hin c Hc) Ho) as (Fc & Ac). destruct (C95_snr_accuracy o T N S floor power Hu e Be Oe) as (Fe & Ae).
    fold (met_ratio o T N S floor power c) in Ac. fold (met_error o T N S power c) in Ac. fold (ratio_error o T N S floor power c) in Ac.
    fold (met_ratio o T N S floor power e) in Ae. fold (met_error o T N S power e) in Ae. fold (ratio_error o T N S floor power e) in Ae.
    apply f32gt_val in G as (_ & _ & G). rewrite !fval_finite in G by assumption. apply Rabs_le_inv in Ac, Ae. lra. }
  clear - F2 Hs. induction F2 as [|x h cs hs Hh F2 IH]; [destruct Hs|]. destruct Hs as [-> |Hs]; [exists h; split; [now left|exact Hh]|]. destruct (IH Hs) as (h' & A & B). exists h'. split; [now right|exact B].
Qed.
Print Assumptions C97_detects.
(** Every hit is a line that stands out of the floor by the threshold, up to rounding; no line around it is stronger. *)
Theorem C97_hits_are_real : forall i o T N S floor power hs, cuda_usable o T N S floor power -> maxima_size o N -> maxima_found i o T N S floor power hs -> forall h, In h hs ->
  exists c, reportable o N c /\ hit_at i o T (gpu_snr o T N S floor power c) c h /\
    (B2R (s_threshold o) * line_noise o T (B2R power) c * (1 - bpow radix2 (-22)) - met_rounding o T N S c <= met_average o T N S c - B2R floor)%R /\
    (no_overflow o T N S floor power c -> forall e, around o c e -> no_overflow o T N S floor power e ->
       met_ratio o T N S floor power e - ratio_error o T N S floor power e <= met_ratio o T N S floor power c + ratio_error o T N S floor power c)%R.
Proof.
  intros i o T N S floor power hs Hu Hz Hf h Hh. destruct (C97_hits_are_summits i o T N S floor power hs Hu Hz Hf) as (cs & _ & Hcs & F2).
  assert (Q : exists c, In c cs /\ hit_at i o T (gpu_snr o T N S floor power c) c h).
  { clear - F2 Hh. induction F2 as [|x y cs hs Hx F2 IH]; [destruct Hh|]. destruct Hh as [->|Hh]; [exists x; split; [now left|exact Hx]|]. destruct (IH Hh) as (c & A & B). exists c. split; [now right|exact B]. }
  destruct Q as (c & Hi & Hc). apply Hcs in Hi as (Hr & Hg & Hn). exists c. split; [exact Hr|]. split; [exact Hc|].
  assert (HL : 2 <= s_distance o) by (destruct Hu as ((_ & _ & _ & _ & _ & HL) & _); exact HL).
  assert (Bc : bin (grid_size (s_low o) (s_high o) (s_step o)) N c) by (unfold reportable in Hr; unfold bin; lia). split; [apply (gpu_exceeded o T N S floor power Hu c Bc Hg)|].
  intros Oc e He Oe. assert (Be : bin (grid_size (s_low o) (s_high o) (s_step o)) N e). { unfold around in He. unfold reportable in Hr. unfold bin. destruct c, e. cbn [fst snd] in *. lia. }
  destruct (C95_snr_accuracy o T N S floor power Hu c Bc Oc) as (Fc & Ac). destruct (C95_snr_accuracy o T N S floor power Hu e Be Oe) as (Fe & Ae).
  fold (met_ratio o T N S floor power c) in Ac. fold (met_error o T N S power c) in Ac. fold (ratio_error o T N S floor power c) in Ac.
  fold (met_ratio o T N S floor power e) in Ae. fold (met_error o T N S power e) in Ae. fold (ratio_error o T N S floor power e) in Ae.
  specialize (Hn e He). assert (V : (B2R (gpu_snr o T N S floor power e) <= B2R (gpu_snr o T N S floor power c))%R).
  { apply Rnot_lt_le. intros G. assert (f32gt (gpu_snr o T N S floor power e) (gpu_snr o T N S floor power c) = true); [|congruence].
    apply f32gt_val. split; [now apply finite_number|]. split; [now apply finite_number|]. now rewrite !fval_finite. }
  apply Rabs_le_inv in Ac, Ae. lra.
Qed.
Print Assumptions C97_hits_are_real.
Section Inner.
  Variables (o : search_options) (N : Z).
  Notation D := (grid_size (s_low o) (s_high o) (s_step o)).
  Notation L := (s_distance o).
  Lemma pairs_nodup (l l' : list Z) : NoDup l -> NoDup l' -> NoDup (list_prod l l').
  Proof.
    induction l as [|a l IH]; intros Hl Hl'; [constructor|]. inversion Hl; subst. cbn.
    assert (G2 : forall (u v : list (Z * Z)), NoDup u -> NoDup v -> (forall z, In z u -> ~ In z v) -> NoDup (u ++ v)).
    { clear. induction u as [|y u IHu]; intros v Hu Hv H; [exact Hv|]. inversion Hu; subst. cbn. constructor.
      - rewrite in_app_iff. intros [Q|Q]; [auto|]. eapply H; [now left|exact Q].
      - apply IHu; auto. intros z Hz. apply H. now right. }
    apply G2; [apply FinFun.Injective_map_NoDup; [intros x y Q; congruence|auto]|auto|].
    intros z Hz Hz'. apply in_map_iff in Hz as (b & <- & _). apply in_prod_iff in Hz' as (Q & _). auto.
  Qed.
  (** All bins a peak can be at. *)
  Definition inner_bins : list coord := list_prod (map (fun k => L + k) (zrange (D - 2 * L + 1))) (map (fun k => L - 1 + k) (zrange (N - 2 * L + 2))).
  Lemma inner_spec c : In c inner_bins <-> reportable o N c.
  Proof.
    destruct c as (d & f). unfold inner_bins, reportable. eapply iff_trans; [apply (@in_prod_iff Z Z)|]. rewrite !in_map_iff. cbn [fst snd]. split.
    - intros ((x & <- & Hx) & (y & <- & Hy)). apply in_zrange in Hx, Hy. lia.
    - intros H. split; [exists (d - L)|exists (f - L + 1)]; (split; [lia|apply in_zrange; lia]).
  Qed.
  Lemma inner_nodup : NoDup inner_bins.
  Proof. apply pairs_nodup; (apply FinFun.Injective_map_NoDup; [intros x y Q; lia|apply zrange_nodup]). Qed.
  Lemma inner_count : 2 * L <= D -> 2 * L <= N -> zlen inner_bins = (D - 2 * L + 1) * (N - 2 * L + 2).
  Proof.
    intros H1 H2. unfold inner_bins, zlen. unfold coord. rewrite (@prod_length Z Z), !map_length. pose proof (zrange_length (D - 2 * L + 1)). pose proof (zrange_length (N - 2 * L + 2)). unfold zlen in *. nia.
  Qed.
End Inner.
(** A channel of equal samples above the threshold: every bin away from the border ties with the bins around it, so the results do not fit. *)
Section Flat.
  Variables (o : search_options) (T N : Z) (S : Z -> Z -> f32) (floor power : f32).
  Notation D := (grid_size (s_low o) (s_high o) (s_step o)).
  Notation L := (s_distance o).
  Hypotheses (Hu : cuda_usable o T N S floor power) (Hde : s_desmear o = false) (HS : forall t ch, 0 <= t < T -> 0 <= ch < N -> S t ch = f32_of_Z 1).
  Lemma flat_power c : bin D N c -> gpu_power o T N S c = f32_of_Z 1.
  Proof.
    intros Hc. destruct (met_count o T N S floor power Hu c Hc) as (P & Lb & (C1 & C2) & Sr). assert (Hn : zlen (met o T N c) <= 2 ^ 21) by (apply le_IZR; change (IZR (2 ^ 21)) with (bpow radix2 21); lra).
    unfold gpu_power, cuda_value. fold (met o T N c). replace (zlen (met o T N c) =? 0) with false by lia.
    assert (E : map (fun tc => S (fst tc) (snd tc)) (met o T N c) = repeat one32 (length (met o T N c))).
    { assert (H : forall tc, In tc (met o T N c) -> S (fst tc) (snd tc) = one32) by (intros (t & ch) Hi; destruct (met_in _ _ _ _ _ _ Hi); now apply HS).
      clear - H. induction (met o T N c) as [|x l IH]; [reflexivity|]. cbn. f_equal; [apply H; now left|apply IH; intros y Hy; apply H; now right]. }
    rewrite E. unfold lsum. change (f32_of_Z 0) with (B754_zero false : f32). unfold add32. rewrite ones_sum. unfold zlen in *. set (n := Z.of_nat (length (met o T N c))) in *. rewrite Z.min_l by lia.
    unfold f32_div_int, div32. destruct (f32_of_Z_ok n ltac:(lia)) as (V & F). destruct (f32_of_Z_ok 1 ltac:(lia)) as (V1 & F1).
    assert (Nz : (IZR n <> 0)%R) by (apply not_0_IZR; lia). pose proof (Bdiv_correct 24 128 prec24 emax128 mode_NE (f32_of_Z n) (f32_of_Z n) ltac:(rewrite V; exact Nz)) as C. rewrite V in C. replace (IZR n / IZR n)%R with (B2R (f32_of_Z 1)) in C by (rewrite V1; field; exact Nz).
    rewrite round_generic in C; [|apply valid_rnd_N|apply generic_format_B2R]. rewrite Rlt_bool_true in C; [|rewrite V1, Rabs_R1; change 1%R with (bpow radix2 0); apply bpow_lt; lia].
    destruct C as (E1 & E2 & E3). rewrite F in E2. apply B2R_Bsign_inj; [exact E2|exact F1|exact E1|]. rewrite E3; [rewrite xorb_nilpotent; reflexivity|]. revert E2. destruct (Bdiv mode_NE (f32_of_Z n) (f32_of_Z n)); try reflexivity; discriminate.
  Qed.
  Lemma flat_noise d e : bin_noise o T power d = bin_noise o T power e.
  Proof. clear Hu HS. unfold bin_noise. rewrite Hde. reflexivity. Qed.
  Lemma flat_average c : bin D N c -> met_average o T N S c = 1%R.
  Proof.
    intros Hc. destruct (met_bounds o T N S floor power Hu c 1 1 Hc) as (A & B); [|lra]. intros t ch Hi. destruct (met_in _ _ _ _ _ _ Hi) as (H1 & H2). rewrite (HS t ch H1 H2), (proj1 (f32_of_Z_ok 1 ltac:(lia))). lra.
  Qed.
End Flat.
Theorem C97_flat_channel_refuted : forall i o T N S floor power, cuda_usable o T N S floor power -> maxima_size o N -> s_desmear o = false -> (forall t ch, 0 <= t < T -> 0 <= ch < N -> S t ch = f32_of_Z 1) ->
  (B2R (s_threshold o) * (B2R power / sqrt (IZR T)) * (1 + bpow radix2 (-21)) + (2 * IZR T + 5) * bpow radix2 (-24) <= 1 - B2R floor)%R ->
  let D := grid_size (s_low o) (s_high o) (s_step o) in let L := s_distance o in
  2 * L <= D -> 2 * L <= N -> (D * N) / (L * L) < (D - 2 * L + 1) * (N - 2 * L + 2) ->
  (forall hs, ~ maxima_found i o T N S floor power hs) /\
  forall spec mask junk blocks bdim M, holds (dense [T; N]) spec T N S -> holds (dense [T; N]) mask T N M -> 0 < blocks -> 0 < bdim -> cuda_maxima_breaks o floor power T N spec mask junk blocks bdim.
Proof.
  intros i o T N S floor power Hu Hz Hde HS Hm D L H1 H2 H3. assert (HL : 2 <= L) by (destruct Hu as ((_ & _ & _ & _ & _ & HL) & _); exact HL).
  apply (C97_crowded_refuted i o T N S floor power (inner_bins o N) Hu Hz); [apply inner_nodup| |unfold maxima_room; rewrite inner_count; assumption].
  intros c Hc. apply inner_spec in Hc. assert (Bc : bin D N c) by (unfold reportable in Hc; fold D L in Hc; unfold bin; lia). split; [exact Hc|]. split.
  - apply gpu_exceeds; [exact Hu|exact Bc|]. unfold met_rounding. rewrite (flat_average o T N S floor power Hu Hde HS c Bc). unfold line_noise. assert (E : line_count o T c = IZR T) by (unfold line_count, line_width; rewrite Hde; cbn [width]; f_equal; lia). rewrite E.
    assert (4 * bpow radix2 (-150) <= bpow radix2 (-24))%R; [|lra]. apply Rle_trans with (bpow radix2 (-148)); [|apply bpow_le; lia]. change 4%R with (bpow radix2 2). rewrite <- bpow_plus. apply Rle_refl.
  - intros e He. assert (Be : bin D N e). { unfold around in He. unfold reportable in Hc. fold D L in Hc, He. unfold bin. destruct c, e. cbn [fst snd] in *. lia. }
    unfold gpu_snr. rewrite (flat_power o T N S floor power Hu Hde HS c Bc), (flat_power o T N S floor power Hu Hde HS e Be), (flat_noise o T power Hde (fst e) (fst c)). apply f32gt_irrefl.
Qed.
Print Assumptions C97_flat_channel_refuted.

(** ** CPU *)
(** Signal to noise ratios with the same noise are ordered as the powers. *)
Lemma snr_mono (fl w x y : f32) : is_finite x = true -> is_finite y = true -> is_finite fl = true -> is_finite w = true -> (Rabs (B2R x) <= bpow radix2 101)%R -> (Rabs (B2R y) <= bpow radix2 101)%R -> (Rabs (B2R fl) <= bpow radix2 101)%R -> (0 < B2R w)%R ->
  (B2R x <= B2R y)%R -> f32gt (f32snr fl x w) (f32snr fl y w) = false.
Proof.
  intros Fx Fy Ff Fw Bx By Bf Pw H. unfold f32snr. destruct (difference x fl Fx Ff Bx Bf) as (Fdx & _). destruct (difference y fl Fy Ff By Bf) as (Fdy & _).
  assert (Le : (B2R (Bminus mode_NE x fl) <= B2R (Bminus mode_NE y fl))%R).
  { pose proof (Bminus_correct 24 128 prec24 emax128 mode_NE x fl Fx Ff) as Cx. pose proof (Bminus_correct 24 128 prec24 emax128 mode_NE y fl Fy Ff) as Cy.
    destruct (Rlt_bool _ _) in Cx; [|destruct Cx as (Cx & _); destruct (Bminus mode_NE x fl); try discriminate Fdx; cbn in Cx; destruct (Bsign x); discriminate Cx].
    destruct (Rlt_bool _ _) in Cy; [|destruct Cy as (Cy & _); destruct (Bminus mode_NE y fl); try discriminate Fdy; cbn in Cy; destruct (Bsign y); discriminate Cy].
    destruct Cx as (-> & _), Cy as (-> & _). apply round_le; [exact (fexp_correct 24 128 prec24)|apply valid_rnd_N|lra]. }
  set (a := Bminus mode_NE x fl) in *. set (b := Bminus mode_NE y fl) in *. destruct (quotient a w Fdx Fw Pw) as (Na & Ca). destruct (quotient b w Fdy Fw Pw) as (Nb & Cb).
  assert (Q : (rd32 (B2R a / B2R w) <= rd32 (B2R b / B2R w))%R). { apply round_le; [exact (fexp_correct 24 128 prec24)|apply valid_rnd_N|]. unfold Rdiv. apply Rmult_le_compat_r; [left; now apply Rinv_0_lt_compat|exact Le]. }
  assert (Sg : forall q, (0 <= q -> 0 <= rd32 q)%R /\ (q <= 0 -> rd32 q <= 0)%R).
  { intros q. split; intros Hq; [apply round_ge_generic|apply round_le_generic]; try exact (fexp_correct 24 128 prec24); try apply valid_rnd_N; try apply generic_format_0; exact Hq. }
  destruct (f32gt _ _) eqn:G; [|reflexivity]. exfalso. apply f32gt_val in G as (_ & _ & G). pose proof (bpow_gt_0 radix2 128) as P.
  set (sa := Bdiv mode_NE a w) in *. set (sb := Bdiv mode_NE b w) in *. destruct (Sg (B2R a / B2R w)%R) as (A1 & A2). destruct (Sg (B2R b / B2R w)%R) as (B1 & B2).
  pose proof (abs_B2R_lt_emax 24 128 sa) as Ma. pose proof (abs_B2R_lt_emax 24 128 sb) as Mb. apply Rabs_lt_inv in Ma, Mb.
  destruct Ca as [(_ & Va & Wa)|(Oa & [(Wa & Qa)|(Wa & Qa)])]; destruct Cb as [(_ & Vb & Wb)|(Ob & [(Wb & Qb)|(Wb & Qb)])]; rewrite Wa, Wb in G; try lra.
  - specialize (B2 Qb). rewrite Rabs_left1 in Ob by exact B2. lra.
  - specialize (A1 Qa). rewrite Rabs_pos_eq in Oa by exact A1. lra.
  - specialize (A1 Qa). specialize (B2 Qb). rewrite Rabs_pos_eq in Oa by exact A1. lra.
Qed.
Lemma descends_le (row : Z -> f32) sig N f sg (m : nat) : descends f32lt sig row N f sg (Z.of_nat m) -> (forall j, 0 <= j <= Z.of_nat m -> is_finite (row (f + sg * j)) = true) -> (B2R (row (f + sg * Z.of_nat m)%Z) <= B2R (row f))%R.
Proof.
  induction m as [|m IH]; intros H Fin; [replace (f + sg * Z.of_nat 0) with f by lia; lra|]. apply Rle_trans with (B2R (row (f + sg * Z.of_nat m)%Z)).
  - destruct (H (Z.of_nat (Datatypes.S m)) ltac:(lia)) as (_ & _ & G). replace (Z.of_nat (Datatypes.S m) - 1) with (Z.of_nat m) in G by lia. unfold f32lt in G. apply f32gt_val in G as (_ & _ & G). rewrite !fval_finite in G by (apply Fin; lia). lra.
  - apply IH; [intros j Hj; apply H; lia|intros j Hj; apply Fin; lia].
Qed.
(** With a neighbour distance of zero or less the CPU search reports significant bins at the top of their flanks in frequency: every line that stands out
    has a hit at least as strong on its own drift rate, and every hit stands out. *)
Theorem C97_cpu_no_neighbourhood : forall i o T N S M floor power ls lm data mask fuel junk, usable o T N S floor power -> s_method o = LocalMaxima -> s_distance o <= 0 -> N < 2 ^ 30 ->
  holds ls data T N S -> holds lm mask T N M -> let D := grid_size (s_low o) (s_high o) (s_step o) in
  exists hs, search_channel fuel junk i o floor power (ls, data) (lm, mask) = Some (Ok hs) /\
    NoDup (map (fun h => (h_rate h, h_index h)) hs) /\
    (forall c, bin D N c -> (B2R (s_threshold o) * line_noise o T (B2R power) c * (1 + bpow radix2 (-21)) + rounding o T N S c <= line_average o T N S c - B2R floor)%R ->
       exists h, In h hs /\ h_rate h = fst c /\ f32gt (bin_snr o T N S floor power c) (h_snr h) = false) /\
    (forall h, In h hs -> exists c, bin D N c /\ hit_at i o T (bin_snr o T N S floor power c) c h /\
       (B2R (s_threshold o) * line_noise o T (B2R power) c * (1 - bpow radix2 (-22)) - rounding o T N S c <= line_average o T N S c - B2R floor)%R).
Proof.
  intros i o T N S M floor power ls lm data mask fuel junk (Hg & Hs & Hb & Ft & Bt & Ff & Bf & Fp & Bp) Hmeth HL HN Hd Hm D.
  destruct (search_inputs i o T N S M ls lm data mask power Hd Hm Hg) as (ds & st & Ed & Ld & Est & Em & Hi). cbn zeta in Hi. set (lp := dense [D; N]) in *.
  destruct (C31_no_neighbourhood f32 (f32snr floor) f32gt (s_threshold o) f32lt (fun s => s) _ _ _ _ _ _ (s_distance o) _ _ _ _ _ Hi HL HN) as (found & E & Hr & Hn & Hc). rewrite Forall_forall in Hr.
  assert (Lr : zlen (m_rates (channel_meta i o T floor)) = D) by (rewrite <- (Em floor); unfold zlen in *; rewrite map_length; exact Ld).
  destruct (make_hits_ok (channel_meta i o T floor) junk found) as (hs & Eh & F2).
  { intros p Hp. rewrite Lr. destruct (Hr p Hp) as ((B1 & _) & _ & _ & _ & E5 & _). split; [exact B1|]. rewrite E5. discriminate. }
  assert (F3 : Forall2 (fun p h => hit_at i o T (bin_snr o T N S floor power (ph_max p)) (ph_max p) h) found hs).
  { clear Eh E Hc Hn. induction F2 as [|p h found hs (j & Ej) F2 IH]; [constructor|]. constructor; [|apply IH; intros q Hq; apply Hr; now right].
    destruct (Hr p (or_introl eq_refl)) as ((B1 & _) & _ & _ & E3 & E5 & _). unfold make_hit, zget in Ej. cbn [channel_meta m_rates] in Ej. unfold znth in Ej. replace (fst (ph_max p) <? 0) with false in Ej by lia.
    rewrite nth_error_map, nth_error_zrange in Ej by exact B1. cbn [option_map obind] in Ej. rewrite E5 in Ej. injection Ej as <-. unfold hit_at. cbn [h_index h_rate h_drift h_snr]. rewrite E3.
    split; [reflexivity|]. split; [reflexivity|]. split; reflexivity. }
  exists hs. split; [|split; [|split]].
  - unfold search_channel. cbn [fst snd]. pose proof Hd as (Hsh & _). rewrite Hsh, Ed. cbn [lift rbind]. rewrite Est. cbn [rbind]. unfold protohits. rewrite Hmeth, Ld. rewrite E. cbn [rbind]. rewrite (Em floor). unfold lift. f_equal. exact Eh.
  - assert (Em' : map (fun h => (h_rate h, h_index h)) hs = map ph_max found); [|rewrite Em'; exact Hn]. clear - F3. induction F3 as [|p h found hs (H1 & H2 & _) F3 IH]; [reflexivity|]. cbn. rewrite IH, H1, H2. now destruct (ph_max p).
  - intros c Bc H. destruct (power_close o T N S Hg Hs Hb c Bc) as (Fx & Ex & Bx & _). destruct (noise_close o T N Hg Hs power c Bc Fp Bp) as (Fw & Ew & Ps & Pw). pose proof u32_pos as U. pose proof u32_small as U'.
    assert (Sig : f32gt (bin_snr o T N S floor power c) (s_threshold o) = true).
    { assert (Bt' : (bpow radix2 (-126) <= B2R (s_threshold o))%R) by (apply Rle_trans with (2 := Bt); apply bpow_le; lia). pose proof (bpow_gt_0 radix2 (-126)) as P.
      apply exceeds; try assumption. apply Rabs_le_inv in Ex. apply Rabs_le_inv in Ew. apply Rle_trans with (line_average o T N S c - rounding o T N S c - B2R floor)%R; [|lra].
      apply Rle_trans with (B2R (s_threshold o) * line_noise o T (B2R power) c * (1 + bpow radix2 (-21)))%R; [|lra]. rewrite !Rmult_assoc. apply Rmult_le_compat_l; [lra|].
      apply Rle_trans with (line_noise o T (B2R power) c * (1 + 2 * u32) * (1 + 4 * u32))%R; [apply Rmult_le_compat_r; lra|]. rewrite Rmult_assoc. apply Rmult_le_compat_l; [lra|].
      change (bpow radix2 (-21)) with (/ IZR 2097152)%R. replace (/ IZR 2097152)%R with (8 * u32)%R by (rewrite u32_val; lra). nra. }
    destruct (Hc c Bc Sig) as (p & Hp & E1 & sg & m & Hsg & Hm0 & E2 & Hdesc). destruct (Hr p Hp) as (Bp' & _). destruct c as (d & f). cbn [fst snd] in E1, E2. destruct (ph_max p) as (d0 & f0') eqn:Ep. cbn [fst snd] in *. subst d.
    assert (Hh : exists h, In h hs /\ hit_at i o T (bin_snr o T N S floor power (ph_max p)) (ph_max p) h).
    { clear - F3 Hp. induction F3 as [|q h found hs Hx F3 IH]; [destruct Hp|]. destruct Hp as [->|Hp]; [exists h; split; [now left|exact Hx]|]. destruct (IH Hp) as (h' & A & B). exists h'. split; [now right|exact B]. }
    destruct Hh as (h & Hh & H1 & H2 & _ & H4). rewrite Ep in *. cbn [fst snd] in *. exists h. split; [exact Hh|]. split; [exact H2|]. rewrite H4. unfold bin_snr. cbn [fst].
    destruct (power_close o T N S Hg Hs Hb (d0, f0') Bp') as (Fy & _ & By & _). apply snr_mono; try assumption.
    replace (d0, f) with (d0, f0' + sg * Z.of_nat (Z.to_nat m)) by (rewrite Z2Nat.id by exact Hm0; now rewrite E2). rewrite <- (Z2Nat.id m Hm0) in Hdesc.
    apply (descends_le (fun x => bin_power o T N S (d0, x)) _ N f0' sg (Z.to_nat m) Hdesc). intros j Hj. rewrite Z2Nat.id in * by exact Hm0.
    destruct (power_close o T N S Hg Hs Hb (d0, f0' + sg * j)) as (Fj & _); [|exact Fj]. destruct Bp' as (B1 & B2). split; [exact B1|]. cbn [fst snd] in *. destruct (Z.eq_dec j 0) as [->|Nj]; [replace (f0' + sg * 0) with f0' by ring; exact B2|]. apply (Hdesc j ltac:(lia)).
  - intros h Hh. assert (Hp : exists p, In p found /\ hit_at i o T (bin_snr o T N S floor power (ph_max p)) (ph_max p) h).
    { clear - F3 Hh. induction F3 as [|q h' found hs Hx F3 IH]; [destruct Hh|]. destruct Hh as [->|Hh]; [exists q; split; [now left|exact Hx]|]. destruct (IH Hh) as (p & A & B). exists p. split; [now right|exact B]. }
    destruct Hp as (p & Hp & Hat). destruct (Hr p Hp) as (Bc & Gt & _). set (c := ph_max p) in *. exists c. split; [exact Bc|]. split; [exact Hat|].
    destruct (power_close o T N S Hg Hs Hb c Bc) as (Fx & Ex & Bx & _). destruct (noise_close o T N Hg Hs power c Bc Fp Bp) as (Fw & Ew & Ps & Pw). pose proof u32_pos as U. pose proof u32_small as U'.
    pose proof (bpow_gt_0 radix2 (-125)) as P. pose proof (exceeded _ _ _ _ Fx Ff Fw Ft Bx Bf Pw ltac:(lra) Gt) as R1. apply Rabs_le_inv in Ex. apply Rabs_le_inv in Ew.
    apply Rle_trans with (B2R (bin_power o T N S c) - rounding o T N S c - B2R floor)%R; [|lra].
    assert (B2R (s_threshold o) * line_noise o T (B2R power) c * (1 - bpow radix2 (-22)) <= B2R (s_threshold o) * B2R (bin_noise o T power (fst c)) * (1 - u32))%R; [|lra].
    rewrite !Rmult_assoc. apply Rmult_le_compat_l; [lra|]. apply Rle_trans with (line_noise o T (B2R power) c * (1 - 2 * u32) * (1 - u32))%R; [|apply Rmult_le_compat_r; lra]. rewrite Rmult_assoc. apply Rmult_le_compat_l; [lra|].
    change (bpow radix2 (-22)) with (/ IZR 4194304)%R. rewrite u32_val. lra.
Qed.
Print Assumptions C97_cpu_no_neighbourhood.

(** ** Concrete cases *)
(** A vertical line in a channel of 2 spectra and 16 channels, 5 drift rates, distance 2: the line is the only hit ... *)
Lemma g_ratio d f : 0 <= d < 5 -> 0 <= f < 16 -> let c := (d, f) in no_overflow (g_opts 2) 2 16 g_line ex_floor ex_power c /\
  ((d, f) <> (2%Z, 6%Z) -> met_ratio (g_opts 2) 2 16 g_line ex_floor ex_power c <= 72 /\ ratio_error (g_opts 2) 2 16 g_line ex_floor ex_power c <= 1)%R /\
  ((d, f) = (2%Z, 6%Z) -> 130 <= met_ratio (g_opts 2) 2 16 g_line ex_floor ex_power c /\ ratio_error (g_opts 2) 2 16 g_line ex_floor ex_power c <= 1)%R.
Proof.
  intros Hd Hf c. destruct (g_noise 2 d f) as (B & C). destruct (g_usable 2 ltac:(lia)) as (Hu & _). assert (Vf : B2R ex_floor = 0%R) by apply (f32_of_Z_ok 0 ltac:(lia)).
  assert (A : (0 <= met_average (g_opts 2) 2 16 g_line c <= 100)%R).
  { apply (met_bounds _ _ _ _ _ _ Hu); [change (grid_size _ _ _) with 5; unfold c; split; cbn [fst snd]; lia|]. intros t ch _. destruct (g_val t ch) as (-> & _ & H1). split; apply IZR_le; lia. }
  assert (Hh : (0 < bpow radix2 (-150) <= / IZR 16777216)%R) by (split; [apply bpow_gt_0|change (/ IZR 16777216)%R with (bpow radix2 (-24)); apply bpow_le; lia]).
  assert (H120 : (1000 <= bpow radix2 120)%R) by (apply Rle_trans with (bpow radix2 10); [change (bpow radix2 10) with (IZR 1024); lra|apply bpow_le; lia]).
  unfold no_overflow, ratio_error, met_ratio, met_error, met_rounding. fold c in C |- *. unfold c in C. fold c in C. rewrite C, Vf. set (w := line_noise (g_opts 2) 2 (B2R ex_power) c) in *. change (line_noise (g_opts 2) 2 (B2R ex_power) (d, f)) with w in B.
  set (a := met_average (g_opts 2) 2 16 g_line c) in *. change (bpow radix2 (-24)) with (/ IZR 16777216)%R. change (bpow radix2 (-21)) with (/ IZR 2097152)%R. set (h := bpow radix2 (-150)) in *. set (m := bpow radix2 120) in *.
  assert (D1 : forall x, (0 <= x -> 0 <= x / w <= x * (10 / 7))%R).
  { intros x Hx. assert (I : (0 < / w <= 10 / 7)%R). { split; [apply Rinv_0_lt_compat; lra|]. replace (10 / 7)%R with (/ (7 / 10))%R by field. apply Rinv_le; lra. } unfold Rdiv at 1 2. split; [apply Rmult_le_pos; lra|apply Rmult_le_compat_l; lra]. }
  assert (D2 : ((2 * 2 + 4) * / IZR 16777216 * a + 4 * h <= 1 / 1000)%R) by lra.
  destruct (D1 ((2 * 2 + 4) * / IZR 16777216 * a + 4 * h)%R) as (E1 & E2); [lra|]. rewrite Rminus_0_r. destruct (D1 a) as (E3 & E4); [lra|].
  set (r := (a / w)%R) in *. set (e := (((2 * 2 + 4) * / IZR 16777216 * a + 4 * h) / w)%R) in *. rewrite (Rabs_pos_eq r) by lra. split; [lra|]. split.
  - intros Hn. pose proof (g_half 2 d f Hd Hf Hn) as Ha. change (met_average (g_opts 2) 2 16 g_line (d, f)) with a in Ha. lra.
  - intros E. injection E as -> ->. assert (Ea : a = 100%R). { unfold a, c. rewrite g_average by lia. replace (isum g_int (g_met 2 6)) with 200 by (vm_compute; reflexivity). replace (zlen (g_met 2 6)) with 2 by (vm_compute; reflexivity). lra. }
    assert (130 <= r)%R; [|lra]. unfold r. rewrite Ea. apply Rmult_le_reg_r with w; [lra|]. replace (100 / w * w)%R with 100%R by (field; lra). lra.
Qed.
Example C97_case : forall i, cuda_usable (g_opts 2) 2 16 g_line ex_floor ex_power /\ maxima_size (g_opts 2) 16 /\ (exists hs, maxima_found i (g_opts 2) 2 16 g_line ex_floor ex_power hs) /\ reportable (g_opts 2) 16 (2, 6) /\
  (B2R (s_threshold (g_opts 2)) * line_noise (g_opts 2) 2 (B2R ex_power) (2%Z, 6%Z) * (1 + bpow radix2 (-21)) + met_rounding (g_opts 2) 2 16 g_line (2%Z, 6%Z) <= met_average (g_opts 2) 2 16 g_line (2%Z, 6%Z) - B2R ex_floor)%R /\
  (forall e, around (g_opts 2) (2%Z, 6%Z) e -> e <> (2%Z, 6%Z) -> no_overflow (g_opts 2) 2 16 g_line ex_floor ex_power e /\ met_ratio (g_opts 2) 2 16 g_line ex_floor ex_power e + ratio_error (g_opts 2) 2 16 g_line ex_floor ex_power e + ratio_error (g_opts 2) 2 16 g_line ex_floor ex_power (2%Z, 6%Z) <= met_ratio (g_opts 2) 2 16 g_line ex_floor ex_power (2%Z, 6%Z))%R /\
  (forall hs, maxima_found i (g_opts 2) 2 16 g_line ex_floor ex_power hs -> exists h, hs = [h] /\ h_rate h = 2 /\ h_index h = 6).
Proof.
  intros i. destruct (g_usable 2 ltac:(lia)) as (Hu & _). assert (Hz : maxima_size (g_opts 2) 16) by (unfold maxima_size; change (grid_size _ _ _) with 5; change (s_distance _) with 2; lia).
  destruct C95_case as (_ & _ & _ & Rc & Mg & _).
  assert (Nb : forall e, around (g_opts 2) (2, 6) e -> e <> (2, 6) -> no_overflow (g_opts 2) 2 16 g_line ex_floor ex_power e /\ (met_ratio (g_opts 2) 2 16 g_line ex_floor ex_power e + ratio_error (g_opts 2) 2 16 g_line ex_floor ex_power e + ratio_error (g_opts 2) 2 16 g_line ex_floor ex_power (2%Z, 6%Z) <= met_ratio (g_opts 2) 2 16 g_line ex_floor ex_power (2%Z, 6%Z))%R).
  { intros (d & f) He Hn. unfold around in He. change (s_distance (g_opts 2)) with 2 in He. cbn [fst snd] in He. destruct (g_ratio d f ltac:(lia) ltac:(lia)) as (O1 & O2 & _). destruct (g_ratio 2 6 ltac:(lia) ltac:(lia)) as (_ & _ & O4). specialize (O2 Hn). specialize (O4 eq_refl). split; [exact O1|lra]. }
  assert (Only : forall c, summit (g_opts 2) 2 16 g_line ex_floor ex_power c <-> In c [(2, 6)]).
  { intros (d & f). split.
    - intros (Hr & Hg & _). destruct (Z.eq_dec d 2) as [->|Nd]; [destruct (Z.eq_dec f 6) as [->|Nf]; [now left|]|]; exfalso; unfold reportable in Hr; change (grid_size _ _ _) with 5 in Hr; change (s_distance (g_opts 2)) with 2 in Hr; cbn [fst snd] in Hr.
      + assert (Bc : bin 5 16 (2, f)) by (split; cbn [fst snd]; lia). pose proof (gpu_exceeded _ _ _ _ _ _ Hu _ Bc Hg) as E. pose proof (g_below 2 2 f ltac:(lia) ltac:(lia) ltac:(congruence)). lra.
      + assert (Bc : bin 5 16 (d, f)) by (split; cbn [fst snd]; lia). pose proof (gpu_exceeded _ _ _ _ _ _ Hu _ Bc Hg) as E. pose proof (g_below 2 d f ltac:(lia) ltac:(lia) ltac:(congruence)). lra.
    - intros [E|[]]. injection E as <- <-. assert (Bc : bin 5 16 (2, 6)) by (split; cbn [fst snd]; lia). split; [exact Rc|]. split; [apply gpu_exceeds; [exact Hu|exact Bc|exact Mg]|].
      intros e He. destruct (f32gt (gpu_snr (g_opts 2) 2 16 g_line ex_floor ex_power e) (gpu_snr (g_opts 2) 2 16 g_line ex_floor ex_power (2, 6))) eqn:G; [|reflexivity]. exfalso.
      assert (Ne : e <> (2, 6)) by (intros ->; rewrite f32gt_irrefl in G; discriminate). destruct (Nb e He Ne) as (Oe & Me). destruct (g_ratio 2 6 ltac:(lia) ltac:(lia)) as (Oc & _).
      assert (Be : bin 5 16 e). { unfold around in He. change (s_distance (g_opts 2)) with 2 in He. unfold bin. destruct e. cbn [fst snd] in *. lia. }
      destruct (C95_snr_accuracy _ _ _ _ _ _ Hu _ Bc Oc) as (Fc & Ac). destruct (C95_snr_accuracy _ _ _ _ _ _ Hu e Be Oe) as (Fe & Ae).
      apply f32gt_val in G as (_ & _ & G). rewrite !fval_finite in G by assumption. apply Rabs_le_inv in Ac, Ae. unfold ratio_error, met_ratio, met_error in *. lra. }
  assert (Nd : NoDup [(2, 6)]) by (constructor; [intros []|constructor]).
  split; [exact Hu|]. split; [exact Hz|]. split; [|split; [exact Rc|split; [exact Mg|split; [exact Nb|]]]].
  - pose proof (proj1 (rows_channel 2 16 g_line ltac:(lia) ltac:(lia))) as H1. pose proof (proj1 (rows_channel 2 16 (fun _ _ => 0) ltac:(lia) ltac:(lia))) as H2.
    destruct (C97_completes i (g_opts 2) 2 16 g_line ex_floor ex_power [(2, 6)] Hu Hz Nd (fun c => iff_sym (Only c)) ltac:(vm_compute; discriminate) _ _ (fun _ => f0) 3 5 (fun _ => 0) _ H1 H2 ltac:(lia) ltac:(lia)) as ((hs & Hh) & _).
    exists hs. eexists _, _, (fun _ => f0), 3, 5, (fun _ => 0), _. split; [exact H1|]. split; [exact H2|]. split; [lia|]. split; [lia|exact Hh].
  - intros hs Hf. destruct (C97_hits_are_summits i _ _ _ _ _ _ hs Hu Hz Hf) as (cs & Hn & Hcs & F2).
    assert (P : Permutation cs [(2, 6)]) by (apply NoDup_Permutation; [exact Hn|exact Nd|intros c; rewrite Hcs; apply Only]). apply Permutation_sym, Permutation_length_1_inv in P. subst cs.
    inversion F2 as [|? h ? hs' Hh F2']; subst. inversion F2'; subst. exists h. split; [reflexivity|]. destruct Hh as (A & B & _). split; [exact B|exact A].
Qed.
(** ... while the CPU finds nothing with the same options: there a neighbour distance of one or more hides everything. *)
Definition gl_opts (dist : Z) : search_options := Options (-2) 3 1 false LocalMaxima (f32_of_Z 80) dist.
Theorem C97_backends_differ_refuted : exists o T N S floor power, s_method o = LocalMaxima /\ usable o T N S floor power /\ cuda_usable o T N S floor power /\ maxima_size o N /\
  (forall i, (exists hs, maxima_found i o T N S floor power hs) /\ forall hs, maxima_found i o T N S floor power hs -> exists h, hs = [h]) /\
  (forall i ls lm data mask M fuel junk, holds ls data T N S -> holds lm mask T N M -> search_channel fuel junk i o floor power (ls, data) (lm, mask) = Some (Ok [])).
Proof.
  exists (gl_opts 2), 2, 16, g_line, ex_floor, ex_power. destruct (g_usable 2 ltac:(lia)) as (Hc & Hu). split; [reflexivity|]. split; [exact Hu|]. split; [exact Hc|].
  split; [unfold maxima_size; change (grid_size _ _ _) with 5; change (s_distance _) with 2; lia|]. split.
  - intros i. destruct (C97_case i) as (_ & _ & (hs & Hf) & _ & _ & _ & H).
    assert (Same : forall hs, maxima_found i (gl_opts 2) 2 16 g_line ex_floor ex_power hs <-> maxima_found i (g_opts 2) 2 16 g_line ex_floor ex_power hs).
    { intros hs'. unfold maxima_found. split; intros (spec & mask & junk & blocks & bdim & hjunk & M & H1 & H2 & H3 & H4 & Q); exists spec, mask, junk, blocks, bdim, hjunk, M; (split; [exact H1|]; split; [exact H2|]; split; [exact H3|]; split; [exact H4|]);
        (destruct Q as [ds plane D' N' cap init c prot hs'' Hp El Hr Hh Ex Eh]; destruct Hp as [ds rates m ps plane E1 E2 Hg Hfi Lp Hp]; eapply Cuda_maxima; [eapply Cuda_plane; [exact E1|exact E2|exact Hg|exact Hfi|exact Lp|exact Hp]|exact El|exact Hr|exact Hh|exact Ex|exact Eh]). }
    split; [exists hs; now apply Same|]. intros hs' Hf'. apply Same in Hf'. destruct (H _ Hf') as (h & -> & _). now exists h.
  - intros i ls lm data mask M fuel junk H1 H2. apply (C78_other_methods) with (T := 2) (N := 16) (S := g_line) (M := M); try assumption; [apply Hu|right; split; [reflexivity|]]. change (s_distance _) with 2. lia.
Qed.
Print Assumptions C97_backends_differ_refuted.
(** With a distance of zero the CPU finds the line. *)
Lemma g_cpu_margin dist : (B2R (s_threshold (gl_opts dist)) * line_noise (gl_opts dist) 2 (B2R ex_power) (2%Z, 6%Z) * (1 + bpow radix2 (-21)) + rounding (gl_opts dist) 2 16 g_line (2%Z, 6%Z) <= line_average (gl_opts dist) 2 16 g_line (2%Z, 6%Z) - B2R ex_floor)%R.
Proof.
  destruct (g_usable 2 ltac:(lia)) as (_ & Hu). assert (Hu' : usable (gl_opts dist) 2 16 g_line ex_floor ex_power) by exact Hu. clear Hu. destruct Hu' as (Hg & Hs & Hb & _).
  assert (Bc : bin (grid_size (s_low (gl_opts dist)) (s_high (gl_opts dist)) (s_step (gl_opts dist))) 16 (2, 6)) by (change (grid_size _ _ _) with 5; split; cbn [fst snd]; lia).
  assert (Sp : line_span (gl_opts dist) (2, 6) = 0) by reflexivity.
  destruct (average_bounds (gl_opts dist) 2 16 g_line Hg Hs Hb (2, 6) 100%R 100%R Bc) as ((_ & A2) & A).
  { intros t ch Hi. unfold on_line in Hi. rewrite ?Sp in Hi. cbn [snd] in Hi. apply C18_track_bins in Hi as (k & H1 & H2 & H3 & H4). destruct (g_val t ch) as (-> & _). rewrite cpu_rate_off in H4 by exact H1.
    destruct (off_between 2 0 ltac:(lia) ltac:(lia) t H1) as (A & _). specialize (A ltac:(lia)). change (r_desmear (cpu_rate 2 (s_desmear (gl_opts dist)) 0)) with 1 in H2. unfold g_int. replace (ch =? 6) with true by (destruct H4 as [(_ & H4)|(_ & H4 & _)]; lia). lra. }
  { lra. }
  assert (A1 : (100 <= line_average (gl_opts dist) 2 16 g_line (2%Z, 6%Z))%R).
  { apply A. split; [|left; rewrite Sp; lia]. rewrite Sp. change (s_desmear (gl_opts dist)) with false. intros t k Ht Hk. change (r_desmear (cpu_rate 2 false 0)) with 1 in Hk. unfold track_channel. rewrite cpu_rate_off by exact Ht.
    destruct (off_between 2 0 ltac:(lia) ltac:(lia) t Ht) as (A' & _). specialize (A' ltac:(lia)). cbn [snd]. destruct (r_nonneg _); lia. }
  destruct (g_noise 2 2 6) as (B & C). change (line_noise (g_opts 2) 2 (B2R ex_power) (2%Z, 6%Z)) with (line_noise (gl_opts dist) 2 (B2R ex_power) (2%Z, 6%Z)) in B. change (line_count (g_opts 2) 2 (2%Z, 6%Z)) with (line_count (gl_opts dist) 2 (2%Z, 6%Z)) in C.
  unfold rounding, rel_error, abs_error. rewrite C. change (line_width (gl_opts dist) 2 (2, 6)) with 1. assert (Vf : B2R ex_floor = 0%R) by apply (f32_of_Z_ok 0 ltac:(lia)). rewrite Vf. change (s_threshold (gl_opts dist)) with (f32_of_Z 80). rewrite (proj1 (f32_of_Z_ok 80 ltac:(lia))).
  assert (0 < bpow radix2 (-150) <= bpow radix2 (-24))%R by (split; [apply bpow_gt_0|apply bpow_le; lia]). set (w := line_noise _ _ _ _) in *. clearbody w. set (a := line_average _ _ _ _ _) in *. clearbody a. set (h := bpow radix2 (-150)) in *. clearbody h. change (bpow radix2 (-24)) with (/ IZR 16777216)%R in *. change (bpow radix2 (-21)) with (/ IZR 2097152)%R. lra.
Qed.
Example C97_cpu_case : forall i fuel junk, exists hs h, search_channel fuel junk i (gl_opts 0) ex_floor ex_power (dense [2; 16], PropPipe.rows 2 16 g_line) (dense [2; 16], PropPipe.rows 2 16 (fun _ _ => 0)) = Some (Ok hs) /\ In h hs /\ h_rate h = 2.
Proof.
  intros i fuel junk. destruct (g_usable 2 ltac:(lia)) as (_ & Hu). pose proof (proj1 (rows_channel 2 16 g_line ltac:(lia) ltac:(lia))) as H1. pose proof (proj1 (rows_channel 2 16 (fun _ _ => 0) ltac:(lia) ltac:(lia))) as H2.
  destruct (C97_cpu_no_neighbourhood i (gl_opts 0) 2 16 g_line _ ex_floor ex_power _ _ _ _ fuel junk Hu eq_refl ltac:(cbn; lia) ltac:(lia) H1 H2) as (hs & E & _ & A & _).
  destruct (A (2, 6)) as (h & Hh & Hr & _); [change (grid_size _ _ _) with 5; split; cbn [fst snd]; lia|apply g_cpu_margin|]. exists hs, h. split; [exact E|]. split; [exact Hh|exact Hr].
Qed.
(** Equal samples of one, threshold one: 28 peaks, room for 20. *)
Definition flat_opts : search_options := Options (-2) 3 1 false LocalMaxima (f32_of_Z 1) 2.
Example C97_flat_case : cuda_usable flat_opts 2 16 (fun _ _ => f32_of_Z 1) ex_floor ex_power /\ maxima_size flat_opts 16 /\ s_desmear flat_opts = false /\
  (B2R (s_threshold flat_opts) * (B2R ex_power / sqrt (IZR 2)) * (1 + bpow radix2 (-21)) + (2 * IZR 2 + 5) * bpow radix2 (-24) <= 1 - B2R ex_floor)%R /\ maxima_room flat_opts 16 = 20 /\ zlen (inner_bins flat_opts 16) = 28.
Proof.
  destruct (f32_of_Z_ok 1 ltac:(lia)) as (V1 & F1). assert (Vf : B2R ex_floor = 0%R) by apply (f32_of_Z_ok 0 ltac:(lia)). assert (Vp : B2R ex_power = 1%R) by exact V1.
  destruct (g_usable 2 ltac:(lia)) as ((H1 & H2 & _ & _ & _ & H6 & H7 & H8 & H9) & _).
  split; [|split; [unfold maxima_size; change (grid_size _ _ _) with 5; change (s_distance _) with 2; lia|split; [reflexivity|split; [|split; reflexivity]]]].
  - split; [exact H1|]. split; [exact H2|]. split; [intros t c _ _; split; [exact F1|]; rewrite V1; split; [lra|]; change 1%R with (bpow radix2 0); apply bpow_le; lia|].
    split; [exact F1|]. split; [change (s_threshold flat_opts) with (f32_of_Z 1); rewrite V1; change 1%R with (bpow radix2 0); apply bpow_le; lia|]. split; [exact H6|]. split; [exact H7|]. split; [exact H8|exact H9].
  - change (s_threshold flat_opts) with (f32_of_Z 1). rewrite V1, Vp, Vf. assert (S2 : (14 / 10 <= sqrt 2)%R) by (rewrite <- (sqrt_square (14 / 10)) by lra; apply sqrt_le_1; lra).
    assert (I : (1 / sqrt 2 <= 5 / 7)%R). { apply Rmult_le_reg_r with (sqrt 2); [lra|]. replace (1 / sqrt 2 * sqrt 2)%R with 1%R by (field; lra). lra. }
    assert (I0 : (0 <= 1 / sqrt 2)%R) by (unfold Rdiv; apply Rmult_le_pos; [lra|left; apply Rinv_0_lt_compat; lra]). change (bpow radix2 (-21)) with (/ IZR 2097152)%R. change (bpow radix2 (-24)) with (/ IZR 16777216)%R. lra.
Qed.
