(** Property theorems C18-C25: drift integration. *)
From Verif Require Import DriftAgree.
From Coq Require Import ZifyBool ZifyNat QArith Qcanon.
Local Open Scope Z_scope.

(** Integers divided exactly are enough for small examples: a number is (sum, denominator-free). *)
Definition ex_spec : mem Z := [1; 2; 3; 4; 50; 60; 70; 80].
Definition ex_mask : mem Z := [0; 1; 2; 4; 7; 0; 6; 1].
(** T = 2, N = 4; drifts +1 (rows shift right) and -1. *)
Definition ex_rates : list rate := map (cpu_rate 2 true) [1; -1].

Lemma ex_small s : In s [1; -1] -> Z.abs s < 2 ^ 22. Proof. cbn. intuition; subst; reflexivity. Qed.
Lemma ex_T : 2 <= 2 <= 2 ^ 24. Proof. split; [lia|]. vm_compute. discriminate. Qed.
Lemma ex_signed : Forall (signed_rate 2) ex_rates.
Proof.
  unfold ex_rates. apply Forall_map, Forall_forall. intros s Hs. apply cpu_rate_signed; [exact ex_T|now apply ex_small].
Qed.
Lemma ex_width s : In s [1; -1] -> width 2 true s = 1.
Proof. cbn. intros [<-|[<-|[]]]; reflexivity. Qed.
Lemma ex_fits : Forall (fits_band 4 2) ex_rates.
Proof.
  unfold ex_rates. apply Forall_map, Forall_forall. intros s Hs. apply cpu_rate_fits; [exact ex_T|now apply ex_small|].
  rewrite ex_width by auto. cbn in Hs. intuition; subst; cbn; lia.
Qed.

(** ** C18 *)
Theorem C18_plane_is_track_average : forall F (fzero : F) fadd fdivz ls lm (spec : mem F) (mask : mem Z) rates T N S M,
  holds ls spec T N S -> holds lm mask T N M -> 0 <= N < 2 ^ 63 ->
  Forall (signed_rate T) rates -> Forall (fits_band N T) rates ->
  exists st, integrate_cpu fzero fadd fdivz ls lm spec mask rates = Ok st /\
    zlen (p_sum st) = zlen rates * N /\
    forall d r f, znth rates d = Some r -> 0 <= f < N ->
      znth (p_sum st) (d * N + f) =
      Some (fdivz (lsum fadd fzero (map (fun tc => fdivz (S (fst tc) (snd tc)) (r_desmear r)) (track N T r f))) T).
Proof.
  intros F fzero fadd fdivz ls lm spec mask rates T N S M H1 H2 H3 H4 H5.
  destruct (cpu_exact fzero fadd fdivz _ _ spec mask rates T N S M H1 H2 H3 H4 H5) as (st & E & Hz & H).
  exists st. split; [exact E|]. split; [apply Hz|]. intros d r f Hd Hf. apply (H d r f Hd Hf).
Qed.
Print Assumptions C18_plane_is_track_average.

(** The track of a drift of the requested grid: the contributing bins are the in-band bins
    (t, f + offset(t) + k) or (t, f + offset(t) - k), t < T, k < desmear. *)
Theorem C18_track_bins : forall N T r f t c, In (t, c) (track N T r f) <->
  exists k, 0 <= t < T /\ 0 <= k < r_desmear r /\ 0 <= c < N /\
    (r_nonneg r = true /\ c = f + r_off r t + k \/ r_nonneg r = false /\ c = f + r_off r t - k /\ - r_span r <= f).
Proof.
  intros N T r f t c. unfold track. rewrite in_map_iff. split.
  - intros ((t' & k) & E & H). apply filter_In in H as (Hin & Hc). apply in_steps in Hin as (Ht & Hk).
    cbn [fst snd] in E. injection E as -> <-. unfold contributes in Hc. cbn [fst snd] in Hc.
    exists k. unfold track_channel in *. destruct (r_nonneg r); lia.
  - intros (k & Ht & Hk & Hc & H). exists (t, k). cbn [fst snd]. unfold track_channel.
    destruct H as [(E & ->)|(E & -> & Hs)]; rewrite E; (split; [reflexivity|]); apply filter_In;
      (split; [apply in_steps; auto|]); unfold contributes, track_channel; cbn [fst snd]; rewrite E; cbn [orb]; lia.
Qed.
Print Assumptions C18_track_bins.

Theorem C18_only_the_track_matters : forall F (fzero : F) fadd fdivz ls ls' lm lm' (spec spec' : mem F) (mask mask' : mem Z) rates T N S S' M M',
  holds ls spec T N S -> holds lm mask T N M -> holds ls' spec' T N S' -> holds lm' mask' T N M' -> 0 <= N < 2 ^ 63 ->
  Forall (signed_rate T) rates -> Forall (fits_band N T) rates ->
  exists st st', integrate_cpu fzero fadd fdivz ls lm spec mask rates = Ok st /\
    integrate_cpu fzero fadd fdivz ls' lm' spec' mask' rates = Ok st' /\
    forall d r f, znth rates d = Some r -> 0 <= f < N ->
      (forall t c, In (t, c) (track N T r f) -> S t c = S' t c) ->
      znth (p_sum st) (d * N + f) = znth (p_sum st') (d * N + f).
Proof.
  intros F fzero fadd fdivz ls ls' lm lm' spec spec' mask mask' rates T N S S' M M' H1 H2 H1' H2' H3 H4 H5.
  destruct (C18_plane_is_track_average F fzero fadd fdivz _ _ spec mask rates T N S M H1 H2 H3 H4 H5) as (st & E & _ & H).
  destruct (C18_plane_is_track_average F fzero fadd fdivz _ _ spec' mask' rates T N S' M' H1' H2' H3 H4 H5) as (st' & E' & _ & H').
  exists st, st'. split; [auto|]. split; [auto|]. intros d r f Hd Hf Heq.
  rewrite (H d r f Hd Hf), (H' d r f Hd Hf). do 3 f_equal. apply map_ext_in. intros (t & c) Hin. cbn [fst snd]. now rewrite (Heq t c Hin).
Qed.
Print Assumptions C18_only_the_track_matters.

(** From the search options to the plane: the real grid, slopes and rounding. *)
Theorem C18_search : forall F (fzero : F) fadd fdivz ls lm (spec : mem F) (mask : mem Z) T N S M low high step desmear,
  holds ls spec T N S -> holds lm mask T N M -> 0 <= N < 2 ^ 63 -> 2 <= T <= 2 ^ 24 ->
  step <> 0 -> 0 < grid_size low high step -> moderate low high step ->
  (forall i, 0 <= i < grid_size low high step ->
     Z.abs (grid_span low step i) + width T desmear (grid_span low step i) - 1 <= N) ->
  exists st, search_drifts_cpu fzero fadd fdivz ls lm spec mask low high step desmear = Ok st /\
    forall i f, 0 <= i < grid_size low high step -> 0 <= f < N ->
      let r := cpu_rate T desmear (grid_span low step i) in
      znth (p_sum st) (i * N + f) =
      Some (fdivz (lsum fadd fzero (map (fun tc => fdivz (S (fst tc) (snd tc)) (r_desmear r)) (track N T r f))) T).
Proof.
  intros F fzero fadd fdivz ls lm spec mask T N S M low high step desmear H1 H2 H3 HT Hs Hn Hm Hw.
  rewrite (search_reduces fzero fadd fdivz ls lm spec mask T N) by (auto; apply H1).
  destruct (C18_plane_is_track_average F fzero fadd fdivz _ _ spec mask (cpu_rates T low high step desmear) T N S M H1 H2 H3) as (st & E & _ & H).
  - unfold cpu_rates. apply Forall_map, Forall_forall. intros i Hi. apply in_zrange in Hi. apply cpu_rate_signed; auto.
  - unfold cpu_rates. apply Forall_map, Forall_forall. intros i Hi. apply in_zrange in Hi. apply cpu_rate_fits; auto.
  - exists st. split; [exact E|]. intros i f Hi Hf. cbv zeta. apply (H i); [|exact Hf].
    unfold cpu_rates, znth. replace (i <? 0) with false by lia. rewrite nth_error_map, nth_error_zrange by auto. reflexivity.
Qed.
Print Assumptions C18_search.

Example C18_plane_is_track_average_example :
  holds (dense [2; 4]) ex_spec 2 4 (fun t c => nth (Z.to_nat (t * 4 + c)) ex_spec 0) /\
  Forall (signed_rate 2) ex_rates /\ Forall (fits_band 4 2) ex_rates.
Proof. split; [apply holds_list; [lia|reflexivity]|]. split; [exact ex_signed|exact ex_fits]. Qed.
Example C18_track_bins_example : track 4 2 (Rate false (fun t => - t) (-1) 1) 3 = [(0, 3); (1, 2)].
Proof. reflexivity. Qed.
Example C18_only_the_track_matters_example : exists S' : Z -> Z -> Z,
  S' 0 0 <> 0 /\ forall t c, In (t, c) (track 4 2 (Rate true (fun t => t) 1 1) 2) -> 0 = S' t c.
Proof. exists (fun t c => if c =? 0 then 9 else 0). split; [discriminate|]. cbn. intros t c [H|[H|[]]]; injection H as <- <-; reflexivity. Qed.
Example C18_search_example : 0 < grid_size (-1) 2 1 /\ moderate (-1) 2 1 /\
  (forall i, 0 <= i < grid_size (-1) 2 1 -> Z.abs (grid_span (-1) 1 i) + width 2 true (grid_span (-1) 1 i) - 1 <= 4).
Proof.
  change (grid_size (-1) 2 1) with 3. split; [lia|]. split.
  - apply moderate_ends; reflexivity.
  - intros i Hi. assert (i = 0 \/ i = 1 \/ i = 2) as [->|[->| ->]] by lia; vm_compute; discriminate.
Qed.

(** A spectrum that is a slice is integrated from the start of the parent buffer. *)
Theorem C18_slice_offset_ignored_refuted : forall F (fzero : F) fadd fdivz ls lm offs (spec : mem F) (mask : mem Z) rates,
  integrate_cpu fzero fadd fdivz (Layout (l_shape ls) (l_strides ls) offs) lm spec mask rates
  = integrate_cpu fzero fadd fdivz ls lm spec mask rates.
Proof. reflexivity. Qed.
Print Assumptions C18_slice_offset_ignored_refuted.
Example C18_slice_offset_ignored_example :
  integrate_cpu 0 Z.add (fun x _ => x) (Layout [1; 2] [4; 1] [0; 2]) (dense [1; 2]) [10; 20; 30; 40] [0; 0] [Rate true (fun _ => 0) 0 1]
  = Ok (Planes [10; 20] [0; 0] [0; 0] [0; 0]) /\ elt [10; 20; 30; 40] (Layout [1; 2] [4; 1] [0; 2]) [0; 0] = Some 30.
Proof. split; vm_compute; reflexivity. Qed.

(** ** C19 *)
Theorem C19_every_access_in_its_row : forall F (fzero : F) (fadd : F -> F -> F) (fdivz : F -> Z -> F) ls lm (spec : mem F) (mask : mem Z) rates T N S M,
  holds ls spec T N S -> holds lm mask T N M -> 0 <= N < 2 ^ 63 ->
  Forall (signed_rate T) rates -> Forall (fits_band N T) rates ->
  forall a, In a (cpu_trace N T ls lm rates) ->
    exists d t f c, 0 <= d < zlen rates /\ 0 <= t < T /\ 0 <= f < N /\ 0 <= c < N /\
      a_plane a = cell (dense [zlen rates; N]) [d; f] /\
      a_spec a = cell ls [t; c] /\ a_mask a = cell lm [t; c].
Proof. exact @cpu_rows. Qed.
Print Assumptions C19_every_access_in_its_row.

(** The search is memory safe exactly when |span| + desmear - 1 <= N for every searched drift. *)
Theorem C19_search_safe : forall F (fzero : F) fadd fdivz ls lm (spec : mem F) (mask : mem Z) T N S M low high step desmear,
  holds ls spec T N S -> holds lm mask T N M -> 0 <= N < 2 ^ 63 -> 2 <= T <= 2 ^ 24 ->
  step <> 0 -> 0 < grid_size low high step -> moderate low high step ->
  (forall i, 0 <= i < grid_size low high step ->
     Z.abs (grid_span low step i) + width T desmear (grid_span low step i) - 1 <= N) ->
  exists st, search_drifts_cpu fzero fadd fdivz ls lm spec mask low high step desmear = Ok st.
Proof.
  intros F fzero fadd fdivz ls lm spec mask T N S M low high step desmear H1 H2 H3 HT Hs Hn Hm Hw.
  destruct (C18_search F fzero fadd fdivz ls lm spec mask T N S M low high step desmear) as (st & E & _); eauto.
Qed.
Print Assumptions C19_search_safe.

Theorem C19_search_out_of_bounds_refuted : forall F (fzero : F) fadd fdivz ls lm (spec : mem F) (mask : mem Z) T N low high step desmear i,
  l_shape ls = [T; N] -> 0 <= N -> grid_size low high step * N < 2 ^ 62 -> 2 <= T <= 2 ^ 24 ->
  step <> 0 -> moderate low high step -> 0 <= i < grid_size low high step ->
  N < Z.abs (grid_span low step i) + width T desmear (grid_span low step i) - 1 ->
  search_drifts_cpu fzero fadd fdivz ls lm spec mask low high step desmear = UB.
Proof.
  intros F fzero fadd fdivz ls lm spec mask T N low high step desmear i Hsh HN HL HT Hs Hm Hi Hw.
  rewrite (search_reduces fzero fadd fdivz ls lm spec mask T N) by (auto; lia).
  set (s := grid_span low step i) in *. assert (Hsm : Z.abs s < 2 ^ 22) by (apply Hm; auto).
  assert (Hlen : zlen (cpu_rates T low high step desmear) = grid_size low high step).
  { unfold cpu_rates, zlen. rewrite map_length. pose proof (zrange_length (grid_size low high step)). unfold zlen in *. lia. }
  pose proof (off_last T s HT Hsm) as Hl. pose proof (width_bound T desmear s (proj1 HT) Hsm) as Hwb. pose proof (width_pos T desmear s) as Hwp.
  assert (P22 : 2 ^ 22 < 2 ^ 31) by reflexivity.
  apply (cpu_unsafe fzero fadd fdivz ls lm spec mask _ T N i (cpu_rate T desmear s) (T - 1) (width T desmear s - 1)); auto.
  - rewrite Hlen. exact HL.
  - unfold cpu_rates. apply Forall_map, Forall_forall. intros j Hj. apply in_zrange in Hj. apply cpu_rate_signed; auto.
  - unfold cpu_rates, znth. replace (i <? 0) with false by lia. rewrite nth_error_map, nth_error_zrange by auto. reflexivity.
  - lia.
  - cbn [cpu_rate r_desmear]. lia.
  - rewrite cpu_rate_off by lia. rewrite Hl. lia.
  - cbn [cpu_rate r_span]. lia.
  - cbn [cpu_rate r_desmear]. lia.
  - apply cpu_rate_misfit; auto.
Qed.
Print Assumptions C19_search_out_of_bounds_refuted.

(** With a single time step the slope is infinite or NaN and its conversion to int undefined. *)
Theorem C19_single_time_step_refuted : forall F (fzero : F) fadd fdivz ls lm (spec : mem F) mask N low high step desmear,
  l_shape ls = [1; N] -> step <> 0 -> 0 < grid_size low high step -> moderate low high step ->
  search_drifts_cpu fzero fadd fdivz ls lm spec mask low high step desmear = UB.
Proof. exact @one_step_undefined. Qed.
Print Assumptions C19_single_time_step_refuted.

Example C19_every_access_in_its_row_example :
  Forall (signed_rate 2) ex_rates /\ Forall (fits_band 4 2) ex_rates /\ zlen (cpu_trace 4 2 (dense [2; 4]) (dense [2; 4]) [Rate true (fun t => t) 1 1]) = 7.
Proof. split; [exact ex_signed|]. split; [exact ex_fits|]. reflexivity. Qed.
Example C19_search_safe_example : 0 < grid_size (-1) 2 1 /\ moderate (-1) 2 1 /\
  (forall i, 0 <= i < grid_size (-1) 2 1 -> Z.abs (grid_span (-1) 1 i) + width 2 true (grid_span (-1) 1 i) - 1 <= 4).
Proof. exact C18_search_example. Qed.
Example C19_search_out_of_bounds_example : moderate 0 6 1 /\ 4 < Z.abs (grid_span 0 1 5) + width 2 false (grid_span 0 1 5) - 1.
Proof. split; [apply moderate_ends; reflexivity|reflexivity]. Qed.
Example C19_single_time_step_example : 0 < grid_size 0 1 1 /\ moderate 0 1 1.
Proof. split; [reflexivity|apply moderate_ends; reflexivity]. Qed.

(** ** C20 *)
Theorem C20_whole_tracks_agree : forall F (fzero : F) fadd fdivz (spec : mem F) (mask : mem Z) junk T N S M rates,
  holds (dense [T; N]) spec T N S -> holds (dense [T; N]) mask T N M -> 0 < T -> 0 <= N < 2 ^ 63 ->
  Forall (signed_rate T) rates -> Forall (fits_band N T) rates ->
  exists st, integrate_cpu fzero fadd fdivz (dense [T; N]) (dense [T; N]) spec mask rates = Ok st /\
  forall blocks bdim m ps, 0 < blocks -> 0 < bdim ->
    gsteps addr_eqb (cuda_init spec mask junk (zlen rates * N), cuda_threads fzero fadd fdivz N T blocks bdim rates) (Ok (m, ps)) ->
    finished ps ->
    forall d r f, znth rates d = Some r -> 0 <= f < N -> 0 < r_desmear r ->
      whole_track N T r f -> (r_nonneg r = true \/ - r_span r <= f) ->
      let i := d * N + f in
      (exact_division fzero fadd fdivz \/ (r_desmear r = 1 /\ forall x, fdivz x 1 = x) ->
         m (BPlane, i) = option_map CF (znth (p_sum st) i)) /\
      m (BLow, i) = option_map CB (znth (p_low st) i) /\
      m (BHigh, i) = option_map CB (znth (p_high st) i) /\
      m (BRoll, i) = option_map CB (znth (p_roll st) i).
Proof. exact @cpu_cuda_agree. Qed.
Print Assumptions C20_whole_tracks_agree.

(** The offsets the two kernels compute from the same float slope: at most one channel apart, and
    equal when T-1 is a power of two and |span|*t < 2^24. *)
Theorem C20_offsets_within_one : forall T s t, 2 <= T <= 2 ^ 24 -> Z.abs s < 2 ^ 22 -> 0 <= t < T ->
  exists a b, cpu_offset (widen (slope T s)) t = Ok a /\ cuda_offset (widen (slope T s)) t = Ok b /\ Z.abs (a - b) <= 1 /\
    (t = 0 \/ t = T - 1 -> a = b).
Proof.
  intros T s t HT Hs Ht. exists (off T s t), (offc T s t).
  split; [now apply cpu_offset_ok|]. split; [now apply cuda_offset_ok|]. split; [now apply off_offc_near|].
  intros [->| ->].
  - now rewrite off_0, offc_0.
  - now rewrite off_last, offc_last.
Qed.
Print Assumptions C20_offsets_within_one.

Theorem C20_offsets_agree_power_of_two : forall T s t j, 2 <= T <= 2 ^ 24 -> Z.abs s < 2 ^ 22 -> 0 <= t < T ->
  0 <= j -> T - 1 = 2 ^ j -> Z.abs s * t < 2 ^ 24 ->
  cpu_offset (widen (slope T s)) t = cuda_offset (widen (slope T s)) t.
Proof.
  intros T s t j HT Hs Ht Hj E Hst. rewrite cpu_offset_ok, cuda_offset_ok by auto. f_equal. now apply (off_offc_pow2 T s HT Hs j).
Qed.
Print Assumptions C20_offsets_agree_power_of_two.

(** Even inside the band the kernels can read different channels: 7 time steps, span 5, step 3. *)
Theorem C20_rounding_refuted : exists T s t, 2 <= T /\ 0 <= t < T /\
  cpu_offset (widen (slope T s)) t = Ok 2 /\ cuda_offset (widen (slope T s)) t = Ok 3.
Proof. exists 7, 5, 3. repeat split; try lia; vm_compute; reflexivity. Qed.
Print Assumptions C20_rounding_refuted.

(** Outside: the CPU divides by the number of time steps, CUDA by the number of bins met. *)
Theorem C20_band_edge_refuted : exists r f,
  track 2 2 r f = [(0, f)] /\ track_in_band 2 2 r f = [(0, f)] /\
  (let S := fun _ _ : Z => Q2Qc 1 in let fdivz := fun (x : Qc) n => Qcdiv x (Q2Qc (inject_Z n)) in
   fdivz (lsum Qcplus (Q2Qc 0) (map (fun tc => fdivz (S (fst tc) (snd tc)) (r_desmear r)) (track 2 2 r f))) 2
   <> cuda_value (Q2Qc 0) Qcplus fdivz 2 2 S r f).
Proof.
  exists (Rate true (fun t => t) 1 1), 1. split; [reflexivity|]. split; [reflexivity|].
  cbv zeta. intros H. apply (f_equal this) in H. vm_compute in H. discriminate.
Qed.
Print Assumptions C20_band_edge_refuted.

(** Desmearing in binary32: sum of thirds against a third of the sum. *)
Theorem C20_float_desmear_refuted : 
  let fdivz := fun (x : f32) n => Bdiv mode_NE x (f32_of_Z n) in
  let fadd := fun x y : f32 => Bplus mode_NE x y in
  exists S r, whole_track 3 1 r 0 /\
   fdivz (lsum fadd (f32_of_Z 0) (map (fun tc => fdivz (S (fst tc) (snd tc)) (r_desmear r)) (track 3 1 r 0))) 1
   <> cuda_value (f32_of_Z 0) fadd fdivz 1 3 S r 0.
Proof.
  cbv zeta. exists (fun _ c => f32_of_Z (nth (Z.to_nat c) [5; 7; 11] 0)), (Rate true (fun _ => 0) 0 3). split.
  - intros t k Ht Hk. unfold track_channel. cbn in *. lia.
  - intros H. apply (f_equal B2SF) in H. vm_compute in H. discriminate.
Qed.
Print Assumptions C20_float_desmear_refuted.

Example C20_whole_tracks_agree_example : exact_division (Q2Qc 0) Qcplus (fun x n => Qcdiv x (Q2Qc (inject_Z n))) /\
  whole_track 4 2 (Rate true (fun t => t) 1 1) 2.
Proof.
  assert (NZ : forall n, 0 < n -> Q2Qc (inject_Z n) <> Q2Qc 0).
  { intros n Hn H. apply Qc_is_canon in H || idtac. 
    assert (E : (inject_Z n == 0)%Q) by (apply Q2Qc_eq_iff; exact H). unfold Qeq, inject_Z in E. cbn in E. lia. }
  split.
  - split; [|split].
    + intros n Hn. unfold Qcdiv. ring.
    + intros a b n Hn. unfold Qcdiv. ring.
    + intros a n m Hn Hm.
      assert (E : Q2Qc (inject_Z (m * n)) = (Q2Qc (inject_Z m) * Q2Qc (inject_Z n))%Qc).
      { apply Qc_is_canon. cbn [this Q2Qc Qcmult]. rewrite !Qred_correct. rewrite inject_Z_mult. reflexivity. }
      rewrite E. field. auto.
  - intros t k Ht Hk. unfold track_channel. cbn in *. lia.
Qed.
Example C20_offsets_within_one_example : 2 <= 16 <= 2 ^ 24 /\ Z.abs (-37) < 2 ^ 22.
Proof. split; [split; [lia|vm_compute; discriminate]|reflexivity]. Qed.
Example C20_offsets_agree_example : 17 - 1 = 2 ^ 4 /\ Z.abs (-37) * 16 < 2 ^ 24. Proof. split; reflexivity. Qed.

(** ** C21 *)
Theorem C21_bland_equals_cpu : forall F (fzero : F) fadd fdivz junkF junkZ ls lm (spec : mem F) (mask : mem Z) rates T N S M,
  holds ls spec T N S -> holds lm mask T N M -> 0 <= N < 2 ^ 31 ->
  Forall (signed_rate T) rates ->
  Forall (fun r => forall t k, 0 <= t < T -> 0 <= k < r_desmear r -> strict_fits N r t k) rates ->
  integrate_bland fzero fadd fdivz junkF junkZ ls lm spec mask rates
  = integrate_cpu fzero fadd fdivz ls lm spec mask rates.
Proof. exact @bland_is_cpu. Qed.
Print Assumptions C21_bland_equals_cpu.
Example C21_bland_equals_cpu_example : Forall (signed_rate 2) ex_rates /\
  Forall (fun r => forall t k, 0 <= t < 2 -> 0 <= k < r_desmear r -> strict_fits 4 r t k) ex_rates.
Proof.
  split; [exact ex_signed|]. unfold ex_rates. apply Forall_map, Forall_forall. intros s Hs t k Ht Hk. unfold strict_fits.
  apply (cpu_rate_fits (4 - 1) 2 true s ex_T (ex_small s Hs)); auto.
  rewrite ex_width by auto. cbn in Hs. intuition; subst; cbn; lia.
Qed.

(** ** C22 *)
Theorem C22_grid : forall T low high step desmear,
  2 <= T <= 2 ^ 24 -> 0 < step -> low <= high -> Z.abs low < 2 ^ 22 -> Z.abs high < 2 ^ 22 ->
  let n := (high - low) / step in
  exists ds, compute_drifts T low high step desmear = Ok ds /\
    zlen ds = n /\
    forall i, 0 <= i < n -> exists d, znth ds i = Some d /\ dr_index d = i /\
      dr_span d = low + i * step /\ low <= dr_span d < high /\
      dr_slope d = widen (Bdiv mode_NE (f32_of_Z (low + i * step)) (f32_of_Z (T - 1))) /\
      (desmear = false -> dr_desmear d = 1) /\
      (desmear = true -> exists w, dr_desmear d = Z.max 1 w /\
         (2 * w - 1) * (T - 1) <= 2 * Z.abs (dr_span d) < (2 * w + 1) * (T - 1)).
Proof.
  intros T low high step desmear HT Hs Hlh Hl Hh n.
  assert (En : grid_size low high step = n). { unfold grid_size, n. apply Z.quot_div_nonneg; lia. }
  assert (Hn : 0 <= n) by (apply Z.div_pos; lia).
  rewrite compute_drifts_ok; [|auto|lia|lia|now apply moderate_ends]. rewrite En. eexists. split; [reflexivity|]. split.
  - unfold zlen. rewrite map_length. pose proof (zrange_length n). unfold zlen in *. lia.
  - intros i Hi. exists (drift_of T low step desmear i). split.
    { unfold znth. replace (i <? 0) with false by lia. rewrite nth_error_map, nth_error_zrange by auto. reflexivity. }
    unfold drift_of. cbn [dr_index dr_span dr_slope dr_desmear]. fold (grid_span low step i). unfold grid_span.
    assert (Hsn : step * n <= high - low) by (apply Z.mul_div_le; lia).
    split; [reflexivity|]. split; [reflexivity|]. split; [nia|]. split; [reflexivity|].
    unfold width. split; intros ->; [reflexivity|]. eexists. split; [reflexivity|]. apply near_spec; lia.
Qed.
Print Assumptions C22_grid.

(** Strictly increasing, so without repetition. *)
Theorem C22_grid_increasing : forall T low high step desmear ds,
  2 <= T <= 2 ^ 24 -> 0 < step -> low <= high -> Z.abs low < 2 ^ 22 -> Z.abs high < 2 ^ 22 ->
  compute_drifts T low high step desmear = Ok ds ->
  forall i j a b, znth ds i = Some a -> znth ds j = Some b -> i < j -> dr_span a < dr_span b.
Proof.
  intros T low high step desmear ds HT Hs Hlh Hl Hh E i j a b Ha Hb Hij.
  destruct (C22_grid T low high step desmear HT Hs Hlh Hl Hh) as (ds' & E' & Hlen & H). rewrite E in E'. injection E' as <-.
  pose proof (znth_len _ _ _ Ha) as Hi. pose proof (znth_len _ _ _ Hb) as Hj. rewrite Hlen in *.
  destruct (H i Hi) as (a' & Ea & _ & Sa & _). destruct (H j Hj) as (b' & Eb & _ & Sb & _).
  assert (a' = a) by congruence. assert (b' = b) by congruence. subst. rewrite Sa, Sb. nia.
Qed.
Print Assumptions C22_grid_increasing.

(** Requests the code cannot serve. *)
Theorem C22_degenerate_requests_refuted : forall F (fzero : F) fadd fdivz T N ls lm (spec : mem F) (mask : mem Z) low high step desmear,
  l_shape ls = [T; N] ->
  (step = 0 -> search_drifts_cpu fzero fadd fdivz ls lm spec mask low high step desmear = UB) /\
  (0 < step -> high <= low - step -> search_drifts_cpu fzero fadd fdivz ls lm spec mask low high step desmear = Throw LogicError) /\
  (0 < step -> low - step < high < low + step -> search_drifts_cpu fzero fadd fdivz ls lm spec mask low high step desmear = UB).
Proof.
  intros F fzero fadd fdivz T N ls lm spec mask low high step desmear Hsh. unfold search_drifts_cpu, compute_drifts. rewrite Hsh.
  split; [intros ->; reflexivity|]. split; intros Hs H.
  - destruct (step =? 0) eqn:E0; [lia|].
    assert (Hq : Z.quot (high - low) step <= -1) by (rewrite <- (Z.opp_involutive (high - low)), Z.quot_opp_l by lia; rewrite Z.quot_div_nonneg by lia;
      assert (1 <= - (high - low) / step) by (apply Z.div_le_lower_bound; lia); lia).
    cbv zeta. destruct (Z.quot (high - low) step <? 0) eqn:E; [reflexivity|lia].
  - destruct (step =? 0) eqn:E0; [lia|].
    assert (Hq : Z.quot (high - low) step = 0) by (apply Z.quot_small_iff; lia).
    cbv zeta. rewrite Hq. reflexivity.
Qed.
Print Assumptions C22_degenerate_requests_refuted.
Definition shown (o : outcome (list drift_rate)) : option (list (Z * Z)) :=
  match o with Ok ds => Some (map (fun d => (dr_span d, dr_desmear d)) ds) | _ => None end.
Example C22_grid_example : shown (compute_drifts 4 (-6) 7 3 true) = Some [(-6, 2); (-3, 1); (0, 1); (3, 1)].
Proof. vm_compute. reflexivity. Qed.
Example C22_grid_increasing_example : shown (compute_drifts 16 (-9) 8 5 false) = Some [(-9, 1); (-4, 1); (1, 1)].
Proof. vm_compute. reflexivity. Qed.
Example C22_degenerate_example : 5 <= 10 - 3 /\ 10 - 7 < 5 < 10 + 7. Proof. lia. Qed.

(** ** C23 *)
Definition good_track (T s : Z) (o : Z -> Z) : Prop :=
  o 0 = 0 /\ o (T - 1) = s /\
  (forall t, 0 <= t < T -> (0 <= s -> 0 <= o t <= s) /\ (s <= 0 -> s <= o t <= 0)) /\
  (forall t u, 0 <= t <= u -> u < T -> (0 <= s -> o t <= o u) /\ (s <= 0 -> o u <= o t)).

Theorem C23_cpu_track : forall T s, 2 <= T <= 2 ^ 24 -> Z.abs s < 2 ^ 22 ->
  exists o, (forall t, 0 <= t < T -> cpu_offset (widen (slope T s)) t = Ok (o t)) /\ good_track T s o /\
    ge_zero (widen (slope T s)) = (0 <=? s).
Proof.
  intros T s HT Hs. exists (off T s). split; [intros; now apply cpu_offset_ok|]. split; [|now apply ge_zero_slope].
  split; [apply off_0|]. split; [now apply off_last|]. split; [intros; now apply off_between|].
  intros t u Htu Hu. split; intros; [apply off_mono|apply off_anti]; auto.
Qed.
Print Assumptions C23_cpu_track.

Theorem C23_cuda_track : forall T s, 2 <= T <= 2 ^ 24 -> Z.abs s < 2 ^ 22 ->
  exists o, (forall t, 0 <= t < T -> cuda_offset (widen (slope T s)) t = Ok (o t)) /\ good_track T s o.
Proof.
  intros T s HT Hs. exists (offc T s). split; [intros; now apply cuda_offset_ok|].
  split; [apply offc_0|]. split; [now apply offc_last|]. split; [intros; now apply offc_between|].
  intros t u Htu Hu. split; intros; [apply offc_mono|apply offc_anti]; auto.
Qed.
Print Assumptions C23_cuda_track.

(** The offset is the ideal line rounded, to within one channel. *)
Example C23_cpu_track_example : map (cpu_offset (widen (slope 5 (-10)))) [0; 1; 2; 3; 4] = map Ok [0; -3; -5; -8; -10].
Proof. vm_compute. reflexivity. Qed.
Example C23_cuda_track_example : map (cuda_offset (widen (slope 7 5))) [0; 1; 2; 3; 4; 5; 6] = map Ok [0; 1; 2; 3; 3; 4; 5].
Proof. vm_compute. reflexivity. Qed.

(** ** C24 *)
Theorem C24_counters : forall F (fzero : F) fadd fdivz ls lm (spec : mem F) (mask : mem Z) rates T N S M,
  holds ls spec T N S -> holds lm mask T N M -> 0 <= N < 2 ^ 63 ->
  Forall (signed_rate T) rates -> Forall (fits_band N T) rates ->
  exists st, integrate_cpu fzero fadd fdivz ls lm spec mask rates = Ok st /\
    forall d r f, znth rates d = Some r -> 0 <= f < N ->
      let bins := track N T r f in
      znth (p_low st) (d * N + f) = Some (flagged flag_low_sk M bins mod 256) /\
      znth (p_high st) (d * N + f) = Some (flagged flag_high_sk M bins mod 256) /\
      znth (p_roll st) (d * N + f) = Some (flagged flag_rolloff M bins mod 256) /\
      (T * r_desmear r <= 255 -> forall flag, flagged flag M bins mod 256 = flagged flag M bins).
Proof.
  intros F fzero fadd fdivz ls lm spec mask rates T N S M H1 H2 H3 H4 H5.
  destruct (cpu_exact fzero fadd fdivz _ _ spec mask rates T N S M H1 H2 H3 H4 H5) as (st & E & Hz & H).
  exists st. split; [exact E|]. intros d r f Hd Hf. destruct (H d r f Hd Hf) as (_ & A & B & C). cbv zeta in *.
  split; [exact A|]. split; [exact B|]. split; [exact C|]. intros Hsmall flag. apply Z.mod_small.
  unfold flagged. set (p := fun tc : Z * Z => _). split; [unfold zlen; lia|].
  assert (L1 : (length (filter p (track N T r f)) <= length (track N T r f))%nat) by apply filter_length_le.
  assert (L2 : (length (track N T r f) <= length (track_steps T r))%nat).
  { unfold track. rewrite map_length. apply filter_length_le. }
  assert (L3 : Z.of_nat (length (track_steps T r)) <= Z.max 0 (T * r_desmear r)).
  { unfold track_steps. rewrite prod_length. pose proof (zrange_length T). pose proof (zrange_length (r_desmear r)). unfold zlen in *. nia. }
  unfold zlen. lia.
Qed.
Print Assumptions C24_counters.

(** 256 flagged bins count as none. *)
Theorem C24_wraparound_refuted : forall F (fzero : F) fadd fdivz (spec : mem F) N S,
  0 < N < 2 ^ 31 -> holds (dense [256; N]) spec 256 N S ->
  exists st, integrate_cpu fzero fadd fdivz (dense [256; N]) (dense [256; N]) spec (map (fun _ => flag_low_sk) (zrange (256 * N)))
      [Rate true (fun _ => 0) 0 1] = Ok st /\
    forall f, 0 <= f < N -> znth (p_low st) f = Some 0 /\
      flagged flag_low_sk (fun _ _ => flag_low_sk) (track N 256 (Rate true (fun _ => 0) 0 1) f) = 256.
Proof.
  intros F fzero fadd fdivz spec N S HN Hsp. set (r := Rate true (fun _ => 0) 0 1).
  assert (Hm : holds (dense [256; N]) (map (fun _ => flag_low_sk) (zrange (256 * N))) 256 N (fun _ _ => flag_low_sk)).
  { assert (Hl : zlen (map (fun _ => flag_low_sk) (zrange (256 * N))) = 256 * N).
    { pose proof (zrange_length (256 * N)). unfold zlen in *. rewrite map_length. lia. }
    destruct (holds_list (map (fun _ => flag_low_sk) (zrange (256 * N))) 256 N flag_low_sk ltac:(lia) Hl) as (A & B & C & D).
    split; [exact A|]. split; [exact B|]. split; [exact C|]. intros t c Ht Hc. rewrite (D t c Ht Hc). f_equal. apply (map_nth (fun _ => flag_low_sk) _ 0). }
  destruct (C24_counters F fzero fadd fdivz _ _ spec _ [r] 256 N S _ Hsp Hm) as (st & E & H).
  - lia.
  - constructor; [|constructor]. intros t Ht. cbn. lia.
  - constructor; [|constructor]. intros t k Ht Hk. unfold fits. cbn in *. lia.
  - exists st. split; [exact E|]. intros f Hf.
    assert (Efl : flagged flag_low_sk (fun _ _ => flag_low_sk) (track N 256 r f) = 256).
    { rewrite track_whole; [|intros t k Ht Hk; unfold track_channel; cbn in *; lia|left; reflexivity]. reflexivity. }
    split; [|exact Efl]. destruct (H 0 r f eq_refl Hf) as (A & _). cbv zeta in A. rewrite Efl in A. exact A.
Qed.
Print Assumptions C24_wraparound_refuted.
Example C24_counters_example : integrate_cpu 0 Z.add (fun x _ => x) (dense [2; 4]) (dense [2; 4]) ex_spec ex_mask [Rate true (fun t => t) 1 1; Rate false (fun t => - t) (-1) 1]
  = Ok (Planes [61; 72; 83; 4; 0; 52; 63; 74] [0; 1; 1; 0; 0; 1; 1; 1] [0; 1; 0; 1; 0; 1; 0; 2] [0; 1; 1; 0; 0; 2; 0; 0]).
Proof. vm_compute. reflexivity. Qed.
Example C24_wraparound_example : holds (dense [256; 1]) (map (fun _ => 7) (zrange 256)) 256 1 (fun t c => nth (Z.to_nat (t * 1 + c)) (map (fun _ => 7) (zrange 256)) 0).
Proof. apply holds_list; [lia|reflexivity]. Qed.

(** ** C25 *)
(** Reachable states: never undefined, never stuck, and complete executions all end in the same
    plane and counters; the values do not mention the launch geometry. *)
Theorem C25_every_schedule : forall F (fzero : F) fadd fdivz (spec : mem F) (mask : mem Z) junk T N S M rates,
  holds (dense [T; N]) spec T N S -> holds (dense [T; N]) mask T N M -> 0 <= N ->
  forall blocks bdim, 0 < blocks -> 0 < bdim ->
  forall o, gsteps addr_eqb (cuda_init spec mask junk (zlen rates * N), cuda_threads fzero fadd fdivz N T blocks bdim rates) o ->
  exists m ps, o = Ok (m, ps) /\
    (finished ps \/ exists c', gstep addr_eqb (m, ps) (Ok c')) /\
    (finished ps -> forall d r f, znth rates d = Some r -> 0 <= f < N ->
       let bins := track_in_band N T r f in
       m (BPlane, d * N + f) = Some (CF (cuda_value fzero fadd fdivz T N S r f)) /\
       m (BLow, d * N + f) = Some (CB (flagged flag_low_sk M bins mod 256)) /\
       m (BHigh, d * N + f) = Some (CB (flagged flag_high_sk M bins mod 256)) /\
       m (BRoll, d * N + f) = Some (CB (flagged flag_rolloff M bins mod 256))).
Proof. exact @cuda_exact. Qed.
Print Assumptions C25_every_schedule.

Theorem C25_terminates : forall F (fzero : F) fadd fdivz (spec : mem F) (mask : mem Z) junk T N S M rates,
  holds (dense [T; N]) spec T N S -> holds (dense [T; N]) mask T N M -> 0 <= N ->
  forall blocks bdim, 0 < blocks -> 0 < bdim ->
  Acc (fun c' c => gstep addr_eqb c (Ok c'))
      (cuda_init spec mask junk (zlen rates * N), cuda_threads fzero fadd fdivz N T blocks bdim rates).
Proof. exact @cuda_terminates. Qed.
Print Assumptions C25_terminates.

Theorem C25_schedules_and_geometries_agree : forall F (fzero : F) fadd fdivz (spec : mem F) (mask : mem Z) junk junk' T N S M rates,
  holds (dense [T; N]) spec T N S -> holds (dense [T; N]) mask T N M -> 0 <= N ->
  forall blocks bdim blocks' bdim' m ps m' ps', 0 < blocks -> 0 < bdim -> 0 < blocks' -> 0 < bdim' ->
  gsteps addr_eqb (cuda_init spec mask junk (zlen rates * N), cuda_threads fzero fadd fdivz N T blocks bdim rates) (Ok (m, ps)) ->
  gsteps addr_eqb (cuda_init spec mask junk' (zlen rates * N), cuda_threads fzero fadd fdivz N T blocks' bdim' rates) (Ok (m', ps')) ->
  finished ps -> finished ps' ->
  forall b i, b <> BSpec -> b <> BMask -> 0 <= i < zlen rates * N -> m (b, i) = m' (b, i).
Proof.
  intros F fzero fadd fdivz spec mask junk junk' T N S M rates Hsp Hm HN blocks bdim blocks' bdim' m ps m' ps' B1 B2 B3 B4 G1 G2 F1 F2 b i Hb1 Hb2 Hi.
  destruct (cuda_exact fzero fadd fdivz spec mask junk T N S M rates Hsp Hm HN blocks bdim B1 B2 _ G1) as (x & y & E & _ & H). injection E as <- <-.
  destruct (cuda_exact fzero fadd fdivz spec mask junk' T N S M rates Hsp Hm HN blocks' bdim' B3 B4 _ G2) as (x & y & E & _ & H'). injection E as <- <-.
  assert (HNp : 0 < N) by (destruct (Z.eq_dec N 0) as [E|E]; [rewrite E, Z.mul_0_r in Hi; lia|lia]). pose proof (Z.div_mod i N ltac:(lia)) as Ed. pose proof (Z.mod_pos_bound i N HNp) as Em.
  assert (Hd : 0 <= i / N < zlen rates) by (split; [apply Z.div_pos; [apply Hi|exact HNp]|apply Z.div_lt_upper_bound; [exact HNp|rewrite Z.mul_comm; apply Hi]]).
  destruct (znth rates (i / N)) as [r|] eqn:Er.
  2:{ unfold znth in Er. destruct (i / N <? 0) eqn:En; [lia|]. apply nth_error_None in Er. unfold zlen in *. lia. }
  specialize (H F1 _ r _ Er Em). specialize (H' F2 _ r _ Er Em). cbv zeta in H, H'.
  replace (i / N * N + i mod N) with i in H, H' by (rewrite Z.mul_comm; exact Ed).
  destruct H as (A & B & C & D), H' as (A' & B' & C' & D'). destruct b; congruence.
Qed.
Print Assumptions C25_schedules_and_geometries_agree.
Example C25_every_schedule_example :
  holds (dense [2; 4]) ex_spec 2 4 (fun t c => nth (Z.to_nat (t * 4 + c)) ex_spec 0) /\
  length (cuda_threads 0 Z.add (fun x n => x / n) 4 2 3 2 ex_rates) = 6%nat.
Proof. split; [apply holds_list; [lia|reflexivity]|reflexivity]. Qed.
Example C25_terminates_example : 0 < 3 /\ holds (dense [2; 4]) ex_mask 2 4 (fun t c => nth (Z.to_nat (t * 4 + c)) ex_mask 0).
Proof. split; [lia|]. apply holds_list; [lia|reflexivity]. Qed.
Example C25_agree_example : 0 <= 5 < zlen ex_rates * 4. Proof. change (zlen ex_rates) with 2. lia. Qed.
