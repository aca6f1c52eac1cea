(** C92: rounding errors of integrated drift planes. *)
From Verif Require Import TypeModel DriftAgree PropDrift PropRed.
From Verif Require Import DriftFloatProofs DsumProofs.
From Coq Require Import ZifyBool Lia Reals Lra Psatz.
From Flocq Require Import Core BinarySingleNaN.
Local Open Scope Z_scope.

(** ** What is expected *)
(** Every power of the spectrum is a number of magnitude at most 2^100. *)
Definition tame (T N : Z) (S : Z -> Z -> f32) : Prop :=
  forall t c, 0 <= t < T -> 0 <= c < N -> is_finite (S t c) = true /\ (Rabs (B2R (S t c)) <= bpow radix2 100)%R.
(** At most 2^21 bins on a track. *)
Definition short_rate (T : Z) (r : rate) : Prop := 1 <= r_desmear r /\ T * r_desmear r <= 2 ^ 21.
Section Exact.
  Local Open Scope R_scope.
  (** The exact sum of the powers, or of their magnitudes, in some bins. *)
  Definition total (S : Z -> Z -> f32) (bins : list (Z * Z)) : R := fold_right (fun tc s => B2R (S (fst tc) (snd tc)) + s) 0 bins.
  Definition total_magnitude (S : Z -> Z -> f32) (bins : list (Z * Z)) : R := fold_right (fun tc s => Rabs (B2R (S (fst tc) (snd tc))) + s) 0 bins.
  (** [v] is the exact average up to a relative error of about 2 * number of bins / 2^24. *)
  Definition close_average (S : Z -> Z -> f32) (bins : list (Z * Z)) (n k : Z) (v : f32) : Prop :=
    is_finite v = true /\
    Rabs (B2R v - total S bins / IZR n) <= (2 * IZR (zlen bins) + 4) * bpow radix2 (-24) * (total_magnitude S bins / IZR n) + IZR k * bpow radix2 (-150).
End Exact.
Notation f0 := (B754_zero false : f32).
Definition fplus (x y : f32) : f32 := Bplus mode_NE x y.
Definition fdiv (x : f32) (n : Z) : f32 := Bdiv mode_NE x (f32_of_Z n).

(** ** Facts *)
Lemma total_vals S bins : rsum (vals (map (fun tc => S (fst tc) (snd tc)) bins)) = total S bins.
Proof. unfold vals, total. induction bins as [|b bins IH]; [reflexivity|]. cbn [map fold_right]. rewrite rsum_cons, IH. reflexivity. Qed.
Lemma magnitude_vals S bins : rabs (vals (map (fun tc => S (fst tc) (snd tc)) bins)) = total_magnitude S bins.
Proof. unfold vals, total_magnitude. induction bins as [|b bins IH]; [reflexivity|]. cbn [map fold_right]. rewrite rabs_cons, IH. reflexivity. Qed.
Lemma magnitude_nonneg S bins : (0 <= total_magnitude S bins)%R.
Proof. rewrite <- magnitude_vals. apply rabs_nonneg. Qed.
Lemma steps_length T r : 0 <= T -> 0 <= r_desmear r -> zlen (track_steps T r) = T * r_desmear r.
Proof. intros HT Hd. unfold track_steps, zlen. rewrite prod_length. pose proof (zrange_length T). pose proof (zrange_length (r_desmear r)). unfold zlen in *. nia. Qed.
Lemma filter_short {A} (p : A -> bool) l : zlen (filter p l) <= zlen l.
Proof. induction l as [|x l IH]; cbn [filter]; [lia|]. destruct (p x); unfold zlen in *; cbn [length]; lia. Qed.
Lemma track_short N T r f : 0 <= T -> 0 <= r_desmear r -> zlen (track N T r f) <= T * r_desmear r.
Proof. intros HT Hd. rewrite <- (steps_length T r HT Hd). unfold track, zlen. rewrite map_length. apply filter_short. Qed.
Lemma band_short N T r f : 0 <= T -> 0 <= r_desmear r -> zlen (track_in_band N T r f) <= T * r_desmear r.
Proof. intros HT Hd. rewrite <- (steps_length T r HT Hd). unfold track_in_band. eapply Z.le_trans; [apply filter_short|]. unfold zlen. rewrite map_length. lia. Qed.
Lemma band_bins N T r f t c : In (t, c) (track_in_band N T r f) -> 0 <= t < T /\ 0 <= c < N.
Proof.
  intros H. apply filter_In in H as (H & B). apply in_map_iff in H as ((t' & k) & E & H). apply in_steps in H as (Ht & _). cbn [fst snd] in *. injection E as <- <-. split; [exact Ht|lia].
Qed.
Lemma tame_bins T N S bins : tame T N S -> (forall t c, In (t, c) bins -> 0 <= t < T /\ 0 <= c < N) ->
  Forall (fun x => is_finite x = true /\ (Rabs (B2R x) <= bpow radix2 100)%R) (map (fun tc => S (fst tc) (snd tc)) bins).
Proof. intros H Hb. apply Forall_map, Forall_forall. intros (t & c) Hi. destruct (Hb t c Hi). now apply H. Qed.
Lemma plane_value T N S r f : 1 <= T -> short_rate T r -> tame T N S -> let bins := track N T r f in
  close_average S bins (r_desmear r * T) (3 * r_desmear r + 1) (fdiv (lsum fplus f0 (map (fun tc => fdiv (S (fst tc) (snd tc)) (r_desmear r)) bins)) T).
Proof.
  intros HT (Hd & Hs) Ht bins. set (xs := map (fun tc => S (fst tc) (snd tc)) bins). assert (L : zlen bins <= T * r_desmear r) by (apply track_short; lia).
  assert (Lx : zlen xs = zlen bins) by (unfold xs, zlen; now rewrite map_length).
  assert (Tm : T <= 2 ^ 21 /\ r_desmear r <= 2 ^ 21) by nia.
  destruct (average32_ok T (r_desmear r) xs ltac:(lia) ltac:(lia) ltac:(lia)) as (A & B).
  { apply (tame_bins T N); [exact Ht|]. intros t c Hi. apply C18_track_bins in Hi as (k & H1 & _ & H3 & _). auto. }
  assert (E : average32 T (r_desmear r) xs = fdiv (lsum fplus f0 (map (fun tc => fdiv (S (fst tc) (snd tc)) (r_desmear r)) bins)) T) by (unfold average32, xs; rewrite map_map; reflexivity).
  rewrite E in A, B. split; [exact A|]. unfold xs in B. rewrite total_vals, magnitude_vals in B. fold xs in B. rewrite <- IZR_len, Lx in B. fold u32 h32.
  assert (T1 : (1 <= IZR T)%R) by (apply IZR_le; lia). assert (D1 : (1 <= IZR (r_desmear r))%R) by (apply IZR_le; lia).
  assert (Q : forall x, (x / IZR (r_desmear r * T) = x / IZR (r_desmear r) / IZR T)%R) by (intros x; rewrite mult_IZR; field; lra). rewrite !Q. eapply Rle_trans; [exact B|]. apply Rplus_le_compat_l. apply Rmult_le_compat_r; [left; apply h32_pos|].
  rewrite plus_IZR, mult_IZR. apply Rplus_le_compat_r. unfold Rdiv. apply Rmult_le_reg_r with (IZR T); [lra|]. rewrite Rmult_assoc, Rinv_l, Rmult_1_r by lra. rewrite <- !mult_IZR. apply IZR_le. lia.
Qed.
Lemma cuda_average T N S r f : 1 <= T -> short_rate T r -> tame T N S -> let bins := track_in_band N T r f in 0 < zlen bins ->
  close_average S bins (zlen bins) 4 (cuda_value f0 fplus fdiv T N S r f).
Proof.
  intros HT (Hd & Hs) Ht bins Hb. set (xs := map (fun tc => S (fst tc) (snd tc)) bins). assert (L : zlen bins <= T * r_desmear r) by (apply band_short; lia).
  assert (Lx : zlen xs = zlen bins) by (unfold xs, zlen; now rewrite map_length).
  destruct (plain_average32_ok xs ltac:(lia)) as (A & B).
  { apply (tame_bins T N); [exact Ht|]. intros t c. apply band_bins. }
  assert (E : plain_average32 (zlen xs) xs = cuda_value f0 fplus fdiv T N S r f). { unfold cuda_value. fold bins. replace (zlen bins =? 0) with false by lia. rewrite Lx. reflexivity. }
  rewrite E in A, B. split; [exact A|]. unfold xs in B. rewrite total_vals, magnitude_vals in B. fold xs in B. rewrite <- IZR_len, Lx in B. exact B.
Qed.

(** ** The plane *)
(** On the CPU each value is close to the average, over all time steps, of the powers on its track. *)
Theorem C92_cpu : forall ls lm spec mask rates T N S M, holds ls spec T N S -> holds lm mask T N M -> 1 <= T -> 0 <= N < 2 ^ 63 -> tame T N S ->
  Forall (signed_rate T) rates -> Forall (fits_band N T) rates -> Forall (short_rate T) rates ->
  exists st, integrate_cpu f0 fplus fdiv ls lm spec mask rates = Ok st /\ zlen (p_sum st) = zlen rates * N /\
    forall d r f, znth rates d = Some r -> 0 <= f < N -> exists v, znth (p_sum st) (d * N + f) = Some v /\
      close_average S (track N T r f) (r_desmear r * T) (3 * r_desmear r + 1) v.
Proof.
  intros ls lm spec mask rates T N S M H1 H2 HT HN Ht Hs Hf Hr. destruct (C18_plane_is_track_average f32 f0 fplus fdiv ls lm spec mask rates T N S M H1 H2 HN Hs Hf) as (st & E & L & H). exists st. split; [exact E|]. split; [exact L|].
  intros d r f Hd Hi. eexists. split; [exact (H d r f Hd Hi)|]. apply plane_value; [exact HT| |exact Ht]. rewrite Forall_forall in Hr. apply Hr. unfold znth in Hd. destruct (d <? 0); [discriminate|]. now apply nth_error_In in Hd.
Qed.
Print Assumptions C92_cpu.
(** The same from the search options on. *)
Theorem C92_search : forall ls lm spec mask T N S M low high step desmear, holds ls spec T N S -> holds lm mask T N M -> 0 <= N < 2 ^ 63 -> 2 <= T <= 2 ^ 24 -> tame T N S ->
  step <> 0 -> 0 < grid_size low high step -> DriftSearchProofs.moderate low high step ->
  (forall i, 0 <= i < grid_size low high step -> let s := grid_span low step i in Z.abs s + width T desmear s - 1 <= N /\ T * width T desmear s <= 2 ^ 21) ->
  exists st, search_drifts_cpu f0 fplus fdiv ls lm spec mask low high step desmear = Ok st /\
    forall i f, 0 <= i < grid_size low high step -> 0 <= f < N -> let r := cpu_rate T desmear (grid_span low step i) in
      exists v, znth (p_sum st) (i * N + f) = Some v /\ close_average S (track N T r f) (r_desmear r * T) (3 * r_desmear r + 1) v.
Proof.
  intros ls lm spec mask T N S M low high step desmear H1 H2 HN HT Ht Hs Hg Hm Hw.
  destruct (C18_search f32 f0 fplus fdiv ls lm spec mask T N S M low high step desmear H1 H2 HN HT Hs Hg Hm) as (st & E & H); [intros i Hi; apply (Hw i Hi)|]. exists st. split; [exact E|].
  intros i f Hi Hf r. eexists. split; [exact (H i f Hi Hf)|]. apply plane_value; [lia| |exact Ht]. split; [|apply (Hw i Hi)]. cbn [cpu_rate r_desmear]. unfold width. destruct desmear; lia.
Qed.
Print Assumptions C92_search.
(** On CUDA, in every schedule, it is close to the average of the powers of the bins met. *)
Theorem C92_cuda : forall spec mask junk rates T N S M, holds (dense [T; N]) spec T N S -> holds (dense [T; N]) mask T N M -> 1 <= T -> 0 <= N -> tame T N S -> Forall (short_rate T) rates ->
  forall blocks bdim m ps, 0 < blocks -> 0 < bdim ->
    gsteps addr_eqb (cuda_init spec mask junk (zlen rates * N), cuda_threads f0 fplus fdiv N T blocks bdim rates) (Ok (m, ps)) -> finished ps ->
    forall d r f, znth rates d = Some r -> 0 <= f < N -> let bins := track_in_band N T r f in 0 < zlen bins ->
      exists v, m (BPlane, d * N + f) = Some (CF v) /\ close_average S bins (zlen bins) 4 v.
Proof.
  intros spec mask junk rates T N S M H1 H2 HT HN Ht Hr blocks bdim m ps Hb Hc Hg Hf d r f Hd Hi bins Hl.
  destruct (C25_every_schedule f32 f0 fplus fdiv spec mask junk T N S M rates H1 H2 HN blocks bdim Hb Hc _ Hg) as (m' & ps' & E & _ & H). injection E as <- <-.
  destruct (H Hf d r f Hd Hi) as (V & _). eexists. split; [exact V|]. apply cuda_average; [exact HT| |exact Ht|exact Hl]. rewrite Forall_forall in Hr. apply Hr. unfold znth in Hd. destruct (d <? 0); [discriminate|]. now apply nth_error_In in Hd.
Qed.
Print Assumptions C92_cuda.
(** Where the whole track lies in the band the two differ by rounding errors only. *)
Theorem C92_backends_close : forall spec mask junk rates T N S M, holds (dense [T; N]) spec T N S -> holds (dense [T; N]) mask T N M -> 1 <= T -> 0 <= N < 2 ^ 63 -> tame T N S ->
  Forall (signed_rate T) rates -> Forall (fits_band N T) rates -> Forall (short_rate T) rates ->
  exists st, integrate_cpu f0 fplus fdiv (dense [T; N]) (dense [T; N]) spec mask rates = Ok st /\
  forall blocks bdim m ps, 0 < blocks -> 0 < bdim ->
    gsteps addr_eqb (cuda_init spec mask junk (zlen rates * N), cuda_threads f0 fplus fdiv N T blocks bdim rates) (Ok (m, ps)) -> finished ps ->
    forall d r f, znth rates d = Some r -> 0 <= f < N -> whole_track N T r f -> (r_nonneg r = true \/ - r_span r <= f) ->
      exists v w, znth (p_sum st) (d * N + f) = Some v /\ m (BPlane, d * N + f) = Some (CF w) /\ is_finite v = true /\ is_finite w = true /\
        let n := T * r_desmear r in
        (Rabs (B2R v - B2R w) <= (4 * IZR n + 8) * bpow radix2 (-24) * (total_magnitude S (track N T r f) / IZR n) + (3 * IZR (r_desmear r) + 5) * bpow radix2 (-150))%R.
Proof.
  intros spec mask junk rates T N S M H1 H2 HT HN Ht Hs Hf Hr. destruct (C92_cpu _ _ spec mask rates T N S M H1 H2 HT HN Ht Hs Hf Hr) as (st & E & _ & H). exists st. split; [exact E|].
  intros blocks bdim m ps Hb Hc Hg Hfin d r f Hd Hi Hw Hsp. assert (R : short_rate T r) by (rewrite Forall_forall in Hr; apply Hr; unfold znth in Hd; destruct (d <? 0); [discriminate|]; now apply nth_error_In in Hd).
  destruct (H d r f Hd Hi) as (v & Ev & Fv & Bv). pose proof (track_whole N T r f Hw Hsp) as Tk. pose proof (band_whole N T r f Hw) as Bd. destruct R as (R1 & R2).
  assert (L : zlen (full_track T r f) = T * r_desmear r) by (apply full_track_len; lia).
  destruct (C92_cuda spec mask junk rates T N S M H1 H2 HT ltac:(lia) Ht Hr blocks bdim m ps Hb Hc Hg Hfin d r f Hd Hi) as (w & Ew & Fw & Bw); [rewrite Bd, L; nia|].
  exists v, w. split; [exact Ev|]. split; [exact Ew|]. split; [exact Fv|]. split; [exact Fw|]. cbv zeta. rewrite Tk in *. rewrite Bd in Bw. rewrite L in *. rewrite (Z.mul_comm (r_desmear r) T) in Bv. set (n := T * r_desmear r) in *.
  rewrite plus_IZR, mult_IZR in Bv. set (x := (total S (full_track T r f) / IZR n)%R) in *. set (a := (total_magnitude S (full_track T r f) / IZR n)%R) in *.
  replace (B2R v - B2R w)%R with ((B2R v - x) + - (B2R w - x))%R by ring. eapply Rle_trans; [apply Rabs_triang|]. rewrite Rabs_Ropp. lra.
Qed.
Print Assumptions C92_backends_close.
(** For powers that are not negative the bound is relative to the average itself. *)
Theorem C92_relative : forall S bins n k v, (forall t c, In (t, c) bins -> (0 <= B2R (S t c))%R) -> close_average S bins n k v ->
  (Rabs (B2R v - total S bins / IZR n) <= (2 * IZR (zlen bins) + 4) * bpow radix2 (-24) * (total S bins / IZR n) + IZR k * bpow radix2 (-150))%R.
Proof.
  intros S bins n k v Hp (_ & B). assert (E : total_magnitude S bins = total S bins); [|rewrite E in B; exact B].
  clear B. unfold total_magnitude, total. induction bins as [|(t & c) bins IH]; [reflexivity|]. cbn [fold_right fst snd]. rewrite Rabs_pos_eq by (apply Hp; now left). rewrite IH by (intros t' c' Hi; apply Hp; now right). reflexivity.
Qed.
Print Assumptions C92_relative.

(** ** A case *)
Definition c92_spec : mem f32 := map f32_of_Z [1; 2; 3; 4; 50; 60; 70; 80].
Definition c92_power (t c : Z) : f32 := nth (Z.to_nat (t * 4 + c)) c92_spec (B754_zero false).
Definition c92_rates : list rate := [Rate true (fun t => t) 1 1; Rate false (fun t => - t) (-1) 1].
Example C92_case : holds (dense [2; 4]) c92_spec 2 4 c92_power /\ tame 2 4 c92_power /\ Forall (signed_rate 2) c92_rates /\ Forall (fits_band 4 2) c92_rates /\ Forall (short_rate 2) c92_rates /\
  (exists r f, In r c92_rates /\ whole_track 4 2 r f /\ r_nonneg r = true) /\
  (let! st := integrate_cpu f0 fplus fdiv (dense [2; 4]) (dense [2; 4]) c92_spec ex_mask c92_rates in
   Ok (map (fun v => trunc_Z (Bmult mode_NE (widen v) (f64_of_Z 10))) (p_sum st))) = Ok [Some 305; Some 360; Some 415; Some 20; Some 0; Some 260; Some 315; Some 370].
Proof.
  split; [apply holds_list; [lia|reflexivity]|]. split; [|split; [|split; [|split; [|split; [|vm_compute; reflexivity]]]]].
  - intros t c Ht Hc. unfold c92_power. assert (X : exists z, 0 <= z <= 80 /\ nth (Z.to_nat (t * 4 + c)) c92_spec (B754_zero false) = f32_of_Z z).
    { assert (In : In (nth (Z.to_nat (t * 4 + c)) c92_spec (B754_zero false)) c92_spec) by (apply nth_In; unfold c92_spec; rewrite map_length; cbn [length]; lia).
      unfold c92_spec at 2 in In. apply in_map_iff in In as (z & E & Hz). exists z. split; [cbn in Hz; lia|now symmetry]. }
    destruct X as (z & Hz & ->). destruct (f32_of_Z_ok z ltac:(lia)) as (V & F). split; [exact F|]. rewrite V, Rabs_pos_eq by (apply IZR_le; lia).
    apply Rle_trans with (bpow radix2 7); [|apply bpow_le; lia]. rewrite <- (IZR_pow2 7) by lia. apply IZR_le. lia.
  - repeat (apply Forall_cons || apply Forall_nil); intros t Ht; cbn; lia.
  - repeat (apply Forall_cons || apply Forall_nil); intros t k Ht Hk; unfold fits; cbn in *; lia.
  - repeat (apply Forall_cons || apply Forall_nil); unfold short_rate; cbn [r_desmear]; lia.
  - exists (Rate true (fun t => t) 1 1), 1. split; [now left|]. split; [|reflexivity]. intros t k Ht Hk. unfold track_channel. cbn in *. lia.
Qed.
Example C92_search_case : 0 < grid_size (-1) 2 1 /\ DriftSearchProofs.moderate (-1) 2 1 /\
  (forall i, 0 <= i < grid_size (-1) 2 1 -> let s := grid_span (-1) 1 i in Z.abs s + width 2 true s - 1 <= 4 /\ 2 * width 2 true s <= 2 ^ 21).
Proof.
  destruct C18_search_example as (A & B & C). split; [exact A|]. split; [exact B|]. intros i Hi s. split; [exact (C i Hi)|]. unfold s. change (grid_size (-1) 2 1) with 3 in Hi.
  assert (i = 0 \/ i = 1 \/ i = 2) as [-> |[-> | ->]] by lia; vm_compute; discriminate.
Qed.
