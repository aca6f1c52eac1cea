(** Consequences of the kernel theorems: whole tracks, CPU against CUDA, one time step. *)
From Verif Require Export CudaOffsetProofs CudaDriftProofs BlandDriftProofs.
From Coq Require Import ZifyBool ZifyNat.
Local Open Scope Z_scope.

(** A list as a dense array. *)
Lemma holds_list {V} (l : mem V) T N d : 0 <= N -> zlen l = T * N ->
  holds (dense [T; N]) l T N (fun t c => nth (Z.to_nat (t * N + c)) l d).
Proof.
  intros HN Hl. split; [reflexivity|]. split; [split; reflexivity|]. split; [repeat constructor|].
  intros t c Ht Hc. unfold elt, cell, dense. cbn. unfold znth.
  replace (0 + t * (1 * N) + (0 + c * 1 + 0)) with (t * N + c) by ring || idtac.
  assert (Hb : 0 <= t * N + c < T * N) by nia.
  match goal with |- context [?e <? 0] => replace e with (t * N + c) by ring end.
  replace (t * N + c <? 0) with false by lia. apply nth_error_nth'. unfold zlen in Hl. lia.
Qed.

Lemma filter_all {A} (p : A -> bool) l : (forall x, In x l -> p x = true) -> filter p l = l.
Proof.
  induction l as [|x l IH]; intros H; [reflexivity|]. cbn. rewrite (H x) by (now left). f_equal. apply IH. intros; apply H; now right.
Qed.

Lemma filter_length_le {A} (p : A -> bool) l : (length (filter p l) <= length l)%nat.
Proof. induction l as [|x l IH]; cbn; [lia|]. destruct (p x); cbn; lia. Qed.

Lemma in_steps T r t k : In (t, k) (track_steps T r) <-> 0 <= t < T /\ 0 <= k < r_desmear r.
Proof. unfold track_steps. rewrite in_prod_iff, !in_zrange. tauto. Qed.

Definition full_track (T : Z) (r : rate) (f : Z) : list (Z * Z) :=
  map (fun tk => (fst tk, track_channel r f (fst tk) (snd tk))) (track_steps T r).

Lemma track_whole N T r f : whole_track N T r f -> (r_nonneg r = true \/ - r_span r <= f) ->
  track N T r f = full_track T r f.
Proof.
  intros Hw Hs. unfold track, full_track. f_equal. apply filter_all. intros (t & k) H. apply in_steps in H as (Ht & Hk).
  unfold contributes. cbn [fst snd]. specialize (Hw t k Ht Hk). destruct (r_nonneg r); lia.
Qed.

Lemma band_whole N T r f : whole_track N T r f -> track_in_band N T r f = full_track T r f.
Proof.
  intros Hw. unfold track_in_band. apply filter_all. intros (t & c) H. apply in_map_iff in H as ((t' & k) & E & H).
  apply in_steps in H as (Ht & Hk). cbn [fst snd] in E. injection E as <- <-. cbn [snd]. specialize (Hw t' k Ht Hk). lia.
Qed.

Lemma full_track_len T r f : 0 <= T -> 0 <= r_desmear r -> zlen (full_track T r f) = T * r_desmear r.
Proof.
  intros HT Hd. unfold full_track, track_steps, zlen. rewrite map_length, prod_length.
  pose proof (zrange_length T). pose proof (zrange_length (r_desmear r)). unfold zlen in *. lia.
Qed.

(** Summing shares is sharing the sum, when division distributes. *)
Lemma lsum_div {F} (fzero : F) fadd (fdivz : F -> Z -> F) n l :
  (fdivz fzero n = fzero) -> (forall a b, fadd (fdivz a n) (fdivz b n) = fdivz (fadd a b) n) ->
  lsum fadd fzero (map (fun x => fdivz x n) l) = fdivz (lsum fadd fzero l) n.
Proof.
  intros Hz Hd. unfold lsum.
  assert (G : forall acc, fold_left fadd (map (fun x => fdivz x n) l) (fdivz acc n) = fdivz (fold_left fadd l acc) n).
  { induction l as [|x l IH]; intros acc; [reflexivity|]. cbn. rewrite Hd. apply IH. }
  rewrite <- Hz at 1. apply G.
Qed.

(** Division as in the rationals or the reals. *)
Definition exact_division {F} (fzero : F) (fadd : F -> F -> F) (fdivz : F -> Z -> F) : Prop :=
  (forall n, 0 < n -> fdivz fzero n = fzero) /\
  (forall a b n, 0 < n -> fadd (fdivz a n) (fdivz b n) = fdivz (fadd a b) n) /\
  (forall a n m, 0 < n -> 0 < m -> fdivz (fdivz a n) m = fdivz a (m * n)).

Lemma values_agree {F} (fzero : F) fadd fdivz T N S r f :
  0 < T -> 0 < r_desmear r -> whole_track N T r f -> (r_nonneg r = true \/ - r_span r <= f) ->
  (exact_division fzero fadd fdivz \/ (r_desmear r = 1 /\ forall x, fdivz x 1 = x)) ->
  fdivz (lsum fadd fzero (map (fun tc => fdivz (S (fst tc) (snd tc)) (r_desmear r)) (track N T r f))) T
  = cuda_value fzero fadd fdivz T N S r f.
Proof.
  intros HT Hd Hw Hs Hdiv. unfold cuda_value. rewrite (track_whole N T r f Hw Hs), (band_whole N T r f Hw).
  rewrite full_track_len by lia. cbv zeta. replace (T * r_desmear r =? 0) with false by nia.
  destruct Hdiv as [(D1 & D2 & D3)|(E & D)].
  - rewrite <- (map_map (fun tc => S (fst tc) (snd tc)) (fun x => fdivz x (r_desmear r))).
    rewrite lsum_div by (intros; auto). now rewrite D3.
  - rewrite E, Z.mul_1_r. do 2 f_equal. apply map_ext. intros x. apply D.
Qed.

(** CPU and CUDA on the same rates: counters always, values whenever dividing early or late is the same. *)
Theorem cpu_cuda_agree {F} (fzero : F) fadd fdivz (spec : mem F) (mask : mem Z) junk T N S M rates :
  holds (dense [T; N]) spec T N S -> holds (dense [T; N]) mask T N M -> 0 < T -> 0 <= N < 2 ^ 63 ->
  Forall (signed_rate T) rates -> Forall (fits_band N T) rates ->
  exists st, integrate_cpu fzero fadd fdivz (dense [T; N]) (dense [T; N]) spec mask rates = Ok st /\
  forall blocks bdim m ps, 0 < blocks -> 0 < bdim ->
    gsteps addr_eqb (cuda_init spec mask junk (zlen rates * N), cuda_threads fzero fadd fdivz N T blocks bdim rates) (Ok (m, ps)) ->
    finished ps ->
    forall d r f, znth rates d = Some r -> 0 <= f < N -> 0 < r_desmear r ->
      whole_track N T r f -> (r_nonneg r = true \/ - r_span r <= f) ->
      let i := d * N + f in
      (exact_division fzero fadd fdivz \/ (r_desmear r = 1 /\ forall x, fdivz x 1 = x) ->
         m (BPlane, i) = option_map CF (znth (p_sum st) i)) /\
      m (BLow, i) = option_map CB (znth (p_low st) i) /\
      m (BHigh, i) = option_map CB (znth (p_high st) i) /\
      m (BRoll, i) = option_map CB (znth (p_roll st) i).
Proof.
  intros Hsp Hm HT HN Hs Hf.
  destruct (cpu_exact fzero fadd fdivz _ _ spec mask rates T N S M Hsp Hm HN Hs Hf) as (st & E & _ & Hst).
  exists st. split; [exact E|]. intros blocks bdim m ps Hb Hd Hg Hfin d r f Hdr Hfr Hde Hw Hor.
  destruct (cuda_exact fzero fadd fdivz spec mask junk T N S M rates Hsp Hm (proj1 HN) blocks bdim Hb Hd _ Hg) as (m' & ps' & E' & _ & Hc).
  injection E' as <- <-. specialize (Hc Hfin d r f Hdr Hfr). specialize (Hst d r f Hdr Hfr). cbv zeta in *.
  destruct Hst as (S1 & S2 & S3 & S4). destruct Hc as (C1 & C2 & C3 & C4).
  rewrite C1, C2, C3, C4, S1, S2, S3, S4, (track_whole N T r f Hw Hor), (band_whole N T r f Hw). cbn [option_map].
  split; [|auto]. intros Hdiv. do 2 f_equal. rewrite <- (values_agree fzero fadd fdivz T N S r f); auto.
  now rewrite (track_whole N T r f Hw Hor).
Qed.

(** ** One time step: the slope is 0/0 or s/0 and the rounding of the offset is undefined. *)
Lemma slope_one s : Z.abs s <= 2 ^ 24 -> slope 1 s = B754_nan \/ exists b, slope 1 s = B754_infinity b.
Proof.
  intros H. destruct (f32_of_Z_ok s H) as (_ & Hf). unfold slope. change (f32_of_Z (1 - 1)) with (B754_zero false : f32).
  destruct (f32_of_Z s) as [b|b| |b m e Hb]; cbn [is_finite] in Hf; try discriminate; cbn; eauto.
Qed.

Lemma one_step_drifts desmear low step l : (forall i, In i l -> Z.abs (low + i * step) <= 2 ^ 24) ->
  mapM (fun i => one_drift 1 desmear i (low + i * step)) l = UB \/
  exists ds, mapM (fun i => one_drift 1 desmear i (low + i * step)) l = Ok ds /\ length ds = length l /\
    Forall (fun d => cpu_offset (dr_slope d) 0 = UB) ds.
Proof.
  induction l as [|i l IH]; intros H; [right; exists []; auto|].
  destruct IH as [E|(ds & E & El & Ef)]; [intros; apply H; now right| |]; cbn [mapM]; rewrite E.
  - left. destruct (one_drift _ _ _ _) eqn:Eo; [reflexivity| |reflexivity].
    exfalso. unfold one_drift in Eo. destruct desmear; [|discriminate].
    destruct (slope_one (low + i * step)) as [Es|(b & Es)]; [apply H; now left| |]; rewrite Es in Eo; discriminate.
  - unfold one_drift at 1 2. destruct (slope_one (low + i * step)) as [Es|(b & Es)]; [apply H; now left| |]; rewrite Es.
    + right. destruct desmear; cbn; eexists; split; try reflexivity; cbn; split; auto; constructor; auto.
    + destruct desmear; cbn; [left; reflexivity|]. right. eexists; split; [reflexivity|]. cbn. split; auto.
Qed.

Theorem one_step_undefined {F} (fzero : F) fadd fdivz ls lm (spec : mem F) mask N low high step desmear :
  l_shape ls = [1; N] -> step <> 0 -> 0 < grid_size low high step -> moderate low high step ->
  search_drifts_cpu fzero fadd fdivz ls lm spec mask low high step desmear = UB.
Proof.
  intros Hsh Hs Hn Hm. unfold search_drifts_cpu. rewrite Hsh. unfold compute_drifts. fold (grid_size low high step).
  destruct (step =? 0) eqn:E0; [lia|]. destruct (grid_size low high step <? 0) eqn:E1; [lia|].
  destruct (one_step_drifts desmear low step (zrange (grid_size low high step))) as [E|(ds & E & El & Ef)].
  - intros i Hi. apply in_zrange in Hi. specialize (Hm i Hi). unfold grid_span in Hm.
    assert (2 ^ 22 < 2 ^ 24) by reflexivity. lia.
  - rewrite E. reflexivity.
  - rewrite E. cbn [obind]. destruct ds as [|d ds]; [reflexivity|]. inversion Ef as [|? ? Hd _]; subst.
    cbn [mapM]. unfold kernel_rate at 1. change (zrange 1) with [0]. cbn [mapM]. rewrite Hd. reflexivity.
Qed.
