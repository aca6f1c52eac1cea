(** The drift grid and the whole CPU drift search, from the requested range to the plane. *)
From Verif Require Export DriftFloatProofs DriftProofs.
From Coq Require Import ZifyBool ZifyNat.
Local Open Scope Z_scope.

Lemma mapM_ok {A B} (f : A -> outcome B) (g : A -> B) l : (forall x, In x l -> f x = Ok (g x)) -> mapM f l = Ok (map g l).
Proof.
  induction l as [|x l IH]; intros H; [reflexivity|]. cbn. rewrite (H x) by (left; reflexivity). cbn.
  rewrite IH by (intros; apply H; now right). reflexivity.
Qed.

Lemma mapM_map {A B C} (f : B -> outcome C) (g : A -> B) l : mapM f (map g l) = mapM (fun x => f (g x)) l.
Proof. induction l as [|x l IH]; [reflexivity|]. cbn. now rewrite IH. Qed.

(** Number of drifts asked for. *)
Definition grid_size (low high step : Z) : Z := Z.quot (high - low) step.
Definition grid_span (low step i : Z) : Z := low + i * step.
Definition width (T : Z) (desmear : bool) (s : Z) : Z := if desmear then Z.max 1 (near (Z.abs s) (T - 1)) else 1.

(** All spans are small enough for exact float conversion. *)
Definition moderate (low high step : Z) : Prop :=
  forall i, 0 <= i < grid_size low high step -> Z.abs (grid_span low step i) < 2 ^ 22.

Lemma moderate_ends low high step : 0 < step -> Z.abs low < 2 ^ 22 -> Z.abs high < 2 ^ 22 -> moderate low high step.
Proof.
  intros Hs Hl Hh i Hi. unfold grid_span, grid_size in *.
  assert (0 <= high - low). { destruct (Z_lt_le_dec (high - low) 0) as [H|H]; [|auto].
    assert (Z.quot (high - low) step <= 0) by (apply Z.quot_le_upper_bound; lia). lia. }
  rewrite Z.quot_div_nonneg in Hi by lia.
  assert (step * ((high - low) / step) <= high - low) by (apply Z.mul_div_le; lia). nia.
Qed.

Definition drift_of (T low step : Z) (desmear : bool) (i : Z) : drift_rate :=
  let s := grid_span low step i in DriftRate i (widen (slope T s)) s (width T desmear s).

Theorem compute_drifts_ok T low high step desmear :
  2 <= T <= 2 ^ 24 -> step <> 0 -> 0 <= grid_size low high step -> moderate low high step ->
  compute_drifts T low high step desmear = Ok (map (drift_of T low step desmear) (zrange (grid_size low high step))).
Proof.
  intros HT Hs Hn Hm. unfold compute_drifts. fold (grid_size low high step).
  destruct (step =? 0) eqn:E0; [lia|]. destruct (grid_size low high step <? 0) eqn:E1; [lia|].
  apply mapM_ok. intros i Hi. apply in_zrange in Hi. specialize (Hm i Hi). unfold one_drift, drift_of.
  fold (grid_span low step i). set (s := grid_span low step i) in *.
  assert (Ei : to_int32 s = s).
  { unfold to_int32. assert (2 ^ 22 < 2 ^ 31) by reflexivity.
    rewrite Z.mod_small; lia. }
  unfold width. destruct desmear.
  - rewrite desmear_width_ok by auto. cbn. now rewrite Ei.
  - cbn. now rewrite Ei.
Qed.

(** The rate the CPU kernel sees for span [s]. *)
Definition cpu_rate (T : Z) (desmear : bool) (s : Z) : rate :=
  Rate (0 <=? s) (fun t => nth (Z.to_nat t) (map (off T s) (zrange T)) 0) s (width T desmear s).

Lemma cpu_rate_off T desmear s t : 0 <= t < T -> r_off (cpu_rate T desmear s) t = off T s t.
Proof.
  intros Ht. cbn. erewrite nth_error_nth; [reflexivity|].
  rewrite nth_error_map, nth_error_zrange by lia. reflexivity.
Qed.

Lemma kernel_rate_ok T low step desmear i : 2 <= T <= 2 ^ 24 -> Z.abs (grid_span low step i) < 2 ^ 22 ->
  kernel_rate cpu_offset T (drift_of T low step desmear i) = Ok (cpu_rate T desmear (grid_span low step i)).
Proof.
  intros HT Hs. unfold kernel_rate, drift_of. cbn [dr_slope dr_span dr_desmear].
  rewrite (mapM_ok _ (off T (grid_span low step i))).
  - cbn. rewrite ge_zero_slope by auto. reflexivity.
  - intros t Ht. apply in_zrange in Ht. apply cpu_offset_ok; auto.
Qed.

Lemma cpu_rate_signed T desmear s : 2 <= T <= 2 ^ 24 -> Z.abs s < 2 ^ 22 -> signed_rate T (cpu_rate T desmear s).
Proof.
  intros HT Hs t Ht. rewrite cpu_rate_off by auto. cbn [cpu_rate r_nonneg r_span].
  destruct (off_between T s HT Hs t Ht) as (A & B). destruct (0 <=? s) eqn:E; lia.
Qed.

(** A rate fits exactly when its last desmearing bin does, at the last time step. *)
Lemma cpu_rate_fits N T desmear s : 2 <= T <= 2 ^ 24 -> Z.abs s < 2 ^ 22 -> 
  Z.abs s + width T desmear s - 1 <= N -> fits_band N T (cpu_rate T desmear s).
Proof.
  intros HT Hs Hw t k Ht Hk. unfold fits. rewrite cpu_rate_off by auto. cbn [cpu_rate r_nonneg r_span r_desmear] in *.
  destruct (off_between T s HT Hs t Ht) as (A & B). destruct (0 <=? s) eqn:E; lia.
Qed.

Lemma cpu_rate_misfit N T desmear s : 2 <= T <= 2 ^ 24 -> Z.abs s < 2 ^ 22 ->
  N < Z.abs s + width T desmear s - 1 -> ~ fits N (cpu_rate T desmear s) (T - 1) (width T desmear s - 1).
Proof.
  intros HT Hs Hw. unfold fits. rewrite cpu_rate_off by lia. cbn [cpu_rate r_nonneg r_span].
  rewrite off_last by auto. destruct (0 <=? s) eqn:E; lia.
Qed.

Lemma width_pos T desmear s : 1 <= width T desmear s.
Proof. unfold width. destruct desmear; lia. Qed.

Lemma width_bound T desmear s : 2 <= T -> Z.abs s < 2 ^ 22 -> width T desmear s <= 2 ^ 22.
Proof.
  intros HT Hs. unfold width. destruct desmear; [|lia].
  pose proof (proj1 (near_spec (Z.abs s) (T - 1) _ ltac:(lia)) eq_refl). nia.
Qed.

Definition cpu_rates (T low high step : Z) (desmear : bool) : list rate :=
  map (fun i => cpu_rate T desmear (grid_span low step i)) (zrange (grid_size low high step)).

Lemma zrange_pos n : 0 < n -> zrange n <> [].
Proof. intros H E. assert (H0 : In 0 (zrange n)) by (apply in_zrange; lia). rewrite E in H0. exact H0. Qed.

Lemma search_reduces {F} (fzero : F) fadd fdivz ls lm (spec : mem F) (mask : mem Z) T N low high step desmear :
  l_shape ls = [T; N] -> 2 <= T <= 2 ^ 24 -> step <> 0 -> 0 < grid_size low high step -> moderate low high step ->
  search_drifts_cpu fzero fadd fdivz ls lm spec mask low high step desmear
  = integrate_cpu fzero fadd fdivz ls lm spec mask (cpu_rates T low high step desmear).
Proof.
  intros Hsh HT Hs Hn Hm. unfold search_drifts_cpu. rewrite Hsh, compute_drifts_ok by (auto; lia). cbn [obind].
  destruct (map (drift_of T low step desmear) (zrange (grid_size low high step))) as [|d0 ds] eqn:E.
  { apply map_eq_nil in E. apply zrange_pos in Hn. congruence. }
  rewrite <- E. clear E d0 ds.
  assert (Em : mapM (kernel_rate cpu_offset T) (map (drift_of T low step desmear) (zrange (grid_size low high step)))
               = Ok (cpu_rates T low high step desmear)).
  { unfold cpu_rates. rewrite mapM_map. apply mapM_ok. intros i Hi. apply in_zrange in Hi. apply kernel_rate_ok; auto. }
  rewrite Em. reflexivity.
Qed.
