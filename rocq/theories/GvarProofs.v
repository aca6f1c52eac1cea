(** Rounding errors of the GPU's variances and deviations. *)
From Verif Require Import GvarModel PropGred GredKernels GaccRel KurtProofs DriftFloatProofs.
From Coq Require Import ZifyBool ZifyNat Lia Permutation Reals Lra Psatz.
From Flocq Require Import Core BinarySingleNaN Plus_error Relative.
From Verif Require Import FsumFacts FsumProofs GaccProofs.
Local Open Scope R_scope.

(** Without contraction the kernels are those of GredKernels.v. *)
Lemma uncontracted rf :
  gv_var false false rf = gk_var ops32 relu32 rf /\ gv_stddev false false rf = gk_stddev ops32 root32 relu32 rf /\ gv_mean_stddev false false rf = gk_mean_stddev ops32 root32 relu32 rf /\
  gv_mvar false false = gk_mvar ops32 relu32 /\ gv_mstddev false false = gk_mstddev ops32 root32 relu32 /\ gv_mmean_stddev false false = gk_mmean_stddev ops32 root32 relu32.
Proof. repeat split; reflexivity. Qed.

Notation h150 := (bpow radix2 (-150)).
Definition sqs (l : list f32) : list R := map (fun x => x * x) (vals l).
Definition near_square (x v : R) : Prop := Rabs (v - x * x) <= / 16777216 * (x * x) + h150.
Lemma sqs_app l l' : sqs (l ++ l') = sqs l ++ sqs l'. Proof. unfold sqs. now rewrite vals_app, map_app. Qed.
Lemma sqs_abs l : rabs (sqs l) = rsum (sqs l). Proof. apply rabs_squares. Qed.
Lemma sqs_pos l : 0 <= rsum (sqs l). Proof. rewrite <- sqs_abs. apply rabs_nonneg. Qed.
(** Elements whose squares can be added. *)
Definition squarable (l : list f32) : Prop := finite_list l /\ rsum (sqs l) <= bpow radix2 122.
Lemma squarable_app l l' : squarable (l ++ l') -> squarable l /\ squarable l'.
Proof. intros (F & B). apply Forall_app in F as (F1 & F2). rewrite sqs_app, rsum_app in B. pose proof (sqs_pos l). pose proof (sqs_pos l'). repeat split; auto; lra. Qed.

Lemma fma_ok (a b c : f32) : is_finite a = true -> is_finite b = true -> is_finite c = true -> Rabs (B2R a * B2R b + B2R c) <= bpow radix2 127 ->
  is_finite (Bfma mode_NE a b c) = true /\ B2R (Bfma mode_NE a b c) = rnd (B2R a * B2R b + B2R c).
Proof.
  intros Fa Fb Fc H. pose proof (Bfma_correct 24 128 prec24 emax128 mode_NE a b c Fa Fb Fc) as C. cbv zeta in C. change (round_mode mode_NE) with ZnearestE in C. rewrite Rlt_bool_true in C by (apply rng, H). tauto.
Qed.
Lemma h_small : 0 < h150 <= / 16777216.
Proof. split; [apply bpow_gt_0|]. change (/ 16777216) with (bpow radix2 (-24)). apply bpow_le. lia. Qed.
Lemma h_range : h150 <= bpow radix2 120. Proof. apply bpow_le. lia. Qed.

(** The difference of the square and the compensation is that of a nearby number, contracted or not. *)
Lemma square_less_ok cx (x c : f32) : is_finite x = true -> B2R x * B2R x <= bpow radix2 122 -> exists v, near_square (B2R x) v /\
  (is_finite c = true -> Rabs (v - B2R c) <= bpow radix2 126 -> is_finite (square_less cx x c) = true /\ exists e, Rabs e <= / 16777216 /\ B2R (square_less cx x c) = (v - B2R c) * (1 + e)).
Proof.
  intros Fx Bx. assert (X0 : 0 <= B2R x * B2R x) by nra. assert (P126 : bpow radix2 127 = 2 * bpow radix2 126) by (change 127%Z with (1 + 126)%Z; rewrite bpow_plus; reflexivity).
  assert (L : bpow radix2 122 <= bpow radix2 126) by (apply bpow_le; lia). assert (L' : bpow radix2 120 <= bpow radix2 126) by (apply bpow_le; lia). pose proof h_range as HR. pose proof h_small as HS.
  destruct cx; cbn [square_less].
  - destruct (is_finite c) eqn:Fc.
    + destruct (rnd_parts (B2R x * B2R x - B2R c)) as (e & h & He & Hh & EH & Er). apply eps_u in He. exists (B2R x * B2R x + h). split.
      * unfold near_square. replace (B2R x * B2R x + h - B2R x * B2R x) with h by ring. nra.
      * intros _ B. assert (Fo : is_finite (Bopp c) = true) by (now rewrite is_finite_Bopp). assert (Vo : B2R (Bopp c) = - B2R c) by apply B2R_Bopp.
        assert (B' : Rabs (B2R x * B2R x + - B2R c) <= bpow radix2 127). { replace (B2R x * B2R x + - B2R c) with ((B2R x * B2R x + h - B2R c) + - h) by ring. pose proof (Rabs_triang (B2R x * B2R x + h - B2R c) (- h)) as T. rewrite Rabs_Ropp in T. lra. }
        destruct (fma_ok x x (Bopp c) Fx Fx Fo) as (F & V); [now rewrite Vo|]. split; [exact F|]. exists e. split; [exact He|]. rewrite V, Vo. change (B2R x * B2R x + - B2R c) with (B2R x * B2R x - B2R c). rewrite Er.
        replace ((B2R x * B2R x + h - B2R c) * (1 + e)) with ((B2R x * B2R x - B2R c) * (1 + e) + h + e * h) by ring. rewrite EH. ring.
    + exists (B2R x * B2R x). split; [|discriminate]. unfold near_square. rewrite Rminus_eq_0, Rabs_R0. nra.
  - destruct (mult_ok x x Fx Fx) as (F & V); [rewrite Rabs_pos_eq by exact X0; lra|]. exists (B2R (Bmult mode_NE x x)). split.
    + unfold near_square. rewrite V. destruct (rnd_parts (B2R x * B2R x)) as (e & h & He & Hh & _ & Er). apply eps_u in He. rewrite Er. pose proof (abs_mul (B2R x * B2R x) e _ He) as P1. rewrite (Rabs_pos_eq (B2R x * B2R x)) in P1 by exact X0.
      replace (B2R x * B2R x * (1 + e) + h - B2R x * B2R x) with (B2R x * B2R x * e + h) by ring. pose proof (Rabs_triang (B2R x * B2R x * e) h). lra.
    + intros Fc B. apply sub_rel; auto. lra.
Qed.

(** ** One thread *)
Lemma near_squares_sum : forall xs vs, Forall2 near_square xs vs -> let q := rsum (map (fun x => x * x) xs) in
  Rabs (rsum vs - q) <= / 16777216 * q + INR (length xs) * h150 /\ rabs vs <= (1 + / 16777216) * q + INR (length xs) * h150 /\ length vs = length xs.
Proof.
  induction 1 as [|x v xs vs H HF IH]; cbv zeta in *.
  - cbn [map length INR]. rewrite rsum_nil, rabs_nil, Rminus_0_r, Rabs_R0. repeat split; lra.
  - destruct IH as (I1 & I2 & I3). cbn [map length]. rewrite !rsum_cons, rabs_cons, S_INR. unfold near_square in H. set (q := rsum (map (fun x0 => x0 * x0) xs)) in *.
    repeat split.
    + replace (v + rsum vs - (x * x + q)) with ((v - x * x) + (rsum vs - q)) by ring. pose proof (Rabs_triang (v - x * x) (rsum vs - q)). lra.
    + assert (X0 : 0 <= x * x) by nra. replace v with ((v - x * x) + x * x) by ring. pose proof (Rabs_triang (v - x * x) (x * x)) as T. rewrite (Rabs_pos_eq (x * x)) in T by exact X0. lra.
    + now rewrite I3.
Qed.
Definition sqstate (s c : f32) (l : list f32) : Prop := squarable l -> exists vs, Forall2 near_square (vals l) vs /\ kst s c vs.
Lemma sqstate_zero : sqstate (f32_of_Z 0) (f32_of_Z 0) []. Proof. intros _. exists []. split; [constructor|exact kst_zero]. Qed.
Lemma sqstate_upd cx s c x l : sqstate s c l -> sqstate (fst (kahan_square cx s c x)) (snd (kahan_square cx s c x)) (l ++ [x]).
Proof.
  intros H Sq. pose proof (squarable_app l [x] Sq) as (Sl & (Fx & Bx)). inversion Fx as [|? ? Fx' _]; subst. destruct (H Sl) as (vs & HF & K). unfold sqs in Bx. cbn [vals map] in Bx. rewrite rsum_cons, rsum_nil, Rplus_0_r in Bx.
  destruct (square_less_ok cx x c Fx' Bx) as (v & Nv & Hy). exists (vs ++ [v]). rewrite vals_app. split; [apply Forall2_app; [exact HF|constructor; [exact Nv|constructor]]|]. cbn [kahan_square fst snd]. now apply (kst_step s c).
Qed.
(** The number of elements as a real. *)
Definition cntR (l : list f32) : R := IZR (zlen l).
Lemma cntR_app l l' : cntR (l ++ l') = cntR l + cntR l'. Proof. unfold cntR. now rewrite zlen_app', plus_IZR. Qed.
Lemma cntR_pos l : 0 <= cntR l. Proof. apply IZR_le. unfold zlen. lia. Qed.
Lemma sqstate_sum s c l : sqstate s c l -> squarable l -> (zlen l <= 2 ^ 22)%Z -> is_finite s = true /\ Rabs (B2R s - rsum (sqs l)) <= 19 * / 16777216 * rsum (sqs l) + 129 / 128 * (cntR l * h150).
Proof.
  intros H Sq Hn. destruct (H Sq) as (vs & HF & K). destruct (near_squares_sum _ _ HF) as (E1 & E2 & E3). fold (sqs l) in E1, E2.
  assert (EL : INR (length (vals l)) = cntR l) by (unfold cntR, vals, zlen; now rewrite map_length, INR_IZR_INZ). rewrite EL in *. pose proof (cntR_pos l) as C0. assert (CB : cntR l <= 4194304) by (apply IZR_le; exact Hn).
  set (Q := rsum (sqs l)) in *. assert (Q0 : 0 <= Q) by apply sqs_pos. destruct Sq as (_ & B). fold Q in B. pose proof h_small as (H0 & H1). pose proof h_range as H2.
  assert (P124 : bpow radix2 124 = 4 * bpow radix2 122) by (change 124%Z with (2 + 122)%Z; rewrite bpow_plus; reflexivity). assert (P120 : bpow radix2 122 = 4 * bpow radix2 120) by (change 122%Z with (2 + 120)%Z; rewrite bpow_plus; reflexivity).
  assert (CH : 0 <= cntR l * h150 <= 1) by (split; [apply Rmult_le_pos; lra|nra]). assert (P1 : 1 <= bpow radix2 120) by (change 1 with (bpow radix2 0); apply bpow_le; lia).
  destruct (kst_sum s c vs K) as (F & E); [lra|unfold zlen; rewrite E3; unfold vals; rewrite map_length; exact Hn|]. split; [exact F|].
  replace (B2R s - Q) with ((B2R s - rsum vs) + (rsum vs - Q)) by ring. pose proof (Rabs_triang (B2R s - rsum vs) (rsum vs - Q)). lra.
Qed.

(** ** Levels of the tree *)
Lemma div_close_q (s : f32) V A k q n : is_finite s = true -> (1 <= n < 2 ^ 31)%Z -> Rabs V <= A -> A <= bpow radix2 124 -> 0 <= k <= 32 -> 0 <= q <= 1 -> Rabs (B2R s - V) <= k * / 16777216 * A + q ->
  is_finite (Bdiv mode_NE s (f32_of_Z n)) = true /\ Rabs (B2R (Bdiv mode_NE s (f32_of_Z n)) - V / IZR n) <= (k + 17 / 8) * / 16777216 * (A / IZR n) + 129 / 128 * (q / IZR n) + h150.
Proof.
  intros Fs Hn HV HA Hk Hq Hs. destruct (count_value n Hn) as (_ & e & _ & Ee & D0 & He). set (D := B2R (f32_of_Z n)) in *. assert (N1 : 1 <= IZR n) by (apply IZR_le; lia).
  assert (A0 : 0 <= A) by (pose proof (Rabs_pos V); lra). set (N := IZR n) in *. clearbody N.
  assert (Er : B2R s / D = B2R s / N * (1 + e)) by (rewrite <- Ee; field; lra).
  set (a := A / N). set (v := V / N). set (b := B2R s / N) in *. set (r := q / N). assert (NI : 0 < / N) by (apply Rinv_0_lt_compat; lra). assert (NI1 : / N <= 1) by (rewrite <- Rinv_1; apply Rinv_le_contravar; lra).
  assert (Ea : 0 <= a) by (apply Rmult_le_pos; lra). assert (Eaa : a <= A) by (unfold a, Rdiv; nra). assert (Er0 : 0 <= r) by (apply Rmult_le_pos; lra). assert (Er1 : r <= 1) by (unfold r, Rdiv; nra).
  assert (Hb : Rabs (b - v) <= k * / 16777216 * a + r).
  { unfold b, v, a, r, Rdiv. rewrite <- Rmult_minus_distr_r, Rabs_mult, (Rabs_pos_eq (/ N)) by lra. rewrite <- Rmult_assoc, <- Rmult_plus_distr_r. apply Rmult_le_compat_r; [lra|exact Hs]. }
  assert (Hv : Rabs v <= a) by (unfold v, a, Rdiv; rewrite Rabs_mult, (Rabs_pos_eq (/ N)) by lra; apply Rmult_le_compat_r; lra).
  assert (Hk1 : k * / 16777216 * a <= 32 * / 16777216 * a) by (apply Rmult_le_compat_r; lra).
  assert (Wb : Rabs b <= (1 + 32 * / 16777216) * a + r) by (replace b with ((b - v) + v) by ring; pose proof (Rabs_triang (b - v) v); lra).
  pose proof (abs_mul b e _ He) as P1. assert (Wr : Rabs (b * (1 + e)) <= (1 + 34 * / 16777216) * a + 129 / 128 * r) by (replace (b * (1 + e)) with (b + b * e) by ring; pose proof (Rabs_triang b (b * e)); lra).
  set (P := bpow radix2 124) in *. assert (P127 : bpow radix2 127 = 8 * P) by (change 127%Z with (3 + 124)%Z; rewrite bpow_plus; reflexivity). assert (PP : 1 <= P) by (unfold P; change 1 with (bpow radix2 0); apply bpow_le; lia).
  destruct (div_ok s (f32_of_Z n) Fs) as (F & E); [fold D; lra|fold D; rewrite Er; lra|]. split; [exact F|]. rewrite E. fold D. rewrite Er.
  destruct (rnd_parts (b * (1 + e))) as (e2 & h & He2 & Hh & _ & ->). apply eps_u in He2. pose proof (abs_mul (b * (1 + e)) e2 _ He2) as P2.
  replace (b * (1 + e) * (1 + e2) + h - v) with ((b - v) + b * e + b * (1 + e) * e2 + h) by ring.
  pose proof (Rabs_triang (b - v + b * e + b * (1 + e) * e2) h). pose proof (Rabs_triang (b - v + b * e) (b * (1 + e) * e2)). pose proof (Rabs_triang (b - v) (b * e)).
  replace ((k + 17 / 8) * / 16777216 * a) with (k * / 16777216 * a + 17 / 8 * / 16777216 * a) by ring. lra.
Qed.
Lemma grow_le d : (d <= 9)%nat -> 1 <= (129 / 128) ^ d <= 5 / 4.
Proof. intros H. split; [apply pow_R1_Rle; lra|]. eapply Rle_trans; [apply Rle_pow with (n := 9%nat); [lra|exact H]|]. cbn [pow]. lra. Qed.
(** Sums of squares: their error after [d] levels. *)
Definition sqsum_level (d : nat) (s : f32) (l : list f32) : Prop := squarable l -> (zlen l < 2 ^ 31)%Z -> (d <= 9)%nat ->
  is_finite s = true /\ Rabs (B2R s - rsum (sqs l)) <= (19 + 9 / 8 * INR d) * / 16777216 * rsum (sqs l) + (129 / 128) ^ S d * (cntR l * h150).
Lemma count_h l : (zlen l < 2 ^ 31)%Z -> 0 <= cntR l * h150 <= / 16777216.
Proof.
  intros H. pose proof (cntR_pos l). assert (cntR l <= bpow radix2 31) by (change (bpow radix2 31) with (IZR (2 ^ 31)); apply IZR_le; lia). pose proof h_small. split; [apply Rmult_le_pos; lra|].
  apply Rle_trans with (bpow radix2 31 * h150); [apply Rmult_le_compat_r; lra|]. rewrite <- bpow_plus. change (/ 16777216) with (bpow radix2 (-24)). apply bpow_le. lia.
Qed.
Lemma sqsum_level_comb d s s' l l' : sqsum_level d s l -> sqsum_level d s' l' -> sqsum_level (S d) (Bplus mode_NE s s') (l ++ l').
Proof.
  intros H H' Sq Hl Hd. destruct (squarable_app l l' Sq) as (Sl & Sl'). rewrite zlen_app' in Hl. assert (0 <= zlen l /\ 0 <= zlen l')%Z by (unfold zlen; lia).
  destruct (H Sl ltac:(lia) ltac:(lia)) as (Fs & Es). destruct (H' Sl' ltac:(lia) ltac:(lia)) as (Fs' & Es'). destruct Sq as (_ & B). rewrite sqs_app, rsum_app, cntR_app in *. rewrite S_INR. destruct (level_range d ltac:(lia)) as (D0 & D9).
  pose proof (count_h l ltac:(lia)) as C1. pose proof (count_h l' ltac:(lia)) as C2. pose proof (grow_le d ltac:(lia)) as G. pose proof (sqs_pos l) as Q0. pose proof (sqs_pos l') as Q0'. set (w := cntR l * h150) in *. set (w' := cntR l' * h150) in *.
  assert (G2 : 1 <= (129 / 128) ^ S d <= 2) by (cbn [pow]; lra). set (g := (129 / 128) ^ S d) in *.
  assert (B124 : bpow radix2 122 <= bpow radix2 124) by (apply bpow_le; lia).
  destruct (tree_step s s' (rsum (sqs l)) (rsum (sqs l')) (rsum (sqs l)) (rsum (sqs l')) (19 + 9 / 8 * INR d) (g * w) (g * w') Fs Fs') as (F & E); try (rewrite Rabs_pos_eq; lra); try lra; try (split; [apply Rmult_le_pos; lra|nra]).
  split; [exact F|]. eapply Rle_trans; [exact E|]. right. change ((129 / 128) ^ S (S d)) with (129 / 128 * g). unfold w, w'. field.
Qed.
Lemma sqs_perm l l' : Permutation l l' -> rsum (sqs l) = rsum (sqs l') /\ cntR l = cntR l' /\ zlen l = zlen l' /\ (squarable l' -> squarable l).
Proof.
  intros P. assert (Q : rsum (sqs l) = rsum (sqs l')) by (apply rsum_perm; unfold sqs, vals; now apply Permutation_map, Permutation_map).
  assert (Z : zlen l = zlen l') by (unfold zlen; now rewrite (Permutation_length P)). split; [exact Q|]. split; [unfold cntR; now rewrite Z|]. split; [exact Z|].
  intros (F & B). split; [|now rewrite Q]. unfold finite_list in *. rewrite Forall_forall in *. intros x Hx. apply F. now apply (Permutation_in x P).
Qed.
Lemma sqsum_level_perm d s l l' : Permutation l l' -> sqsum_level d s l -> sqsum_level d s l'.
Proof. intros P H Sq Hl Hd. destruct (sqs_perm l l' P) as (E1 & E2 & E3 & E4). destruct (H (E4 Sq) ltac:(lia) Hd) as (F & B). split; [exact F|]. now rewrite <- E1, <- E2. Qed.
(** Means of squares. *)
Definition sqmean_level (n : Z) (d : nat) (s : f32) (l : list f32) : Prop := squarable l -> (zlen l <= n)%Z -> (d <= 9)%nat ->
  is_finite s = true /\ Rabs (B2R s - rsum (sqs l) / IZR n) <= (85 / 4 + 9 / 8 * INR d) * / 16777216 * (rsum (sqs l) / IZR n) + 3 * small d.
Section Mean.
  Variable n : Z.
  Hypothesis Hn : (1 <= n < 2 ^ 31)%Z.
  Lemma n_real : 1 <= IZR n /\ 0 < / IZR n <= 1.
  Proof. assert (N1 : 1 <= IZR n) by (apply IZR_le; lia). split; [exact N1|]. split; [apply Rinv_0_lt_compat; lra|]. rewrite <- Rinv_1; apply Rinv_le_contravar; lra. Qed.
  Lemma sqmean_norm s c l : sqstate s c l -> (zlen l <= 2 ^ 22)%Z -> sqmean_level n 0 (Bdiv mode_NE s (f32_of_Z n)) l.
  Proof.
    intros H Hl Sq Hz _. destruct n_real as (N1 & NI & NI1). destruct (sqstate_sum s c l H Sq Hl) as (F & E). pose proof (sqs_pos l) as Q0. pose proof (count_h l ltac:(lia)) as C. destruct Sq as (_ & B).
    assert (B124 : bpow radix2 122 <= bpow radix2 124) by (apply bpow_le; lia).
    destruct (div_close_q s (rsum (sqs l)) (rsum (sqs l)) 19 (129 / 128 * (cntR l * h150)) n F Hn) as (F' & E'); try (rewrite Rabs_pos_eq; lra); try lra. split; [exact F'|]. eapply Rle_trans; [exact E'|].
    pose proof (Rmult_le_pos _ _ Q0 (Rlt_le _ _ NI)) as A0. fold (rsum (sqs l) / IZR n) in A0. set (a := rsum (sqs l) / IZR n) in *. unfold small. cbn [pow INR].
    assert (W : 129 / 128 * (cntR l * h150) / IZR n <= 129 / 128 * h150). { unfold Rdiv. assert (cntR l * / IZR n <= 1). { apply Rmult_le_reg_r with (IZR n); [lra|]. rewrite Rmult_assoc, Rinv_l by lra. assert (cntR l <= IZR n) by (now apply IZR_le). lra. } pose proof h_small. pose proof (cntR_pos l). nra. }
    pose proof h_small. lra.
  Qed.
  Lemma sqmean_comb d s s' l l' : sqmean_level n d s l -> sqmean_level n d s' l' -> sqmean_level n (S d) (Bplus mode_NE s s') (l ++ l').
  Proof.
    intros H H' Sq Hl Hd. destruct n_real as (N1 & NI & NI1). destruct (squarable_app l l' Sq) as (Sl & Sl'). rewrite zlen_app' in Hl. assert (0 <= zlen l /\ 0 <= zlen l')%Z by (unfold zlen; lia).
    destruct (H Sl ltac:(lia) ltac:(lia)) as (Fs & Es). destruct (H' Sl' ltac:(lia) ltac:(lia)) as (Fs' & Es'). destruct Sq as (_ & B). rewrite sqs_app, rsum_app in *. rewrite S_INR, small_S. destruct (level_range d ltac:(lia)) as (D0 & D9).
    pose proof (small_pos d) as Q0. pose proof (small_le d ltac:(lia)) as Q1. assert (Q2 : bpow radix2 (-140) <= / 16777216) by (change (/ 16777216) with (bpow radix2 (-24)); apply bpow_le; lia).
    assert (HV : forall m, 0 <= rsum (sqs m) / IZR n <= rsum (sqs m)). { intros m. pose proof (sqs_pos m). split; [apply Rmult_le_pos; lra|]. unfold Rdiv. nra. }
    pose proof (HV l) as V1. pose proof (HV l') as V2. assert (B124 : bpow radix2 122 <= bpow radix2 124) by (apply bpow_le; lia).
    destruct (tree_step s s' (rsum (sqs l) / IZR n) (rsum (sqs l') / IZR n) (rsum (sqs l) / IZR n) (rsum (sqs l') / IZR n) (85 / 4 + 9 / 8 * INR d) (3 * small d) (3 * small d) Fs Fs') as (F & E); try (rewrite Rabs_pos_eq; lra); try lra.
    split; [exact F|]. replace ((rsum (sqs l) + rsum (sqs l')) / IZR n) with (rsum (sqs l) / IZR n + rsum (sqs l') / IZR n) by (unfold Rdiv; ring). eapply Rle_trans; [exact E|]. right. field. lra.
  Qed.
  Lemma sqmean_perm d s l l' : Permutation l l' -> sqmean_level n d s l -> sqmean_level n d s l'.
  Proof. intros P H Sq Hl Hd. destruct (sqs_perm l l' P) as (E1 & E2 & E3 & E4). destruct (H (E4 Sq) ltac:(lia) Hd) as (F & B). split; [exact F|]. now rewrite <- E1. Qed.
End Mean.

(** ** The kernels *)
Definition pstate (s c : f32 * f32) (l : list f32) : Prop := kstate (fst s) (fst c) l /\ sqstate (snd s) (snd c) l.
Definition plevel (n : Z) (d : nat) (s : f32 * f32) (l : list f32) : Prop := mean_level n d (fst s) l /\ sqmean_level n d (snd s) l.
Lemma var_joint cx n outs chained : (1 <= n < 2 ^ 31)%Z ->
  joint_rel (Kernel false (f32_of_Z 0, f32_of_Z 0) (f32_of_Z 0, f32_of_Z 0) (kahan2v cx) (norm2 ops32 n) (add2 ops32) outs chained : kernel f32 (f32 * f32) (f32 * f32) f32) pstate (plevel n).
Proof.
  intros Hn. pose proof (mean_joint n Hn) as [Mz Mu Mn Mc Mp]. cbn [gk_mean k_zero k_comp k_upd k_norm k_comb] in *. split; cbn [k_zero k_comp k_upd k_norm k_comb].
  - split; [exact Mz|exact sqstate_zero].
  - intros s c x l (H1 & H2). split; cbn [kahan2v fst snd]; [now apply Mu|now apply sqstate_upd].
  - intros s c l (H1 & H2) Hl. split; cbn [norm2 fst snd o_div o_of ops32]; [exact (Mn (fst s) (fst c) l H1 Hl)|exact (sqmean_norm n Hn (snd s) (snd c) l H2 Hl)].
  - intros d s s' l l' (H1 & H2) (H1' & H2'). split; cbn [add2 fst snd o_add ops32]; [exact (Mc d _ _ l l' H1 H1')|exact (sqmean_comb n Hn d _ _ l l' H2 H2')].
  - intros d s l l' P (H1 & H2). split; [exact (Mp d _ l l' P H1)|exact (sqmean_perm n d _ l l' P H2)].
Qed.
Definition mpstate (s : (f32 * f32) * Z) (c : f32 * f32) (l : list f32) : Prop := pstate (fst s) c l /\ snd s = cnt (zlen l).
Definition mplevel (d : nat) (s : (f32 * f32) * Z) (l : list f32) : Prop := sum_level d (fst (fst s)) l /\ sqsum_level d (snd (fst s)) l /\ snd s = cnt (zlen l).
Lemma mvar_joint cx outs : joint_rel (Kernel true ((f32_of_Z 0, f32_of_Z 0), 0%Z) (f32_of_Z 0, f32_of_Z 0) (mkahan2v cx) (fun s => s) (madd2 ops32) outs false : kernel f32 ((f32 * f32) * Z) (f32 * f32) f32) mpstate mplevel.
Proof.
  split; cbn [k_zero k_comp k_upd k_norm k_comb].
  - split; [split; [exact kstate_zero|exact sqstate_zero]|reflexivity].
  - intros s c x l ((H1 & H2) & E). split; [split; cbn [mkahan2v kahan2v fst snd]; [now apply kstate_upd|now apply sqstate_upd]|]. change (cnt (snd s + 1) = cnt (zlen (l ++ [x]))). rewrite E, zlen_app'. change (zlen [x]) with 1%Z. change (cnt (cnt (zlen l) + cnt 1) = cnt (zlen l + 1)). apply cnt_add.
  - intros s c l ((H1 & H2) & E) Hl. split; [|split; [|exact E]].
    + intros Ad _. cbn [INR]. rewrite Rmult_0_r, Rplus_0_r. now apply (kstate_sum (fst (fst s)) (fst c)).
    + intros Sq _ _. cbn [INR pow]. rewrite Rmult_0_r, Rplus_0_r, Rmult_1_r. now apply (sqstate_sum _ (snd c)).
  - intros d s s' l l' (H1 & H2 & E) (H1' & H2' & E'). split; [|split]; cbn [madd2 add2 fst snd o_add ops32]; [now apply sum_level_comb|now apply sqsum_level_comb|]. rewrite E, E', zlen_app'. apply cnt_add.
  - intros d s l l' P (H1 & H2 & E). split; [exact (sum_level_perm d _ l l' P H1)|]. split; [exact (sqsum_level_perm d _ l l' P H2)|]. rewrite E. unfold zlen. now rewrite (Permutation_length P).
Qed.

(** ** From the means to the variance *)
Definition mean_ok (xs : list f32) (m m2 : f32) : Prop := is_finite m = true /\ is_finite m2 = true /\
  Rabs (B2R m - rmean xs) <= 32 * / 16777216 * (rabs (vals xs) / cntR xs) + bpow radix2 (-140) /\ Rabs (B2R m2 - mean_square xs) <= 32 * / 16777216 * mean_square xs + bpow radix2 (-138).
Lemma lengths xs : INR (length xs) = cntR xs. Proof. unfold cntR, zlen. now rewrite INR_IZR_INZ. Qed.
Lemma squarable_addable xs : squarable xs -> (zlen xs < 2 ^ 31)%Z -> addable xs.
Proof.
  intros (F & B) Hn. split; [exact F|]. pose proof (cauchy (vals xs)) as C. fold (sqs xs) in C. assert (L : INR (length (vals xs)) = cntR xs) by (unfold vals; rewrite map_length; apply lengths). rewrite L in C.
  assert (N : cntR xs <= bpow radix2 31) by (change (bpow radix2 31) with (IZR (2 ^ 31)); apply IZR_le; lia). pose proof (cntR_pos xs). pose proof (sqs_pos xs). pose proof (rabs_nonneg (vals xs)) as A0.
  assert (C2 : rabs (vals xs) * rabs (vals xs) <= bpow radix2 124 * bpow radix2 124). { eapply Rle_trans; [exact C|]. apply Rle_trans with (bpow radix2 31 * bpow radix2 122); [now apply Rmult_le_compat|]. rewrite <- !bpow_plus. apply bpow_le. lia. }
  pose proof (bpow_ge_0 radix2 124). apply Rnot_lt_le. intros Hc. assert (bpow radix2 124 * bpow radix2 124 < rabs (vals xs) * rabs (vals xs)) by (apply Rmult_le_0_lt_compat; assumption). lra.
Qed.
Lemma small_138 p : (p <= 9)%nat -> 3 * small p <= bpow radix2 (-138).
Proof. intros H. pose proof (small_le p H). change (-138)%Z with (2 + -140)%Z. rewrite bpow_plus. change (bpow radix2 2) with 4. pose proof (bpow_ge_0 radix2 (-140)). lra. Qed.
Lemma plevel_means p s xs : (p <= 9)%nat -> (1 <= zlen xs < 2 ^ 31)%Z -> plevel (zlen xs) p s xs -> squarable xs -> mean_ok xs (fst s) (snd s).
Proof.
  intros Hp Hn (H1 & H2) Sq. destruct (H1 (squarable_addable xs Sq ltac:(lia)) Hp) as (F1 & E1). destruct (H2 Sq ltac:(lia) Hp) as (F2 & E2). fold (cntR xs) in E1, E2. unfold mean_ok, rmean, mean_square. rewrite lengths. fold (sqs xs).
  destruct (level_range p Hp). assert (N1 : 1 <= cntR xs) by (apply IZR_le; lia). assert (NI : 0 < / cntR xs) by (apply Rinv_0_lt_compat; lra).
  split; [exact F1|]. split; [exact F2|]. split.
  - eapply Rle_trans; [exact E1|]. apply Rplus_le_compat; [|now apply small_le]. apply Rmult_le_compat_r; [apply Rmult_le_pos; [apply rabs_nonneg|lra]|lra].
  - eapply Rle_trans; [exact E2|]. apply Rplus_le_compat; [|now apply small_138]. apply Rmult_le_compat_r; [apply Rmult_le_pos; [apply sqs_pos|lra]|lra].
Qed.
Lemma mplevel_means p s xs : (p <= 9)%nat -> (1 <= zlen xs < 2 ^ 31)%Z -> mplevel p s xs -> squarable xs -> mean_ok xs (fst (norm2 ops32 (snd s) (fst s))) (snd (norm2 ops32 (snd s) (fst s))).
Proof.
  intros Hp Hn (H1 & H2 & E) Sq. pose proof (squarable_addable xs Sq ltac:(lia)) as Ad. destruct (H1 Ad Hp) as (F1 & E1). destruct (H2 Sq ltac:(lia) Hp) as (F2 & E2). rewrite E. unfold cnt. rewrite Z.mod_small by lia.
  destruct (level_range p Hp). assert (N1 : 1 <= cntR xs) by (apply IZR_le; lia). assert (NI : 0 < / cntR xs) by (apply Rinv_0_lt_compat; lra). pose proof (grow_le p Hp) as G. pose proof (count_h xs ltac:(lia)) as C. pose proof h_small as HS.
  cbn [norm2 fst snd o_div o_of ops32]. unfold mean_ok, rmean, mean_square. rewrite lengths. fold (sqs xs). pose proof (sqs_pos xs) as Q0. pose proof Sq as (_ & B). assert (B124 : bpow radix2 122 <= bpow radix2 124) by (apply bpow_le; lia).
  destruct (div_close _ _ _ (17 + 9 / 8 * INR p) (zlen xs) F1 Hn (rsum_abs (vals xs)) (proj2 Ad) ltac:(lra) E1) as (F1' & E1'). fold (cntR xs) in E1'.
  assert (G2 : 1 <= (129 / 128) ^ S p <= 2) by (cbn [pow]; lra). set (g := (129 / 128) ^ S p) in *.
  destruct (div_close_q (snd (fst s)) (rsum (sqs xs)) (rsum (sqs xs)) (19 + 9 / 8 * INR p) (g * (cntR xs * h150)) (zlen xs) F2 Hn) as (F2' & E2'); try (rewrite Rabs_pos_eq; lra); try lra; try (split; [apply Rmult_le_pos; lra|nra]). fold (cntR xs) in E2'.
  split; [exact F1'|]. split; [exact F2'|]. split.
  - eapply Rle_trans; [exact E1'|]. apply Rplus_le_compat; [|apply bpow_le; lia]. apply Rmult_le_compat_r; [apply Rmult_le_pos; [apply rabs_nonneg|lra]|lra].
  - eapply Rle_trans; [exact E2'|]. rewrite Rplus_assoc. apply Rplus_le_compat.
    + apply Rmult_le_compat_r; [apply Rmult_le_pos; lra|lra].
    + replace (g * (cntR xs * h150) / cntR xs) with (g * h150) by (field; lra). change (-138)%Z with (12 + -150)%Z. rewrite bpow_plus. change (bpow radix2 12) with 4096. nra.
Qed.
(** The arithmetic. *)
Lemma var_real m m2 mu M a p d q1 q2 h e1 e2 : 0 <= a -> a * a <= M -> Rabs mu <= a -> Rabs (m - mu) <= 32 * / 16777216 * a + q1 -> Rabs (m2 - M) <= 32 * / 16777216 * M + q2 ->
  0 <= q1 -> 0 <= q2 -> 0 <= h -> 1073741826 * (q1 * q1) <= h -> Rabs e1 <= / 16777216 -> Rabs e2 <= / 16777216 ->
  Rabs (p - m * m) <= / 16777216 * (m * m) + h -> Rabs (d - (m2 - p)) <= / 16777216 * Rabs (m2 - p) + h ->
  m * m <= 2 * M + h /\ Rabs (m2 - p) <= 2 * M + 2 * q2 + 4 * h /\ Rabs (m2 - m * m) <= 2 * M + 2 * q2 + 4 * h /\ Rabs (d - (M - mu * mu)) <= 101 * / 16777216 * M + 2 * q2 + 8 * h.
Proof.
  intros A0 AM Hmu Hm Hm2 Q1 Q2 H0 Hq He1 He2 Hp Hd. set (u := / 16777216) in *. assert (U : u = / 16777216) by reflexivity.
  assert (E1 : Rabs (m * m - mu * mu) <= 65 * u * M + h).
  { replace (m * m - mu * mu) with ((m - mu) * (m - mu) + 2 * (mu * (m - mu))) by ring. pose proof (Rabs_triang ((m - mu) * (m - mu)) (2 * (mu * (m - mu)))) as T. rewrite (Rabs_mult (m - mu)), (Rabs_mult 2), (Rabs_mult mu), (Rabs_pos_eq 2) in T by lra.
    set (D := Rabs (m - mu)) in *. assert (D0 : 0 <= D) by apply Rabs_pos. set (mm := Rabs mu) in *. assert (0 <= mm) by apply Rabs_pos. set (del := 32 * u * a + q1) in *.
    assert (T1 : D * D <= del * del) by (apply Rmult_le_compat; assumption). assert (T2 : mm * D <= a * del) by (apply Rmult_le_compat; assumption).
    assert (T3 : del * del <= 2048 * (u * u) * (a * a) + 2 * (q1 * q1)). { unfold del. pose proof (Rle_0_sqr (32 * u * a - q1)) as Z. unfold Rsqr in Z. nra. }
    assert (T4 : 2 * (a * q1) <= / 1073741824 * (a * a) + 1073741824 * (q1 * q1)). { pose proof (Rle_0_sqr (/ 32768 * a - 32768 * q1)) as Z. unfold Rsqr in Z. lra. }
    assert (T5 : 2 * (a * del) = 64 * u * (a * a) + 2 * (a * q1)) by (unfold del; ring).
    assert (T6 : 2048 * (u * u) * (a * a) + (64 * u * (a * a) + / 1073741824 * (a * a)) <= 65 * u * (a * a)) by (rewrite U; pose proof (Rmult_le_pos a a A0 A0); lra).
    assert (T7 : 65 * u * (a * a) <= 65 * u * M) by (apply Rmult_le_compat_l; [rewrite U; lra|exact AM]). lra. }
  assert (MU : 0 <= mu * mu <= M). { split; [nra|]. eapply Rle_trans; [|exact AM]. rewrite <- (Rabs_pos_eq (mu * mu)) by nra. rewrite Rabs_mult. apply Rmult_le_compat; auto using Rabs_pos. }
  assert (M0 : 0 <= M) by lra. assert (MM : 0 <= m * m) by nra. apply Rabs_le_inv in E1. rewrite U in *.
  assert (MB : m * m <= (1 + 65 * / 16777216) * M + h) by lra.
  apply Rabs_le_inv in Hp. apply Rabs_le_inv in Hm2. 
  assert (W1 : Rabs (m2 - m * m) <= (1 + 98 * / 16777216) * M + q2 + h) by (apply Rabs_le; lra).
  assert (W2 : Rabs (m2 - p) <= (1 + 100 * / 16777216) * M + q2 + 3 * h) by (apply Rabs_le; lra).
  repeat split; try lra. apply Rabs_le_inv in Hd. apply Rabs_le. lra.
Qed.
Lemma mean_bounds xs : squarable xs -> (1 <= zlen xs)%Z -> let a := rabs (vals xs) / cntR xs in 0 <= a /\ a * a <= mean_square xs /\ Rabs (rmean xs) <= a /\ 0 <= mean_square xs <= bpow radix2 122 /\ 0 <= variance xs <= mean_square xs.
Proof.
  intros (F & B) Hn a. assert (N1 : 1 <= cntR xs) by (apply IZR_le; lia). assert (NI : 0 < / cntR xs) by (apply Rinv_0_lt_compat; lra). assert (NI1 : / cntR xs <= 1) by (rewrite <- Rinv_1; apply Rinv_le_contravar; lra).
  pose proof (rabs_nonneg (vals xs)) as A0. pose proof (cauchy (vals xs)) as C. fold (sqs xs) in C. assert (L : INR (length (vals xs)) = cntR xs) by (unfold vals; rewrite map_length; apply lengths). rewrite L in C. pose proof (sqs_pos xs) as Q0.
  unfold variance, mean_square, rmean. rewrite lengths. fold (sqs xs). set (N := cntR xs) in *. assert (Ha : 0 <= a) by (apply Rmult_le_pos; lra).
  assert (Haa : a * a <= rsum (sqs xs) / N). { unfold a. apply Rmult_le_reg_r with (N * N); [nra|]. replace (rabs (vals xs) / N * (rabs (vals xs) / N) * (N * N)) with (rabs (vals xs) * rabs (vals xs)) by (field; lra). replace (rsum (sqs xs) / N * (N * N)) with (N * rsum (sqs xs)) by (field; lra). exact C. }
  assert (Hm : Rabs (rsum (vals xs) / N) <= a) by (unfold a, Rdiv; rewrite Rabs_mult, (Rabs_pos_eq (/ N)) by lra; apply Rmult_le_compat_r; [lra|apply rsum_abs]).
  assert (Hs : 0 <= rsum (sqs xs) / N <= bpow radix2 122) by (split; [apply Rmult_le_pos; lra|unfold Rdiv; nra]).
  assert (Hr : 0 <= rsum (vals xs) / N * (rsum (vals xs) / N) <= rsum (sqs xs) / N). { split; [nra|]. eapply Rle_trans; [|exact Haa]. rewrite <- (Rabs_pos_eq (rsum (vals xs) / N * (rsum (vals xs) / N))) by nra. rewrite Rabs_mult. apply Rmult_le_compat; auto using Rabs_pos. }
  repeat split; try assumption; lra.
Qed.
Lemma less_square_ok cd xs m m2 : squarable xs -> (1 <= zlen xs)%Z -> mean_ok xs m m2 -> is_finite (less_square cd m2 m) = true /\ Rabs (B2R (less_square cd m2 m) - variance xs) <= 101 * / 16777216 * mean_square xs + bpow radix2 (-136).
Proof.
  intros Sq Hn (Fm & Fm2 & Em & Em2). destruct (mean_bounds xs Sq Hn) as (A0 & AM & Hmu & (M0 & MB) & V0). unfold variance in *. set (a := rabs (vals xs) / cntR xs) in *. set (M := mean_square xs) in *. set (mu := rmean xs) in *. 
  set (q1 := bpow radix2 (-140)) in *. set (q2 := bpow radix2 (-138)) in *. assert (Q1 : 0 <= q1) by apply bpow_ge_0. assert (Q2 : 0 <= q2) by apply bpow_ge_0. pose proof h_small as (H0 & H1).
  assert (QH : 1073741826 * (q1 * q1) <= h150). { unfold q1. rewrite <- bpow_plus. apply Rle_trans with (bpow radix2 31 * bpow radix2 (-140 + -140)); [apply Rmult_le_compat_r; [apply bpow_ge_0|]; change (bpow radix2 31) with 2147483648; lra|]. rewrite <- bpow_plus. apply bpow_le. lia. }
  assert (QF : 2 * q2 + 8 * h150 <= bpow radix2 (-136)). { change (-136)%Z with (2 + -138)%Z. rewrite bpow_plus. fold q2. change (bpow radix2 2) with 4. assert (8 * h150 <= q2); [|lra]. change 8 with (bpow radix2 3). rewrite <- bpow_plus. unfold q2. apply bpow_le. lia. }
  assert (Q2s : q2 <= / 16777216) by (unfold q2; change (/ 16777216) with (bpow radix2 (-24)); apply bpow_le; lia).
  assert (P127 : bpow radix2 127 = 32 * bpow radix2 122) by (change 127%Z with (5 + 122)%Z; rewrite bpow_plus; reflexivity). assert (P1 : 1 <= bpow radix2 122) by (change 1 with (bpow radix2 0); apply bpow_le; lia).
  assert (T0 : Rabs 0 <= / 16777216) by (rewrite Rabs_R0; lra). set (x := B2R m) in *. set (y := B2R m2) in *. assert (X0 : 0 <= x * x) by nra.
  assert (Z : forall d, Rabs (d - (y - x * x)) <= / 16777216 * Rabs (y - x * x) + h150 -> x * x <= 2 * M + h150 /\ Rabs (y - x * x) <= 2 * M + 2 * q2 + 4 * h150 /\ Rabs (d - (M - mu * mu)) <= 101 * / 16777216 * M + 2 * q2 + 8 * h150).
  { intros d Hd. destruct (var_real x y mu M a (x * x) d q1 q2 h150 0 0 A0 AM Hmu Em Em2 Q1 Q2 (Rlt_le _ _ H0) QH T0 T0) as (R1 & _ & R3 & R4); [rewrite Rminus_eq_0, Rabs_R0; nra|exact Hd|auto]. }
  destruct (Z (y - x * x)) as (R1 & R2 & _); [rewrite Rminus_eq_0, Rabs_R0; pose proof (Rabs_pos (y - x * x)); lra|].
  destruct cd; cbn [less_square].
  - assert (Fo : is_finite (Bopp m) = true) by (now rewrite is_finite_Bopp). assert (Vo : B2R (Bopp m) = - x) by apply B2R_Bopp.
    assert (Eq : B2R (Bopp m) * B2R m + B2R m2 = y - x * x) by (rewrite Vo; unfold x, y; ring).
    destruct (fma_ok (Bopp m) m m2 Fo Fm Fm2) as (F & V); [rewrite Eq; lra|]. split; [exact F|]. rewrite V, Eq. destruct (rnd_parts (y - x * x)) as (e & h & He & Hh & _ & Er). apply eps_u in He. rewrite Er.
    destruct (Z ((y - x * x) * (1 + e) + h)) as (_ & _ & R4); [|lra]. replace ((y - x * x) * (1 + e) + h - (y - x * x)) with ((y - x * x) * e + h) by ring. pose proof (Rabs_triang ((y - x * x) * e) h). pose proof (abs_mul (y - x * x) e _ He). lra.
  - destruct (mult_ok m m Fm Fm) as (Fp & Vp); [rewrite Rabs_pos_eq; unfold x in *; lra|]. set (p := Bmult mode_NE m m) in *.
    assert (Hp : Rabs (B2R p - x * x) <= / 16777216 * (x * x) + h150). { rewrite Vp. fold x. destruct (rnd_parts (x * x)) as (e & h & He & Hh & _ & ->). apply eps_u in He. replace (x * x * (1 + e) + h - x * x) with (x * x * e + h) by ring. pose proof (Rabs_triang (x * x * e) h). pose proof (abs_mul (x * x) e _ He) as T. rewrite (Rabs_pos_eq (x * x)) in T by exact X0. lra. }
    destruct (var_real x y mu M a (B2R p) (y - B2R p) q1 q2 h150 0 0 A0 AM Hmu Em Em2 Q1 Q2 (Rlt_le _ _ H0) QH T0 T0 Hp) as (_ & R3 & _); [rewrite Rminus_eq_0, Rabs_R0; pose proof (Rabs_pos (y - B2R p)); lra|].
    destruct (sub_rel m2 p Fm2 Fp) as (F & e & He & V); [fold y; lra|]. fold y in V. split; [exact F|].
    destruct (var_real x y mu M a (B2R p) (B2R (Bminus mode_NE m2 p)) q1 q2 h150 0 0 A0 AM Hmu Em Em2 Q1 Q2 (Rlt_le _ _ H0) QH T0 T0 Hp) as (_ & _ & _ & R4); [|lra].
    rewrite V. replace ((y - B2R p) * (1 + e) - (y - B2R p)) with ((y - B2R p) * e) by ring. pose proof (abs_mul (y - B2R p) e _ He). lra.
Qed.
(** ** Taking the larger of zero, and the root *)
Lemma relu32_ok (d : f32) : is_finite d = true -> is_finite (relu32 d) = true /\ B2R (relu32 d) = Rmax 0 (B2R d) /\ Bsign (relu32 d) = false.
Proof.
  intros F. destruct (f32_of_Z_ok 0 ltac:(lia)) as (V0 & F0). unfold relu32. rewrite HitFacts.f32lt_swap, (Bcompare_correct 24 128) by auto. rewrite V0. destruct (Rcompare_spec 0 (B2R d)) as [H|H|H].
  - split; [exact F|]. split; [now rewrite Rmax_right by lra|]. destruct d as [| | |s m e B]; try (cbn in F; discriminate); [cbn in H; lra|]. destruct s; [|reflexivity]. exfalso. cbn [B2R] in H. assert (F2R (Float radix2 (cond_Zopp true (Zpos m)) e) < 0) by (apply F2R_lt_0; reflexivity). lra.
  - split; [exact F0|]. split; [rewrite V0, Rmax_left; lra|reflexivity].
  - split; [exact F0|]. split; [rewrite V0, Rmax_left; lra|reflexivity].
Qed.
Lemma root32_ok (d : f32) : is_finite d = true -> Bsign d = false -> 0 <= B2R d -> is_finite (root32 d) = true /\ 0 <= B2R (root32 d) /\ Rabs (B2R (root32 d) * B2R (root32 d) - B2R d) <= 4 * / 16777216 * B2R d + h150.
Proof.
  intros F Sg D0. unfold root32. destruct (Bsqrt_correct 24 128 prec24 emax128 mode_NE d) as (V & Fs & _). change (round_mode mode_NE) with ZnearestE in V. fold (rnd (sqrt (B2R d))) in V.
  split; [rewrite Fs; destruct d as [s|s| |s m e B]; try (cbn in F; discriminate); [reflexivity|cbn in Sg; now subst s]|].
  rewrite V. pose proof (sqrt_pos (B2R d)) as S0. pose proof (sqrt_sqrt (B2R d) D0) as SS. set (r := sqrt (B2R d)) in *. split.
  - apply Rle_trans with (rnd 0); [right; symmetry; apply round_0, valid_rnd_N|]. apply round_le; [exact (fexp_correct 24 128 prec24)|apply valid_rnd_N|exact S0].
  - destruct (rnd_parts r) as (e & h & He & Hh & EH & ->). apply eps_u in He. rewrite <- SS. pose proof h_small as (H0 & H1). apply Rabs_le_inv in He. apply Rabs_le_inv in Hh. assert (R2 : 0 <= r * r) by nra.
    replace ((r * (1 + e) + h) * (r * (1 + e) + h) - r * r) with (r * r * (2 * e + e * e) + 2 * (r * h) + (e * h) * (2 * r) + h * h) by ring. rewrite EH.
    assert (T1 : Rabs (r * r * (2 * e + e * e)) <= 3 * / 16777216 * (r * r)). { rewrite Rabs_mult, (Rabs_pos_eq (r * r)) by exact R2. rewrite Rmult_comm. apply Rmult_le_compat_r; [exact R2|]. apply Rabs_le. split; nra. }
    assert (T2 : Rabs (2 * (r * h)) <= / 16777216 * (r * r) + 16777216 * (h150 * h150)).
    { assert (Z1 : h * h <= h150 * h150) by nra. pose proof (Rle_0_sqr (/ 4096 * r - 4096 * h)) as Z2. pose proof (Rle_0_sqr (/ 4096 * r + 4096 * h)) as Z3. unfold Rsqr in Z2, Z3. apply Rabs_le. split; lra. }
    assert (T3 : 0 <= h * h <= h150 * h150) by (split; nra). assert (T4 : 16777217 * (h150 * h150) <= h150). { rewrite <- bpow_plus. apply Rle_trans with (bpow radix2 25 * bpow radix2 (-150 + -150)); [apply Rmult_le_compat_r; [apply bpow_ge_0|]; change (bpow radix2 25) with 33554432; lra|]. rewrite <- bpow_plus. apply bpow_le. lia. }
    apply Rabs_le_inv in T1. apply Rabs_le_inv in T2. apply Rabs_le. lra.
Qed.
Lemma varv_ok cd xs s : squarable xs -> (1 <= zlen xs)%Z -> mean_ok xs (fst s) (snd s) ->
  is_finite (varv cd s) = true /\ 0 <= B2R (varv cd s) /\ Bsign (varv cd s) = false /\ Rabs (B2R (varv cd s) - variance xs) <= 101 * / 16777216 * mean_square xs + bpow radix2 (-136).
Proof.
  intros Sq Hn Hm. destruct (less_square_ok cd xs _ _ Sq Hn Hm) as (F & E). destruct (mean_bounds xs Sq Hn) as (_ & _ & _ & _ & (V0 & _)). unfold varv. destruct (relu32_ok _ F) as (F' & V & Sg). rewrite V. split; [exact F'|]. split; [apply Rmax_l|]. split; [exact Sg|].
  eapply Rle_trans; [|exact E]. set (d := B2R (less_square cd (snd s) (fst s))) in *. destruct (Rle_dec 0 d) as [H|H]; [rewrite Rmax_right by exact H; lra|]. rewrite Rmax_left by lra. rewrite (Rabs_left1 (d - _)), (Rabs_left1 (0 - _)) by lra. lra.
Qed.
Lemma stdv_ok cd xs s : squarable xs -> (1 <= zlen xs)%Z -> mean_ok xs (fst s) (snd s) ->
  is_finite (stdv cd s) = true /\ 0 <= B2R (stdv cd s) /\ Rabs (B2R (stdv cd s) * B2R (stdv cd s) - variance xs) <= / 131072 * mean_square xs + bpow radix2 (-135).
Proof.
  intros Sq Hn Hm. destruct (varv_ok cd xs s Sq Hn Hm) as (F & D0 & Sg & E). destruct (mean_bounds xs Sq Hn) as (_ & _ & _ & (M0 & _) & (V0 & V1)). destruct (root32_ok _ F Sg D0) as (Fr & R0 & Er). unfold stdv. split; [exact Fr|]. split; [exact R0|].
  assert (P : bpow radix2 (-135) = 2 * bpow radix2 (-136)) by (change (-135)%Z with (1 + -136)%Z; rewrite bpow_plus; reflexivity). assert (H : h150 <= / 8 * bpow radix2 (-136)) by (change (/ 8) with (bpow radix2 (-3)); rewrite <- bpow_plus; apply bpow_le; lia).
  pose proof (bpow_gt_0 radix2 (-136)) as B0. apply Rabs_le_inv in E. apply Rabs_le_inv in Er. apply Rabs_le. lra.
Qed.
