(** Errors of the default magnitude threshold, and how far a sample can be from the mean. *)
From Coq Require Import ZifyBool Lia Permutation.
From Verif Require Import MagModel KurtProofs FsumFacts FsumProofs FsumProofs2 PropFsum DriftFloatProofs.
From Coq Require Import Reals Lra Psatz.
From Flocq Require Import Core BinarySingleNaN.
Local Open Scope R_scope.

(** ** Statistics do not depend on the order *)
Lemma rsum_perm a b : Permutation a b -> rsum a = rsum b.
Proof. unfold rsum. induction 1; cbn; lra. Qed.
Lemma rabs_perm a b : Permutation a b -> rabs a = rabs b.
Proof. intros H. unfold rabs. now apply rsum_perm, Permutation_map. Qed.
Lemma stats_perm xs ys : Permutation xs ys -> rmean xs = rmean ys /\ magnitude xs = magnitude ys /\ mean_square xs = mean_square ys /\ variance xs = variance ys /\ length xs = length ys.
Proof.
  intros H. pose proof (Permutation_length H) as L. pose proof (Permutation_map (@B2R 24 128) H) as V.
  assert (M : rmean xs = rmean ys) by (unfold rmean, vals; rewrite L; f_equal; now apply rsum_perm).
  assert (Q : mean_square xs = mean_square ys) by (unfold mean_square, vals; rewrite L; f_equal; now apply rsum_perm, Permutation_map).
  repeat split; auto; [unfold magnitude, vals; rewrite L; f_equal; now apply rabs_perm|]. unfold variance. now rewrite M, Q.
Qed.
Lemma close_mean_perm k xs ys r : Permutation xs ys -> close_mean k xs r -> close_mean k ys r.
Proof. intros H. destruct (stats_perm xs ys H) as (A & B & C & D & E). unfold close_mean. now rewrite A, B, E. Qed.
Lemma rough_root_perm k xs ys r : Permutation xs ys -> rough_root k xs r -> rough_root k ys r.
Proof. intros H. destruct (stats_perm xs ys H) as (A & B & C & D & E). unfold rough_root. now rewrite C, D, E. Qed.

(** ** The errors *)
Definition mean_error (xs : list f32) : R := bpow radix2 (-24) * Rabs (rmean xs) + (INR (length xs) + 1) * bpow radix2 (-51) * magnitude xs + bpow radix2 (-149).
Definition stddev_error (xs : list f32) : R :=
  let B := slack 3 (INR (length xs)) (mean_square xs) in bpow radix2 (-23) * (sqrt (variance xs) + sqrt B) + sqrt B + bpow radix2 (-149).
Definition margin (xs : list f32) : R := 2 * mean_error xs + 20 * stddev_error xs + bpow radix2 (-22) * (Rabs (rmean xs) + 10 * sqrt (variance xs)) + bpow radix2 (-140).
Definition small_enough (xs : list f32) : Prop := Forall (fun x => is_finite x = true /\ Rabs (B2R x) <= bpow radix2 120) xs.

Lemma small_moderate xs : small_enough xs -> moderate xs.
Proof. apply Forall_impl. intros x (F & B). split; [exact F|]. eapply Rle_trans; [exact B|]. apply bpow_le. lia. Qed.
Lemma small_vals xs : small_enough xs -> Forall (fun x => Rabs x <= bpow radix2 120) (vals xs).
Proof. intros H. unfold vals. apply Forall_map. eapply Forall_impl; [|exact H]. intros x (_ & B). exact B. Qed.
Lemma small_squares xs : small_enough xs -> Forall (fun x => Rabs x <= bpow radix2 240) (map (fun x => x * x) (vals xs)).
Proof.
  intros H. apply Forall_map. eapply Forall_impl; [|exact (small_vals xs H)]. cbn beta. intros x B. rewrite Rabs_mult. change 240%Z with (120 + 120)%Z. rewrite bpow_plus.
  apply Rmult_le_compat; auto using Rabs_pos.
Qed.
Lemma avg_bound (s n b : R) : 1 <= n -> s <= n * b -> s / n <= b.
Proof. intros N S. apply Rmult_le_reg_r with n; [lra|]. unfold Rdiv. rewrite Rmult_assoc, Rinv_l by lra. lra. Qed.
Lemma small_bounds xs : small_enough xs -> (1 <= zlen xs)%Z -> magnitude xs <= bpow radix2 120 /\ mean_square xs <= bpow radix2 240.
Proof.
  intros H Hn. assert (N1 : 1 <= INR (length xs)) by (rewrite <- IZR_len; apply IZR_le; lia).
  pose proof (rabs_bound _ _ (small_vals xs H)) as A. unfold vals in A at 2. rewrite map_length in A.
  pose proof (rabs_bound _ _ (small_squares xs H)) as B. rewrite map_length in B. unfold vals in B at 2. rewrite map_length in B. rewrite rabs_squares in B.
  split; apply avg_bound; assumption.
Qed.

Section Threshold.
  Variables (xs : list f32) (m s : f32).
  Hypotheses (Hs : small_enough xs) (Hn : (1 <= zlen xs < 2 ^ 31)%Z) (Hm : close_mean 1 xs m) (Hd : rough_root 3 xs s).
  Lemma threshold_ok : is_finite (ten_sigma m s) = true /\ Rabs (B2R (ten_sigma m s) - (rmean xs + 10 * sqrt (variance xs))) <= margin xs.
  Proof.
    pose proof (small_moderate xs Hs) as Mo. destruct (small_bounds xs Hs ltac:(lia)) as (A1 & Q1). destruct (magnitude_bound xs Mo ltac:(lia)) as ((A0 & _) & MA).
    destruct (variance_nonneg xs Mo ltac:(lia)) as (V0 & VQ). destruct (rough_root_bound 3 xs s Mo ltac:(lia) Hd) as (Es & _). cbv zeta in Es. destruct Hd as (Fs & S0 & _). destruct Hm as (Fm & Em).
    fold (mean_error xs) in Em. change (Rabs (B2R s - sqrt (variance xs)) <= stddev_error xs) in Es.
    assert (N1 : INR (length xs) <= bpow radix2 31) by (apply count_R; unfold zlen in Hn; lia). assert (N0 : 0 <= INR (length xs)) by apply pos_INR.
    change (bpow radix2 31) with 2147483648 in N1.
    set (sg := sqrt (variance xs)) in *. assert (SG : 0 <= sg <= bpow radix2 120).
    { split; [apply sqrt_pos|]. unfold sg. rewrite <- (sqrt_square (bpow radix2 120)) by apply bpow_ge_0. apply sqrt_le_1_alt. rewrite <- bpow_plus. change (120 + 120)%Z with 240%Z. lra. }
    assert (P120 : 1 <= bpow radix2 120) by (change 1 with (bpow radix2 0); apply bpow_le; lia).
    assert (T1 : bpow radix2 (-149) <= 1) by (change 1 with (bpow radix2 0); apply bpow_le; lia). assert (T0 : 0 <= bpow radix2 (-149)) by apply bpow_ge_0.
    assert (Q0 : 0 <= mean_square xs) by lra.
    assert (SB : 0 <= sqrt (slack 3 (INR (length xs)) (mean_square xs)) <= bpow radix2 120).
    { split; [apply sqrt_pos|]. rewrite <- (sqrt_square (bpow radix2 120)) by apply bpow_ge_0. apply sqrt_le_1_alt. rewrite <- bpow_plus. change (120 + 120)%Z with 240%Z. unfold slack.
      assert (H9 : bpow radix2 (-900) <= / 2 * bpow radix2 240) by (rewrite half_bpow; apply bpow_le; lia).
      assert (K : 0 <= (INR (length xs) + 3) * bpow radix2 (-50) <= / 2). { change (bpow radix2 (-50)) with (/ IZR 1125899906842624). split; [apply Rmult_le_pos; lra|lra]. }
      assert ((INR (length xs) + 3) * bpow radix2 (-50) * mean_square xs <= / 2 * bpow radix2 240) by (apply Rmult_le_compat; lra). lra. }
    assert (DM : 0 <= mean_error xs <= 2 * bpow radix2 120).
    { unfold mean_error. change (bpow radix2 (-24)) with (/ 16777216). change (bpow radix2 (-51)) with (/ IZR 2251799813685248). pose proof (Rabs_pos (rmean xs)).
      assert (0 <= (INR (length xs) + 1) * / IZR 2251799813685248 <= / 2) by (split; [apply Rmult_le_pos; lra|lra]). nra. }
    assert (DS : 0 <= stddev_error xs <= 3 * bpow radix2 120).
    { unfold stddev_error. cbv zeta. fold sg. change (bpow radix2 (-23)) with (/ 8388608). lra. }
    unfold margin. fold sg. set (dm := mean_error xs) in *. set (ds := stddev_error xs) in *. set (mu := rmean xs) in *. clearbody dm ds mu sg.
    apply Rabs_le_inv in Em, Es. assert (MU : Rabs mu <= bpow radix2 120) by lra.
    destruct (f32_of_Z_ok 10 ltac:(lia)) as (V10 & F10).
    assert (E127 : bpow radix2 127 = 128 * bpow radix2 120) by (change 127%Z with (7 + 120)%Z; rewrite bpow_plus; reflexivity).
    set (b := bpow radix2 120) in *. clearbody b.
    destruct (mult_ok (f32_of_Z 10) s F10 Fs) as (Fp & Ep). { rewrite V10, E127, Rabs_pos_eq by lra. lra. } rewrite V10 in Ep.
    destruct (rnd_parts (10 * B2R s)) as (e & h & He & Hh & _ & Er). rewrite Er in Ep. clear Er.
    assert (U : u / (1 + u) <= u). { pose proof u_pos. apply Rmult_le_reg_r with (1 + u); [lra|]. unfold Rdiv. rewrite Rmult_assoc, Rinv_l by lra. nra. }
    assert (Hu : Rabs e <= / 16777216) by (rewrite <- u_val; lra). clear He.
    assert (H150 : bpow radix2 (-150) <= / 1000) by (apply Rle_trans with (bpow radix2 (-10)); [apply bpow_le; lia|change (bpow radix2 (-10)) with (/ 1024); lra]).
    apply Rabs_le_inv in Hu, Hh. unfold ten_sigma. set (p := Bmult mode_NE (f32_of_Z 10) s) in *. clearbody p.
    assert (PB : Rabs (B2R p - 10 * B2R s) <= / 16777216 * (10 * B2R s) + bpow radix2 (-150)) by (apply Rabs_le; nra). apply Rabs_le_inv in PB. apply Rabs_def2 with (a := Rabs mu + b) in MU || idtac.
    pose proof (Rle_abs mu) as M1. pose proof (Rle_abs (- mu)) as M2. rewrite Rabs_Ropp in M2.
    destruct (plus_ok m p Fm Fp) as (Ft & Et). { rewrite E127. apply Rabs_le. lra. }
    split; [exact Ft|]. destruct (plus_eps m p) as (e2 & He2 & E2). rewrite Et, E2. assert (Hu2 : Rabs e2 <= / 16777216) by (rewrite <- u_val; lra). clear He2 U Et E2 Ep.
    replace ((B2R m + B2R p) * (1 + e2) - (mu + 10 * sg)) with ((B2R m - mu) + (B2R p - 10 * sg) + (B2R m + B2R p) * e2) by ring.
    assert (W : Rabs (B2R m + B2R p) <= Rabs mu + dm + 11 * (sg + ds) + bpow radix2 (-150)) by (apply Rabs_le; lra).
    assert (Z : Rabs ((B2R m + B2R p) * e2) <= (Rabs mu + dm + 11 * (sg + ds) + bpow radix2 (-150)) * / 16777216) by (rewrite Rabs_mult; apply Rmult_le_compat; auto using Rabs_pos).
    apply Rabs_le_inv in Z. set (z := (B2R m + B2R p) * e2) in *. clearbody z. change (bpow radix2 (-22)) with (/ 4194304).
    assert (H140 : 4 * bpow radix2 (-150) <= bpow radix2 (-140)) by (change 4 with (bpow radix2 2); rewrite <- bpow_plus; apply bpow_le; lia). pose proof (bpow_ge_0 radix2 (-150)). pose proof (Rabs_pos mu).
    apply Rabs_le. lra.
  Qed.
End Threshold.

(** ** The margin in terms of the root mean square *)
Lemma margin_rms xs : small_enough xs -> (1 <= zlen xs < 2 ^ 31)%Z ->
  0 <= margin xs <= (bpow radix2 (-20) * sqrt (INR (length xs) + 3) + bpow radix2 (-17)) * sqrt (mean_square xs) + bpow radix2 (-139).
Proof.
  intros Hs Hn. pose proof (small_moderate xs Hs) as Mo. destruct (magnitude_bound xs Mo ltac:(lia)) as ((A0 & _) & MA). destruct (variance_nonneg xs Mo ltac:(lia)) as (V0 & VQ).
  pose proof (square_magnitude xs ltac:(lia)) as SQ. assert (Q0 : 0 <= mean_square xs) by lra.
  assert (N1 : INR (length xs) <= bpow radix2 31) by (apply count_R; unfold zlen in Hn; lia). assert (N0 : 0 <= INR (length xs)) by apply pos_INR. change (bpow radix2 31) with 2147483648 in N1.
  set (q := sqrt (mean_square xs)). assert (q0 : 0 <= q) by apply sqrt_pos.
  assert (AQ : magnitude xs <= q). { rewrite <- (sqrt_square (magnitude xs)) by exact A0. apply sqrt_le_1_alt. exact SQ. }
  assert (SV : 0 <= sqrt (variance xs) <= q) by (split; [apply sqrt_pos|apply sqrt_le_1_alt; exact VQ]).
  set (n := INR (length xs)) in *. set (w := sqrt (n + 3)). assert (W : w * w = n + 3) by (apply sqrt_sqrt; lra). assert (w0 : 0 <= w) by apply sqrt_pos.
  assert (WB : w <= 65536). { rewrite <- (sqrt_square 65536) by lra. apply sqrt_le_1_alt. lra. }
  assert (SB : 0 <= sqrt (slack 3 n (mean_square xs)) <= bpow radix2 (-25) * w * q + bpow radix2 (-450)).
  { split; [apply sqrt_pos|]. assert (P : 0 <= bpow radix2 (-25) * w * q) by (repeat apply Rmult_le_pos; auto using bpow_ge_0). pose proof (bpow_ge_0 radix2 (-450)) as P'.
    rewrite <- (sqrt_square (bpow radix2 (-25) * w * q + bpow radix2 (-450))) by lra. apply sqrt_le_1_alt. unfold slack.
    assert (qq : q * q = mean_square xs) by (apply sqrt_sqrt; exact Q0). rewrite <- qq, <- W. change (-50)%Z with (-25 + -25)%Z. change (-900)%Z with (-450 + -450)%Z. rewrite !bpow_plus. nra. }
  unfold margin, mean_error, stddev_error. cbv zeta. fold n. set (sb := sqrt (slack 3 n (mean_square xs))) in *. set (sg := sqrt (variance xs)) in *. set (a := magnitude xs) in *.
  assert (T1 : 1000 * bpow radix2 (-450) <= bpow radix2 (-141)) by (apply Rle_trans with (bpow radix2 10 * bpow radix2 (-450)); [apply Rmult_le_compat_r; [apply bpow_ge_0|change (bpow radix2 10) with 1024; lra]|rewrite <- bpow_plus; apply bpow_le; lia]).
  assert (T2 : 128 * bpow radix2 (-149) <= bpow radix2 (-141)) by (change 128 with (bpow radix2 7); rewrite <- bpow_plus; apply bpow_le; lia).
  assert (T3 : 4 * bpow radix2 (-141) <= bpow radix2 (-139)) by (change 4 with (bpow radix2 2); rewrite <- bpow_plus; apply bpow_le; lia).
  assert (T4 : 2 * bpow radix2 (-140) = bpow radix2 (-139)) by (change 2 with (bpow radix2 1); rewrite <- bpow_plus; reflexivity).
  assert (T5 : 2 * bpow radix2 (-141) = bpow radix2 (-140)) by (change 2 with (bpow radix2 1); rewrite <- bpow_plus; reflexivity).
  pose proof (bpow_ge_0 radix2 (-149)). pose proof (bpow_ge_0 radix2 (-450)). pose proof (bpow_ge_0 radix2 (-140)). pose proof (Rabs_pos (rmean xs)).
  set (mu := Rabs (rmean xs)) in *. change (bpow radix2 (-24)) with (/ 16777216). change (bpow radix2 (-23)) with (/ 8388608). change (bpow radix2 (-22)) with (/ 4194304).
  change (bpow radix2 (-51)) with (/ IZR 2251799813685248). change (bpow radix2 (-20)) with (/ 1048576). change (bpow radix2 (-17)) with (/ 131072). change (bpow radix2 (-25)) with (/ 33554432) in SB.
  set (wq := w * q). assert (wq0 : 0 <= wq) by (apply Rmult_le_pos; assumption). replace (/ 33554432 * w * q) with (/ 33554432 * wq) in SB by (unfold wq; ring).
  replace ((/ 1048576 * w + / 131072) * q) with (/ 1048576 * wq + / 131072 * q) by (unfold wq; ring).
  assert (NA : 0 <= (n + 1) * / IZR 2251799813685248 * a <= / 33554432 * wq).
  { assert (P : 0 <= (n + 1) * a <= 65536 * wq). { split; [apply Rmult_le_pos; lra|]. apply Rle_trans with ((n + 3) * q); [apply Rmult_le_compat; lra|]. rewrite <- W. unfold wq. rewrite Rmult_assoc. apply Rmult_le_compat_r; [exact wq0|exact WB]. }
    replace ((n + 1) * / IZR 2251799813685248 * a) with (/ IZR 2251799813685248 * ((n + 1) * a)) by ring. lra. }
  set (na := (n + 1) * / IZR 2251799813685248 * a) in *. clearbody na sb sg mu wq. clear - NA SB SV MA AQ T1 T2 T3 T4 T5 H H0 H1 H2 q0 wq0. lra.
Qed.

(** ** No sample is further from the mean than sqrt(n - 1) deviations *)
Definition deviations (c : R) (l : list R) : R := rsum (map (fun x => (x - c) * (x - c)) l).
Lemma dev_sums c l : deviations c l = rsum (map (fun x => x * x) l) - 2 * c * rsum l + INR (length l) * (c * c).
Proof. unfold deviations. induction l as [|x l IH]; [unfold rsum; cbn; lra|]. cbn [map length]. rewrite !rsum_cons, IH, S_INR. ring. Qed.
Lemma centred_sum c l : rsum (map (fun x => x - c) l) = rsum l - INR (length l) * c.
Proof. induction l as [|x l IH]; [unfold rsum; cbn; lra|]. cbn [map length]. rewrite !rsum_cons, IH, S_INR. ring. Qed.
Lemma cauchy_sum l : rsum l * rsum l <= INR (length l) * rsum (map (fun x => x * x) l).
Proof.
  induction l as [|x l IH]; [unfold rsum; cbn; lra|]. cbn [map length]. rewrite !rsum_cons, S_INR. set (s := rsum l) in *. set (q := rsum (map (fun x => x * x) l)) in *. set (n := INR (length l)) in *.
  assert (N : 0 <= n) by apply pos_INR. assert (Q : 0 <= q). { unfold q. clear. induction l as [|y l IH]; [unfold rsum; cbn; lra|]. cbn [map]. rewrite rsum_cons. nra. }
  destruct (Req_dec n 0) as [Z|Z].
  - assert (L : length l = 0%nat) by (apply INR_eq; exact Z). destruct l; [|discriminate]. unfold s, q, rsum in *. cbn in *. nra.
  - assert (0 < n) by lra. assert (K : 2 * (x * s) * n <= (n * (x * x) + q) * n).
    { assert (0 <= (n * x - s) * (n * x - s)) by apply Rle_0_sqr. nra. }
    apply Rmult_le_reg_r in K; [|lra]. nra.
Qed.
Lemma furthest (xs : list f32) x : In x xs -> (B2R x - rmean xs) * (B2R x - rmean xs) <= (INR (length xs) - 1) * variance xs.
Proof.
  intros Hi. apply in_split in Hi as (l1 & l2 & ->). assert (P : Permutation (l1 ++ x :: l2) (x :: l1 ++ l2)) by (symmetry; apply Permutation_middle).
  destruct (stats_perm _ _ P) as (A & _ & C & D & E). rewrite A, D, E. clear A C D E P. set (ys := l1 ++ l2). clearbody ys. clear l1 l2.
  unfold variance, mean_square, rmean, vals. cbn [map length]. rewrite !rsum_cons, S_INR. set (v := B2R x). set (l := map B2R ys). set (n := INR (length ys)). assert (N : 0 <= n) by apply pos_INR.
  set (c := (v + rsum l) / (n + 1)). pose proof (cauchy_sum (map (fun y => y - c) l)) as K. rewrite map_length, map_map, centred_sum in K. fold (deviations c l) in K. rewrite dev_sums in K.
  replace (INR (length l)) with n in K by (unfold n, l; now rewrite map_length). set (s := rsum l) in *. set (q := rsum (map (fun y => y * y) l)) in *.
  assert (Ec : c * (n + 1) = v + s) by (unfold c, Rdiv; rewrite Rmult_assoc, Rinv_l by lra; ring).
  replace (n + 1 - 1) with n by ring. replace ((v * v + q) / (n + 1) - c * c) with ((v * v + q - (n + 1) * (c * c)) / (n + 1)) by (field; lra).
  apply Rmult_le_reg_r with (n + 1); [lra|]. replace (n * ((v * v + q - (n + 1) * (c * c)) / (n + 1)) * (n + 1)) with (n * (v * v + q - (n + 1) * (c * c))) by (field; lra).
  assert (S : s = c * (n + 1) - v) by lra. rewrite S in K. clearbody c q n v. clear Ec S. nra.
Qed.
