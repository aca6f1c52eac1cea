(** C94: how accurate the fields of a hit are. *)
From Verif Require Import FsumFacts FsumModel FsumProofs.
From Verif Require Import DriftAgree PipeModel DriftSearchProofs DriftProofs CcSpec HitModel PropDrift PropCc PropHit PropPipe CudaOffsetProofs FloatErr.
From Verif Require Import DriftFloatProofs SensProofs AccProofs.
From Coq Require Import ZifyBool ZifyNat Lia Reals Lra Psatz.
From Flocq Require Import Core BinarySingleNaN.
Local Open Scope Z_scope.

(** ** What is expected *)
(** A double of ordinary magnitude that is not zero. *)
Definition ordinary (x : f64) : Prop := is_finite x = true /\ (bpow radix2 (-60) <= Rabs (B2R x) <= bpow radix2 60)%R.
(** [x] is [v] up to a relative error [e]. *)
Definition within (e : R) (x v : R) : Prop := (Rabs (x - v) <= e * Rabs v)%R.
(** Drift rate in Hz/s of a line that moves [s] channels during the T - 1 intervals of the observation. *)
Definition exact_rate (foff tsamp : R) (T s : Z) : R := (IZR s * foff * 1000000 / (IZR (T - 1) * tsamp))%R.

(** ** Facts *)
Lemma ordinary_scaled x : ordinary x -> is_finite x = true /\ scaled (-60) 60 (B2R x) /\ B2R x <> 0%R.
Proof. intros (F & B). split; [exact F|]. split; [now right|]. intros E. rewrite E, Rabs_R0 in B. pose proof (bpow_gt_0 radix2 (-60)). lra. Qed.
Lemma slope_scaled T s : 2 <= T <= 2 ^ 24 -> Z.abs s < 2 ^ 22 -> scaled (-25) 23 (mR T s) /\ (Rabs (mR T s - IZR s / IZR (T - 1)) <= bpow radix2 (-24) * Rabs (IZR s / IZR (T - 1)))%R.
Proof.
  intros HT Hs. pose proof (mR_error T s HT) as E. split; [|exact E]. pose proof (q_abs T s HT Hs) as Q. set (v := (IZR s / IZR (T - 1))%R) in *.
  destruct (Z.eq_dec s 0) as [->|N].
  - left. assert (V : v = 0%R) by (unfold v, Rdiv; ring). rewrite V, Rabs_R0, Rmult_0_r in E. rewrite Rminus_0_r in E. pose proof (Rabs_pos (mR T 0)). destruct (Req_dec (mR T 0) 0) as [Z|Z]; [exact Z|]. apply Rabs_pos_lt in Z. lra.
  - right. assert (V : (bpow radix2 (-24) <= Rabs v)%R).
    { unfold v, Rdiv. rewrite Rabs_mult, <- abs_IZR, Rabs_inv. rewrite (Rabs_pos_eq (IZR (T - 1))) by (apply IZR_le; lia). assert (A : (1 <= IZR (Z.abs s))%R) by (apply IZR_le; lia).
      assert (B : (/ IZR 16777216 <= / IZR (T - 1))%R) by (apply Rinv_le; [apply IZR_lt; lia|apply IZR_le; lia]). change (bpow radix2 (-24)) with (/ IZR 16777216)%R. assert (0 < / IZR 16777216)%R by lra. nra. }
    change (bpow radix2 (-24)) with (/ IZR 16777216)%R in *. change (bpow radix2 (-25)) with (/ IZR 33554432)%R. change (bpow radix2 22) with (IZR 4194304) in Q. change (bpow radix2 23) with (IZR 8388608).
    assert (A1 : (Rabs (mR T s) <= Rabs (mR T s - v) + Rabs v)%R) by (replace (mR T s) with ((mR T s - v) + v)%R at 1 by ring; apply Rabs_triang).
    assert (A2 : (Rabs v <= Rabs (mR T s - v) + Rabs (mR T s))%R). { replace v with (- (mR T s - v) + mR T s)%R at 1 by ring. eapply Rle_trans; [apply Rabs_triang|]. rewrite Rabs_Ropp. lra. }
    split; lra.
Qed.
Lemma rate_close foff tsamp T s : 2 <= T <= 2 ^ 24 -> Z.abs s < 2 ^ 22 -> ordinary foff -> ordinary tsamp ->
  is_finite (line_hz foff tsamp T s) = true /\ (Rabs (B2R (line_hz foff tsamp T s) - exact_rate (B2R foff) (B2R tsamp) T s) <= (bpow radix2 (-24) + 5 * eps) * Rabs (exact_rate (B2R foff) (B2R tsamp) T s))%R.
Proof.
  intros HT Hs Hf Ht. destruct (ordinary_scaled _ Hf) as (Ff & Sf & Nf). destruct (ordinary_scaled _ Ht) as (Ft & St & Nt). destruct (slope_scaled T s HT Hs) as (Sm & Em).
  destruct (slope_value T s HT Hs) as (Vs & Fs). destruct (widen_ok (slope T s) Fs) as (Vw & Fw). rewrite <- Vs, <- Vw in Sm, Em.
  unfold line_hz. set (m := widen (slope T s)) in *.
  destruct (mul_rel m foff (-25) 23 (-60) 60 Fw Ff Sm Sf ltac:(lia) ltac:(lia)) as (F1 & (e1 & E1 & V1) & S1).
  destruct (scaled_int 1000000 ltac:(lia)) as (Fk & Vk & Sk). rewrite <- Vk in Sk.
  destruct (mul_rel (mul64 m foff) (f64_of_Z 1000000) _ _ _ _ F1 Fk S1 Sk ltac:(lia) ltac:(lia)) as (F2 & (e2 & E2 & V2) & S2).
  destruct (div_rel _ tsamp _ _ _ _ F2 Ft Nt S2 St ltac:(lia) ltac:(lia)) as (F3 & (e3 & E3 & V3) & _). split; [exact F3|].
  set (v := (IZR s / IZR (T - 1))%R) in *. set (k := (B2R foff * 1000000 / B2R tsamp)%R).
  assert (T1 : (1 <= IZR (T - 1))%R) by (apply IZR_le; lia).
  assert (Ex : exact_rate (B2R foff) (B2R tsamp) T s = (v * k)%R) by (unfold exact_rate, v, k; field; lra). rewrite Ex.
  apply (rel_total _ (B2R m * k)%R _ ((1 + e1) * (1 + e2) * (1 + e3) - 1)%R).
  - replace (B2R m * k - v * k)%R with ((B2R m - v) * k)%R by ring. rewrite !Rabs_mult, <- Rmult_assoc. apply Rmult_le_compat_r; [apply Rabs_pos|exact Em].
  - rewrite V3, V2, V1, Vk. unfold k. field. exact Nt.
  - now apply three.
  - change (bpow radix2 (-24)) with (/ IZR 16777216)%R. lra.
Qed.
Lemma rate_margin : (bpow radix2 (-24) + 5 * eps <= bpow radix2 (-23))%R.
Proof. rewrite eps_val. change (bpow radix2 (-24)) with (/ IZR 16777216)%R. change (bpow radix2 (-23)) with (/ IZR 8388608)%R. lra. Qed.

(** ** Drift rates *)
Theorem C94_drift_rate : forall foff tsamp T s, 2 <= T <= 2 ^ 24 -> Z.abs s < 2 ^ 22 -> ordinary foff -> ordinary tsamp ->
  is_finite (line_hz foff tsamp T s) = true /\ within (bpow radix2 (-23)) (B2R (line_hz foff tsamp T s)) (exact_rate (B2R foff) (B2R tsamp) T s).
Proof.
  intros foff tsamp T s HT Hs Hf Ht. destruct (rate_close foff tsamp T s HT Hs Hf Ht) as (F & B). split; [exact F|]. eapply Rle_trans; [exact B|]. apply Rmult_le_compat_r; [apply Rabs_pos|exact rate_margin].
Qed.
Print Assumptions C94_drift_rate.
(** Lines of different spans have different rates, in the order of the spans. *)
Theorem C94_drift_order : forall foff tsamp T s s', 2 <= T <= 2 ^ 24 -> Z.abs s < 2 ^ 22 -> Z.abs s' < 2 ^ 22 -> ordinary foff -> ordinary tsamp -> s < s' ->
  let rate x := B2R (line_hz foff tsamp T x) in
  ((0 < B2R foff * B2R tsamp -> rate s < rate s') /\ (B2R foff * B2R tsamp < 0 -> rate s' < rate s))%R.
Proof.
  intros foff tsamp T s s' HT Hs Hs' Hf Ht Hlt rate. destruct (C94_drift_rate foff tsamp T s HT Hs Hf Ht) as (_ & B). destruct (C94_drift_rate foff tsamp T s' HT Hs' Hf Ht) as (_ & B').
  destruct (ordinary_scaled _ Ht) as (_ & _ & Nt). destruct (ordinary_scaled _ Hf) as (_ & _ & Nf). unfold within in *. fold (rate s) in B. fold (rate s') in B'. clearbody rate.
  assert (T1 : (1 <= IZR (T - 1))%R) by (apply IZR_le; lia). set (k := (B2R foff * 1000000 / (IZR (T - 1) * B2R tsamp))%R).
  assert (Ex : forall x, exact_rate (B2R foff) (B2R tsamp) T x = (IZR x * k)%R) by (intros x; unfold exact_rate, k; field; lra). rewrite Ex in B, B'.
  rewrite Rabs_mult, <- abs_IZR in B, B'. assert (A : (IZR (Z.abs s) <= 4194303)%R) by (apply IZR_le; lia). assert (A' : (IZR (Z.abs s') <= 4194303)%R) by (apply IZR_le; lia).
  assert (G : (IZR s + 1 <= IZR s')%R) by (rewrite <- plus_IZR; apply IZR_le; lia). change (bpow radix2 (-23)) with (/ IZR 8388608)%R in *.
  assert (Bd : forall z x, (Rabs (x - IZR z * k) <= / IZR 8388608 * (IZR (Z.abs z) * Rabs k) -> IZR (Z.abs z) <= 4194303 -> Rabs (x - IZR z * k) <= 4194303 / 8388608 * Rabs k)%R).
  { intros z x H Hz. eapply Rle_trans; [exact H|]. assert (IZR (Z.abs z) * Rabs k <= 4194303 * Rabs k)%R by (apply Rmult_le_compat_r; [apply Rabs_pos|exact Hz]). lra. }
  apply Bd in B; [|exact A]. apply Bd in B'; [|exact A']. apply Rabs_le_inv in B. apply Rabs_le_inv in B'.
  assert (K : (k = B2R foff * B2R tsamp * (1000000 * / (IZR (T - 1) * (B2R tsamp * B2R tsamp))))%R) by (unfold k; field; lra).
  assert (P : (0 < 1000000 * / (IZR (T - 1) * (B2R tsamp * B2R tsamp)))%R) by (apply Rmult_lt_0_compat; [lra|apply Rinv_0_lt_compat; apply Rmult_lt_0_compat; [lra|nra]]).
  split; intros H.
  - assert (K0 : (0 < k)%R) by (rewrite K; apply Rmult_lt_0_compat; assumption). rewrite (Rabs_pos_eq k) in B, B' by lra. nra.
  - assert (K0 : (k < 0)%R) by (rewrite K; nra). rewrite (Rabs_left k) in B, B' by exact K0. nra.
Qed.
Print Assumptions C94_drift_order.

(** ** Frequencies *)
(** Frequency of a channel as a hit reports it. *)
Definition channel_freq (fch1 foff : f64) (k : Z) : f64 := add64 fch1 (mul64 foff (f64_of_Z k)).
Theorem C94_frequency : forall fch1 foff k, ordinary foff -> is_finite fch1 = true -> (Rabs (B2R fch1) <= bpow radix2 60)%R -> 0 <= k <= 2 ^ 53 ->
  is_finite (channel_freq fch1 foff k) = true /\
  (Rabs (B2R (channel_freq fch1 foff k) - (B2R fch1 + B2R foff * IZR k)) <= bpow radix2 (-51) * (Rabs (B2R fch1) + Rabs (B2R foff) * IZR k))%R.
Proof.
  intros fch1 foff k Hf F1 B1 Hk. destruct (ordinary_scaled _ Hf) as (Ff & Sf & _). destruct (scaled_int k ltac:(lia)) as (Fk & Vk & Sk). rewrite <- Vk in Sk.
  destruct (mul_rel foff (f64_of_Z k) _ _ _ _ Ff Fk Sf Sk ltac:(lia) ltac:(lia)) as (Fp & (e & He & Vp) & Sp). rewrite Vk in Vp. unfold channel_freq. set (p := mul64 foff (f64_of_Z k)) in *.
  assert (Bs : (Rabs (B2R fch1 + B2R p) <= bpow radix2 200)%R).
  { eapply Rle_trans; [apply Rabs_triang|]. pose proof (scaled_max _ _ _ 199 Sp ltac:(lia)) as Sp'. change 200 with (199 + 1). rewrite bpow_plus_1. change (IZR radix2) with 2%R. assert (bpow radix2 60 <= bpow radix2 199)%R by (apply bpow_le; lia). lra. }
  destruct (add64_ok fch1 p F1 Fp 200 ltac:(lia) Bs) as (Fs & Vs). split; [exact Fs|]. rewrite Vs.
  destruct (plus_rounds 53 1024 prec53 (B2R fch1) (B2R p)) as (d & Hd & Ed); [apply generic_format_B2R|apply generic_format_B2R|]. change (round radix2 (SpecFloat.fexp 53 1024) ZnearestE (B2R fch1 + B2R p)) with (rd64 (B2R fch1 + B2R p)) in Ed. rewrite Ed.
  assert (Hd' : (Rabs d <= / 2 * eps)%R) by (eapply Rle_trans; [exact Hd|]; rewrite unit64; unfold u64; rewrite eps_val; change (bpow radix2 (-53)) with (/ IZR 9007199254740992)%R; lra). pose proof eps_range as (P1 & P2). rewrite Vp.
  set (a := B2R fch1) in *. set (b := (B2R foff * IZR k)%R). assert (Eb : (Rabs (B2R foff) * IZR k = Rabs b)%R) by (unfold b; rewrite Rabs_mult, (Rabs_pos_eq (IZR k)) by (apply IZR_le; lia); reflexivity). rewrite Eb.
  replace ((a + b * (1 + e)) * (1 + d) - (a + b))%R with (b * e + (a + b * (1 + e)) * d)%R by ring. eapply Rle_trans; [apply Rabs_triang|]. rewrite !Rabs_mult.
  assert (Q : (Rabs (a + b * (1 + e)) <= Rabs a + Rabs b * (1 + eps))%R). { eapply Rle_trans; [apply Rabs_triang|]. rewrite Rabs_mult. apply Rplus_le_compat_l. apply Rmult_le_compat_l; [apply Rabs_pos|]. eapply Rle_trans; [apply Rabs_triang|]. rewrite Rabs_R1. lra. }
  replace (bpow radix2 (-51)) with (2 * eps)%R by (unfold eps; change (-51) with (-52 + 1); rewrite bpow_plus_1; reflexivity).
  pose proof (Rabs_pos a). pose proof (Rabs_pos b). pose proof (Rabs_pos e). pose proof (Rabs_pos d).
  assert (Rabs b * Rabs e <= Rabs b * eps)%R by (apply Rmult_le_compat_l; lra). assert (Rabs (a + b * (1 + e)) * Rabs d <= (Rabs a + Rabs b * (1 + eps)) * (/ 2 * eps))%R by (apply Rmult_le_compat; try apply Rabs_pos; lra).
  assert (0 <= Rabs b * eps)%R by (apply Rmult_le_pos; lra). nra.
Qed.
Print Assumptions C94_frequency.
(** Where the band is not more than 2^48 channels away from zero frequency, channels have different frequencies in their order, each within an
    eighth of a channel of the exact one, ... *)
Definition resolves (fch1 foff : f64) (N : Z) : Prop := (Rabs (B2R fch1) + Rabs (B2R foff) * IZR N <= bpow radix2 48 * Rabs (B2R foff))%R.
Lemma resolved fch1 foff N k : ordinary foff -> is_finite fch1 = true -> (Rabs (B2R fch1) <= bpow radix2 60)%R -> 0 <= k < N -> resolves fch1 foff N -> N <= 2 ^ 53 ->
  (Rabs (B2R (channel_freq fch1 foff k) - (B2R fch1 + B2R foff * IZR k)) <= / 8 * Rabs (B2R foff))%R.
Proof.
  intros Hf F1 B1 Hk Hr HN. destruct (C94_frequency fch1 foff k Hf F1 B1 ltac:(lia)) as (_ & B). eapply Rle_trans; [exact B|]. unfold resolves in Hr. assert (IZR k <= IZR N)%R by (apply IZR_le; lia). pose proof (Rabs_pos (B2R foff)) as P.
  change (bpow radix2 48) with (IZR 281474976710656) in Hr. change (bpow radix2 (-51)) with (/ IZR 2251799813685248)%R. assert (Rabs (B2R foff) * IZR k <= Rabs (B2R foff) * IZR N)%R by (apply Rmult_le_compat_l; lra). lra.
Qed.
Theorem C94_frequency_order : forall fch1 foff N k k', ordinary foff -> is_finite fch1 = true -> (Rabs (B2R fch1) <= bpow radix2 60)%R -> resolves fch1 foff N -> N <= 2 ^ 53 -> 0 <= k < k' -> k' < N ->
  let freq x := B2R (channel_freq fch1 foff x) in (Rabs (freq k - (B2R fch1 + B2R foff * IZR k)) <= / 8 * Rabs (B2R foff) /\ (0 < B2R foff -> freq k < freq k') /\ (B2R foff < 0 -> freq k' < freq k))%R.
Proof.
  intros fch1 foff N k k' Hf F1 B1 Hr HN Hk Hk' freq. pose proof (resolved fch1 foff N k Hf F1 B1 ltac:(lia) Hr HN) as A. pose proof (resolved fch1 foff N k' Hf F1 B1 ltac:(lia) Hr HN) as A'. fold (freq k) in A. fold (freq k') in A'. clearbody freq.
  split; [exact A|]. assert (G : (IZR k + 1 <= IZR k')%R) by (rewrite <- plus_IZR; apply IZR_le; lia). apply Rabs_le_inv in A. apply Rabs_le_inv in A'.
  split; intros H; [rewrite (Rabs_pos_eq (B2R foff)) in A, A' by lra|rewrite (Rabs_left (B2R foff)) in A, A' by exact H]; nra.
Qed.
Print Assumptions C94_frequency_order.
(** ... and the frequency, in MHz, which frequency and drift rate give for the last spectrum is that of the channel [s] further within five
    eighths of a channel. *)
Theorem C94_last_spectrum : forall fch1 foff tsamp T N k s, 2 <= T <= 2 ^ 24 -> Z.abs s < 2 ^ 22 -> ordinary foff -> ordinary tsamp -> is_finite fch1 = true -> (Rabs (B2R fch1) <= bpow radix2 60)%R -> resolves fch1 foff N -> N <= 2 ^ 53 -> 0 <= k < N ->
  let there := (B2R (channel_freq fch1 foff k) + B2R (line_hz foff tsamp T s) * (IZR (T - 1) * B2R tsamp) / 1000000)%R in
  (Rabs (there - (B2R fch1 + B2R foff * IZR (k + s))) <= / 8 * Rabs (B2R foff) + bpow radix2 (-23) * (Rabs (B2R foff) * IZR (Z.abs s)) /\
   Rabs (there - (B2R fch1 + B2R foff * IZR (k + s))) < 5 / 8 * Rabs (B2R foff))%R.
Proof.
  intros fch1 foff tsamp T N k s HT Hs Hf Ht F1 B1 Hr HN Hk there. pose proof (resolved fch1 foff N k Hf F1 B1 Hk Hr HN) as A. destruct (C94_drift_rate foff tsamp T s HT Hs Hf Ht) as (_ & B). unfold within in B.
  destruct (ordinary_scaled _ Ht) as (_ & _ & Nt). destruct (ordinary_scaled _ Hf) as (_ & _ & Nf). assert (T1 : (1 <= IZR (T - 1))%R) by (apply IZR_le; lia).
  set (L := (IZR (T - 1) * B2R tsamp / 1000000)%R). set (r := B2R (line_hz foff tsamp T s)) in *. set (x := exact_rate (B2R foff) (B2R tsamp) T s) in *.
  assert (X : (x * L = B2R foff * IZR s)%R) by (unfold x, exact_rate, L; field; lra).
  assert (D : (Rabs (r * L - B2R foff * IZR s) <= bpow radix2 (-23) * (Rabs (B2R foff) * IZR (Z.abs s)))%R).
  { rewrite abs_IZR, <- Rabs_mult, <- X, <- Rmult_minus_distr_r, !Rabs_mult, <- Rmult_assoc. apply Rmult_le_compat_r; [apply Rabs_pos|exact B]. }
  assert (E : (Rabs (there - (B2R fch1 + B2R foff * IZR (k + s))) <= / 8 * Rabs (B2R foff) + bpow radix2 (-23) * (Rabs (B2R foff) * IZR (Z.abs s)))%R).
  { replace (there - (B2R fch1 + B2R foff * IZR (k + s)))%R with ((B2R (channel_freq fch1 foff k) - (B2R fch1 + B2R foff * IZR k)) + (r * L - B2R foff * IZR s))%R by (unfold there, L; fold r; rewrite plus_IZR; field). eapply Rle_trans; [apply Rabs_triang|]. lra. }
  split; [exact E|]. eapply Rle_lt_trans; [exact E|]. assert (IZR (Z.abs s) <= 4194303)%R by (apply IZR_le; lia). assert (P : (0 < Rabs (B2R foff))%R) by now apply Rabs_pos_lt. change (bpow radix2 (-23)) with (/ IZR 8388608)%R.
  assert (Rabs (B2R foff) * IZR (Z.abs s) <= Rabs (B2R foff) * 4194303)%R by (apply Rmult_le_compat_l; lra). lra.
Qed.
Print Assumptions C94_last_spectrum.

(** ** All fields *)
Lemma abs64 (x : f64) : is_finite (Babs x) = is_finite x /\ B2R (Babs x) = Rabs (B2R x).
Proof. split; [apply is_finite_Babs|apply B2R_Babs]. Qed.
Lemma scaled_abs a b v : scaled a b v -> scaled a b (Rabs v).
Proof. intros [->|H]; [left; apply Rabs_R0|right; now rewrite Rabs_Rabsolu]. Qed.
Lemma two e1 e2 : (Rabs e1 <= eps -> Rabs e2 <= eps -> Rabs ((1 + e1) * (1 + e2) - 1) <= 4 * eps)%R.
Proof. intros H1 H2. replace ((1 + e1) * (1 + e2) - 1)%R with ((1 + e1) * (1 + e2) * (1 + 0) - 1)%R by ring. apply three; [exact H1|exact H2|rewrite Rabs_R0; left; apply eps_range]. Qed.
Lemma zero_slack v : (Rabs (v - v) <= 0 * Rabs v)%R. Proof. rewrite Rminus_diag_eq by reflexivity. rewrite Rabs_R0. lra. Qed.
(** Bandwidth in Hz of [n] channels, start time in seconds from [tstart] days, duration of [T] spectra. *)
Lemma bandwidth_close foff n : ordinary foff -> 0 <= n <= 2 ^ 31 -> let b := narrow (mul64 (f64_of_Z n) (Babs (mul64 (f64_of_Z 1000000) foff))) in
  is_finite b = true /\ within (bpow radix2 (-23)) (B2R b) (IZR n * (1000000 * Rabs (B2R foff))).
Proof.
  intros Hf Hn b. destruct (ordinary_scaled _ Hf) as (Ff & Sf & Nf). destruct (scaled_int 1000000 ltac:(lia)) as (Fk & Vk & Sk). destruct (scaled_int n ltac:(lia)) as (Fn & Vn & Sn). rewrite <- Vk in Sk.
  destruct (mul_rel (f64_of_Z 1000000) foff _ _ _ _ Fk Ff Sk Sf ltac:(lia) ltac:(lia)) as (F1 & (e1 & E1 & V1) & S1). destruct (abs64 (mul64 (f64_of_Z 1000000) foff)) as (Fa & Va). rewrite F1 in Fa. apply scaled_abs in S1. rewrite <- Va in S1.
  assert (Sn' : scaled 0 31 (B2R (f64_of_Z n))). { rewrite Vn. destruct Sn as [Q|(Q & _)]; [now left|right; split; [exact Q|]]. rewrite Rabs_pos_eq by (apply IZR_le; lia). change (bpow radix2 31) with (IZR (2 ^ 31)). apply IZR_le. lia. }
  destruct (mul_rel (f64_of_Z n) (Babs (mul64 (f64_of_Z 1000000) foff)) _ _ _ _ Fn Fa Sn' S1 ltac:(lia) ltac:(lia)) as (F2 & (e2 & E2 & V2) & S2).
  set (p := mul64 (f64_of_Z n) _) in *. set (v := (IZR n * (1000000 * Rabs (B2R foff)))%R).
  assert (Bp : (Rabs (B2R p - v) <= 5 * eps * Rabs v)%R).
  { replace (5 * eps)%R with (0 + 5 * eps)%R by ring. apply (rel_total v v _ ((1 + e1) * (1 + e2) - 1)%R); [apply zero_slack| |now apply two|lra]. rewrite V2, Vn, Va, V1, Vk. unfold v. rewrite !Rabs_mult, (Rabs_pos_eq 1000000) by lra.
    pose proof eps_range. apply Rabs_le_inv in E1. rewrite (Rabs_pos_eq (1 + e1)) by lra. ring. }
  assert (Sv : (Rabs v <= bpow radix2 126)%R).
  { unfold v. rewrite !Rabs_mult, Rabs_Rabsolu. replace (bpow radix2 126) with (bpow radix2 31 * (bpow radix2 20 * bpow radix2 75))%R by (rewrite <- !bpow_plus; reflexivity).
    apply Rmult_le_compat; try apply Rabs_pos; [apply Rmult_le_pos; apply Rabs_pos|rewrite Rabs_pos_eq by (apply IZR_le; lia); change (bpow radix2 31) with (IZR (2 ^ 31)); apply IZR_le; lia|].
    apply Rmult_le_compat; try apply Rabs_pos; [rewrite Rabs_pos_eq by lra; change (bpow radix2 20) with (IZR 1048576); lra|]. destruct Hf as (_ & _ & Hf). apply Rle_trans with (1 := Hf). apply bpow_le. lia. }
  pose proof eps_range as (P1 & P2). pose proof (Rabs_pos v) as Pv.
  assert (Pb : (Rabs (B2R p) <= bpow radix2 127)%R).
  { replace (B2R p) with ((B2R p - v) + v)%R by ring. eapply Rle_trans; [apply Rabs_triang|]. change 127 with (126 + 1). rewrite bpow_plus_1. change (IZR radix2) with 2%R. assert (5 * eps * Rabs v <= 1 * Rabs v)%R by (apply Rmult_le_compat_r; lra). lra. }
  destruct (narrow_range p F2 Pb) as (Fb & Vb). split; [exact Fb|]. unfold within. unfold b. rewrite Vb.
  destruct (Req_dec v 0) as [Z|Z].
  - rewrite Z, Rabs_R0, Rmult_0_r in *. rewrite Rminus_0_r in *. assert (P0 : B2R p = 0%R) by (destruct (Req_dec (B2R p) 0) as [Q|Q]; [exact Q|apply Rabs_pos_lt in Q; lra]).
    assert (R0 : rnd32 (B2R p) = 0%R) by (rewrite P0; apply round_0; apply valid_rnd_N). rewrite R0, Rabs_R0. lra.
  - pose proof (err32 (B2R p)) as E. assert (Nn : (1 <= IZR n)%R) by (apply IZR_le; destruct (Z.eq_dec n 0) as [->|]; [exfalso; apply Z; unfold v; ring|lia]).
    assert (Vl : (bpow radix2 (-60) <= Rabs v)%R). { unfold v. rewrite !Rabs_mult, Rabs_Rabsolu, (Rabs_pos_eq (IZR n)), (Rabs_pos_eq 1000000) by lra. destruct Hf as (_ & Hf & _). pose proof (bpow_gt_0 radix2 (-60)). nra. }
    assert (Hh : (bpow radix2 (-150) <= bpow radix2 (-30) * Rabs v)%R). { apply Rle_trans with (bpow radix2 (-30) * bpow radix2 (-60))%R; [rewrite <- bpow_plus; apply bpow_le; lia|]. apply Rmult_le_compat_l; [apply bpow_ge_0|exact Vl]. }
    assert (Ap : (Rabs (B2R p) <= (1 + 5 * eps) * Rabs v)%R) by (replace (B2R p) with ((B2R p - v) + v)%R by ring; eapply Rle_trans; [apply Rabs_triang|]; lra).
    replace (rnd32 (B2R p) - v)%R with ((rnd32 (B2R p) - B2R p) + (B2R p - v))%R by ring. eapply Rle_trans; [apply Rabs_triang|].
    rewrite eps_val in *. change (bpow radix2 (-24)) with (/ IZR 16777216)%R in E. change (bpow radix2 (-30)) with (/ IZR 1073741824)%R in Hh. change (bpow radix2 (-23)) with (/ IZR 8388608)%R. lra.
Qed.
Lemma start_close tstart : ordinary tstart -> let t := mul64 (mul64 (mul64 tstart (f64_of_Z 24)) (f64_of_Z 60)) (f64_of_Z 60) in is_finite t = true /\ within (bpow radix2 (-49)) (B2R t) (B2R tstart * 86400).
Proof.
  intros H t. destruct (ordinary_scaled _ H) as (F & Sx & _). destruct (scaled_int 24 ltac:(lia)) as (Fa & Va & Sa). destruct (scaled_int 60 ltac:(lia)) as (Fb & Vb & Sb). rewrite <- Va in Sa. rewrite <- Vb in Sb.
  destruct (mul_rel tstart (f64_of_Z 24) _ _ _ _ F Fa Sx Sa ltac:(lia) ltac:(lia)) as (F1 & (e1 & E1 & V1) & S1).
  destruct (mul_rel _ (f64_of_Z 60) _ _ _ _ F1 Fb S1 Sb ltac:(lia) ltac:(lia)) as (F2 & (e2 & E2 & V2) & S2).
  destruct (mul_rel _ (f64_of_Z 60) _ _ _ _ F2 Fb S2 Sb ltac:(lia) ltac:(lia)) as (F3 & (e3 & E3 & V3) & _). split; [exact F3|]. unfold within.
  apply Rle_trans with ((0 + 5 * eps) * Rabs (B2R tstart * 86400))%R.
  - apply (rel_total _ (B2R tstart * 86400)%R _ ((1 + e1) * (1 + e2) * (1 + e3) - 1)%R); [apply zero_slack| |now apply three|lra]. unfold t. rewrite V3, V2, V1, Va, Vb. ring.
  - apply Rmult_le_compat_r; [apply Rabs_pos|]. rewrite eps_val. change (bpow radix2 (-49)) with (/ IZR 562949953421312)%R. lra.
Qed.
Lemma duration_close tsamp T : ordinary tsamp -> 0 <= T <= 2 ^ 24 -> let t := mul64 tsamp (f64_of_Z T) in is_finite t = true /\ within (bpow radix2 (-52)) (B2R t) (B2R tsamp * IZR T).
Proof.
  intros H HT t. destruct (ordinary_scaled _ H) as (F & Sx & _). destruct (scaled_int T ltac:(lia)) as (Fa & Va & Sa). rewrite <- Va in Sa.
  destruct (mul_rel tsamp (f64_of_Z T) _ _ _ _ F Fa Sx Sa ltac:(lia) ltac:(lia)) as (F1 & (e1 & E1 & V1) & _). split; [exact F1|]. unfold within. unfold t. rewrite V1, Va. fold eps.
  replace (B2R tsamp * IZR T * (1 + e1) - B2R tsamp * IZR T)%R with (e1 * (B2R tsamp * IZR T))%R by ring. rewrite Rabs_mult. apply Rmult_le_compat_r; [apply Rabs_pos|exact E1].
Qed.
(** A channel with ordinary meta data. *)
Definition ordinary_info (i : channel_info) : Prop := ordinary (ci_foff i) /\ ordinary (ci_tsamp i) /\ ordinary (ci_tstart i) /\ is_finite (ci_fch1 i) = true /\ (Rabs (B2R (ci_fch1 i)) <= bpow radix2 60)%R.
Theorem C94_hit_fields : forall i o T N S M floor power comps hs, ordinary_info i -> good_grid o T N -> found i o T N S M floor power comps hs ->
  Forall2 (fun ms h => exists peak lo up, In peak ms /\ In (fst peak, lo) ms /\ In (fst peak, up) ms /\ lo <= snd peak <= up /\ h_rate h = fst peak /\ h_index h = snd peak /\
    let s := grid_span (s_low o) (s_step o) (fst peak) in let centre := (lo + up) / 2 in
    within (bpow radix2 (-23)) (B2R (h_drift h)) (exact_rate (B2R (ci_foff i)) (B2R (ci_tsamp i)) T s) /\
    (Rabs (B2R (h_freq h) - (B2R (ci_fch1 i) + B2R (ci_foff i) * IZR centre)) <= bpow radix2 (-51) * (Rabs (B2R (ci_fch1 i)) + Rabs (B2R (ci_foff i)) * IZR centre))%R /\
    within (bpow radix2 (-23)) (B2R (h_band h)) (IZR (up - lo) * (1000000 * Rabs (B2R (ci_foff i)))) /\
    within (bpow radix2 (-49)) (B2R (h_time h)) (B2R (ci_tstart i) * 86400) /\ within (bpow radix2 (-52)) (B2R (h_dur h)) (B2R (ci_tsamp i) * IZR T)) comps hs.
Proof.
  intros i o T N S M floor power comps hs (Hf & Ht & Hs & F1 & B1) Hg (Hp & Hd & _). pose proof Hg as (HT & HN & _ & _ & Hm & HDN & _). destruct Hp as (Hp & _).
  assert (Hb : Forall (fun ms => forall c, In c ms -> bin (grid_size (s_low o) (s_high o) (s_step o)) N c) comps) by (apply Forall_forall; intros ms Hi c Hc; apply (Hp ms Hi); exact Hc). clear Hp.
  induction Hd as [|ms h comps hs Hh Hd IH]; constructor; [clear IH|apply IH; now inversion Hb]. inversion Hb as [|? ? Hms _]; subst. clear Hb.
  destruct Hh as (peak & lo & up & (Hin & _) & (L1 & L2 & L3) & E1 & E2 & E3 & _ & _ & _ & _ & E4 & E5 & E6 & E7 & _). cbn [channel_meta m_rates m_foff m_fch1 m_tstart m_tsamp m_steps] in *.
  exists peak, lo, up. split; [exact Hin|]. split; [exact L1|]. split; [exact L2|]. assert (Lp : lo <= snd peak <= up) by (apply L3; auto). split; [exact Lp|]. split; [exact E2|]. split; [exact E1|]. cbv zeta.
  destruct (Hms _ L1) as (Bd & Bl). destruct (Hms _ L2) as (_ & Bu). cbn [fst snd] in Bd, Bl, Bu. set (D := grid_size (s_low o) (s_high o) (s_step o)) in *.
  assert (Nm : N < 2 ^ 31) by nia.
  assert (Ed : h_drift h = line_hz (ci_foff i) (ci_tsamp i) T (grid_span (s_low o) (s_step o) (fst peak))).
  { unfold znth in E3. replace (fst peak <? 0) with false in E3 by lia. rewrite nth_error_map, nth_error_zrange in E3 by exact Bd. cbn in E3. now injection E3 as <-. }
  split; [rewrite Ed; apply C94_drift_rate; auto|]. assert (C : 0 <= (lo + up) / 2 < N) by (split; [apply Z.div_pos; lia|apply Z.div_lt_upper_bound; lia]).
  split; [rewrite E5; apply (C94_frequency (ci_fch1 i) (ci_foff i) ((lo + up) / 2) Hf F1 B1); lia|]. split; [rewrite E4; apply bandwidth_close; [exact Hf|lia]|].
  split; [rewrite E6; now apply start_close|rewrite E7; apply duration_close; [exact Ht|lia]].
Qed.
Print Assumptions C94_hit_fields.

(** ** A case *)
Lemma ordinary_int z : z <> 0 -> Z.abs z <= 2 ^ 53 -> ordinary (f64_of_Z z).
Proof.
  intros Hz H. destruct (f64_of_Z_ok z H) as (V & F). split; [exact F|]. rewrite V, <- abs_IZR. split.
  - apply Rle_trans with (bpow radix2 0); [apply bpow_le; lia|]. change (bpow radix2 0) with 1%R. apply IZR_le. lia.
  - apply Rle_trans with (bpow radix2 53); [|apply bpow_le; lia]. change (bpow radix2 53) with (IZR (2 ^ 53)). apply IZR_le. exact H.
Qed.
(** 8 GHz, channels of -3 MHz, spectra of 18 seconds: the grid of [ex_opts] has ordinary rates, and channels are resolved. *)
Example C94_case : ordinary_info ex_info /\ good_grid ex_opts 4 12 /\ resolves (ci_fch1 ex_info) (ci_foff ex_info) 12 /\ (B2R (ci_foff ex_info) * B2R (ci_tsamp ex_info) < 0)%R /\ Z.abs 3 < 2 ^ 22 /\ Z.abs 4 < 2 ^ 22.
Proof.
  destruct (f64_of_Z_ok 8000 ltac:(lia)) as (V1 & F1). destruct (f64_of_Z_ok (-3) ltac:(lia)) as (V2 & F2). destruct (f64_of_Z_ok 18 ltac:(lia)) as (V3 & F3).
  split; [|split; [exact ex_grid|split; [|split; [|split; lia]]]].
  - split; [apply ordinary_int; lia|]. split; [apply ordinary_int; lia|]. split; [apply ordinary_int; lia|]. split; [exact F1|]. change (ci_fch1 ex_info) with (f64_of_Z 8000). rewrite V1, Rabs_pos_eq by lra. apply Rle_trans with (bpow radix2 13); [change (bpow radix2 13) with 8192%R; lra|apply bpow_le; lia].
  - unfold resolves. change (ci_fch1 ex_info) with (f64_of_Z 8000). change (ci_foff ex_info) with (f64_of_Z (-3)). rewrite V1, V2, Rabs_pos_eq, (Rabs_left (-3)) by lra. change (bpow radix2 48) with (IZR 281474976710656). lra.
  - change (ci_tsamp ex_info) with (f64_of_Z 18). change (ci_foff ex_info) with (f64_of_Z (-3)). rewrite V2, V3. lra.
Qed.
