(** C81: spectra. *)
From Verif Require Import FreqProofs NdMemFacts NdProofs2.
From Coq Require Import ZifyBool ZifyNat Lia Reals Lra.
Local Open Scope Z_scope.

(** ** The discrete Fourier transform, independently of the code *)
Definition rsum (f : Z -> R) (n : Z) : R := fold_right Rplus 0%R (map f (zrange n)).
Definition sample (xs : list R) (n : Z) : R := nth (Z.to_nat n) xs 0%R.
Definition angle (N k n : Z) : R := (2 * PI * IZR (k * n) / IZR N)%R.
(** Real and imaginary part at frequency k of N samples, and the power. *)
Definition dft_re (N : Z) xs (k : Z) : R := rsum (fun n => sample xs n * cos (angle N k n))%R N.
Definition dft_im (N : Z) xs (k : Z) : R := (- rsum (fun n => sample xs n * sin (angle N k n)) N)%R.
Definition dft_power (N : Z) xs (k : Z) : R := (dft_re N xs k * dft_re N xs k + dft_im N xs k * dft_im N xs k)%R.

Lemma rsum_ext f g n : (forall i, 0 <= i < n -> f i = g i) -> rsum f n = rsum g n.
Proof. intros H. unfold rsum. f_equal. apply map_ext_in. intros i Hi. apply H. now apply in_zrange in Hi. Qed.
Lemma rsum_opp f n : rsum (fun i => - f i)%R n = (- rsum f n)%R.
Proof. unfold rsum. induction (zrange n) as [|i is IH]; cbn; [lra|]. rewrite IH. lra. Qed.
Lemma angle_neg N k n : angle N (- k) n = (- angle N k n)%R.
Proof. unfold angle. rewrite Z.mul_opp_l, opp_IZR. unfold Rdiv. ring. Qed.
Lemma angle_mirror N k n : 0 < N -> 0 <= n -> exists i : nat, angle N (N - k) n = (- angle N k n + 2 * INR i * PI)%R.
Proof.
  intros HN Hn. exists (Z.to_nat n). unfold angle. rewrite INR_IZR_INZ, Z2Nat.id by lia. rewrite !mult_IZR, minus_IZR. field. apply IZR_neq. lia.
Qed.
Lemma dft_re_neg N xs k : dft_re N xs (- k) = dft_re N xs k.
Proof. apply rsum_ext. intros n _. now rewrite angle_neg, cos_neg. Qed.
Lemma dft_im_neg N xs k : dft_im N xs (- k) = (- dft_im N xs k)%R.
Proof. unfold dft_im. f_equal. rewrite <- rsum_opp. apply rsum_ext. intros n _. rewrite angle_neg, sin_neg. ring. Qed.
Lemma dft_power_abs N xs k : dft_power N xs (Z.abs k) = dft_power N xs k.
Proof. destruct (Z.abs_eq_or_opp k) as [E|E]; rewrite E; [reflexivity|]. unfold dft_power. rewrite dft_re_neg, dft_im_neg. ring. Qed.
Lemma dft_mirror N xs k : 0 < N -> dft_re N xs (N - k) = dft_re N xs k /\ dft_im N xs (N - k) = (- dft_im N xs k)%R.
Proof.
  intros HN. split.
  - apply rsum_ext. intros n Hn. destruct (angle_mirror N k n) as (i & ->); [lia|lia|]. now rewrite cos_period, cos_neg.
  - unfold dft_im. f_equal. rewrite <- rsum_opp. apply rsum_ext. intros n Hn. destruct (angle_mirror N k n) as (i & ->); [lia|lia|]. rewrite sin_period, sin_neg. ring.
Qed.
(** An exact real transform. *)
Definition exact_rfft (rfft : list R -> list (R * R)) : Prop := forall xs,
  rfft xs = map (fun k => (dft_re (zlen xs) xs k, dft_im (zlen xs) xs k)) (zrange (half_bins (zlen xs))).
Definition half_length {F} (rfft : list F -> list (F * F)) : Prop := forall xs, zlen (rfft xs) = half_bins (zlen xs).

Lemma exact_length rfft : exact_rfft rfft -> half_length rfft.
Proof. intros H xs. rewrite H. pose proof (zrange_length (half_bins (zlen xs))) as E. unfold zlen in *. rewrite map_length, E. unfold half_bins. lia. Qed.
Lemma exact_bin rfft xs k : exact_rfft rfft -> 0 <= k < half_bins (zlen xs) -> znth (rfft xs) k = Some (dft_re (zlen xs) xs k, dft_im (zlen xs) xs k).
Proof.
  intros H Hk. rewrite H. unfold znth. replace (k <? 0) with false by lia. rewrite nth_error_map, nth_error_zrange by exact Hk. reflexivity.
Qed.

(** ** On the CPU *)
Lemma half_odd N : 0 <= N -> half_bins N = N / 2 + 1.
Proof. intros H. unfold half_bins. now rewrite Z.quot_div_nonneg by lia. Qed.
Lemma first_ok {F} (m : mem F) N : 0 <= N <= zlen m -> first_cells m N = Ok (firstn (Z.to_nat N) m) /\ zlen (firstn (Z.to_nat N) m) = N.
Proof. intros H. unfold first_cells. replace (N <=? zlen m) with true by lia. split; [reflexivity|]. unfold zlen in *. rewrite firstn_length. lia. Qed.

Lemma alloc_1d N : alloc_elems [N] = N. Proof. unfold alloc_elems. cbn. lia. Qed.
Lemma fft_shift_unfold {F} add mul rfft slack (junk : Z -> F) l m N : l_shape l = [N] -> 0 < N < 2 ^ 31 -> N <= zlen m ->
  fft_shift_cpu add mul rfft slack junk Float32 l m =
    let! mo := put_bins add mul (dc_index N) (rfft (firstn (Z.to_nat N) m)) (map junk (zrange (N + slack))) (zrange (half_bins N)) in Ok (dense [N], mo).
Proof.
  intros Hl HN Hm. unfold fft_shift_cpu. rewrite Hl. change (zget [N] 0) with (Ok N). cbn [obind].
  assert (E : to_int32 N = N) by (unfold to_int32; rewrite Z.mod_small; lia). rewrite E. replace (N <=? 0) with false by lia.
  destruct (first_ok m N) as (-> & _); [lia|]. cbn [obind]. now rewrite alloc_1d.
Qed.

(** C81: with room for one more float behind an even-length result, the shifted spectrum: position j holds the power of the bin |j - N/2|, for
    any arithmetic and any transform.  The offset and strides of the argument do not matter: its first N cells are transformed. *)
Theorem C81_cpu_shift : forall F (add mul : F -> F -> F) rfft slack (junk : Z -> F) l (m : mem F) N,
  half_length rfft -> l_shape l = [N] -> 0 < N < 2 ^ 31 -> N <= zlen m -> dc_index N = N / 2 -> 1 - N mod 2 <= slack ->
  exists out, fft_shift_cpu add mul rfft slack junk Float32 l m = Ok (dense [N], out) /\ zlen out = N + slack /\
    forall j, 0 <= j < N -> znth out j = option_map (mag2 add mul) (znth (rfft (firstn (Z.to_nat N) m)) (Z.abs (j - N / 2))).
Proof.
  intros F add mul rfft slack junk l m N Hr Hl HN Hm Hdc Hs. rewrite (fft_shift_unfold _ _ _ _ _ l m N) by auto.
  destruct (first_ok m N) as (_ & Lx); [lia|]. set (xs := firstn (Z.to_nat N) m) in *.
  assert (Lb : zlen (rfft xs) = N / 2 + 1) by (rewrite Hr, Lx; apply half_odd; lia).
  assert (Lj : zlen (map junk (zrange (N + slack))) = N + slack).
  { pose proof (zrange_length (N + slack)) as E. unfold zlen in *. rewrite map_length, E. lia. }
  rewrite (half_odd N) by lia. rewrite Hdc.
  destruct (put_bins_ok add mul (N / 2) (rfft xs) (N / 2 + 1) (map junk (zrange (N + slack)))) as (out & E & L & V).
  - lia.
  - intros j Hj. rewrite Lj. lia.
  - exists out. rewrite E. cbn [obind]. split; [reflexivity|]. split; [lia|]. intros j Hj. rewrite V. replace (Z.abs (j - N / 2) <? N / 2 + 1) with true by lia. reflexivity.
Qed.
Print Assumptions C81_cpu_shift.

(** C81: the language gives no such room: a call is defined exactly for the odd lengths whose centre is computed exactly, as it is up to 2^24 + 1. *)
Theorem C81_cpu_defined : forall F (add mul : F -> F -> F) rfft (junk : Z -> F) l (m : mem F) N,
  half_length rfft -> l_shape l = [N] -> 0 < N < 2 ^ 31 -> N <= zlen m ->
  ((exists r, fft_shift_cpu add mul rfft 0 junk Float32 l m = Ok r) <-> N mod 2 = 1 /\ dc_index N = N / 2) /\
  ((N mod 2 = 0 \/ dc_index N <> N / 2) -> fft_shift_cpu add mul rfft 0 junk Float32 l m = UB) /\
  (N <= 2 ^ 24 + 1 -> dc_index N = N / 2).
Proof.
  intros F add mul rfft junk l m N Hr Hl HN Hm.
  assert (HU : (N mod 2 = 0 \/ dc_index N <> N / 2) -> fft_shift_cpu add mul rfft 0 junk Float32 l m = UB).
  { intros Hbad. rewrite (fft_shift_unfold _ _ _ _ _ l m N) by auto. rewrite (half_odd N) by lia.
    destruct (first_ok m N) as (_ & Lx); [lia|]. rewrite put_bins_ub; [reflexivity| |].
    - intros i Hi. apply in_zrange in Hi. rewrite Hr, Lx, half_odd by lia. exact Hi.
    - exists (N / 2). split; [apply in_zrange; lia|].
      assert (Lj : zlen (map junk (zrange (N + 0))) = N). { pose proof (zrange_length (N + 0)) as E. unfold zlen in *. rewrite map_length, E. lia. }
      rewrite Lj. intros (H1 & H2). destruct (Z.eq_dec (N / 2) 0) as [E0|E0]; [lia|]. specialize (H2 E0). lia. }
  split; [split|split; [exact HU|intros; apply dc_small; lia]].
  - intros (r & Er). destruct (Z.eq_dec (N mod 2) 0) as [E|E]; [rewrite HU in Er by auto; discriminate|].
    destruct (Z.eq_dec (dc_index N) (N / 2)) as [E2|E2]; [split; [lia|exact E2]|rewrite HU in Er by auto; discriminate].
  - intros (H1 & H2). destruct (C81_cpu_shift F add mul rfft 0 junk l m N) as (out & -> & _); auto; [lia|eauto].
Qed.
Print Assumptions C81_cpu_defined.

(** C81: in exact arithmetic the result is the power spectrum of the samples, lowest frequency first. *)
Theorem C81_cpu_spectrum : forall rfft slack junk l (m : mem R) N,
  exact_rfft rfft -> l_shape l = [N] -> 0 < N < 2 ^ 31 -> N <= zlen m -> dc_index N = N / 2 -> 1 - N mod 2 <= slack ->
  exists out, fft_shift_cpu Rplus Rmult rfft slack junk Float32 l m = Ok (dense [N], out) /\
    forall j, 0 <= j < N -> elt out (dense [N]) [j] = Some (dft_power N (firstn (Z.to_nat N) m) (j - N / 2)).
Proof.
  intros rfft slack junk l m N Hr Hl HN Hm Hdc Hs. destruct (C81_cpu_shift R Rplus Rmult rfft slack junk l m N) as (out & E & _ & V); auto using exact_length.
  destruct (first_ok m N) as (_ & Lx); [lia|].
  exists out. split; [exact E|]. intros j Hj. unfold elt. replace (cell (dense [N]) [j]) with j by (cbn; unfold cell; cbn; lia). rewrite V by exact Hj.
  rewrite (exact_bin rfft) by (auto; rewrite Lx, half_odd by lia; lia). rewrite Lx. cbn [option_map]. f_equal.
  rewrite <- dft_power_abs. reflexivity.
Qed.
Print Assumptions C81_cpu_spectrum.

(** Three samples on the CPU, exactly: the centre is their squared sum. *)
Example C81_cpu_case : exists rfft, exact_rfft rfft /\ half_length rfft /\ dc_index 3 = 3 / 2 /\
  forall junk, exists out, fft_shift_cpu Rplus Rmult rfft 0 junk Float32 (dense [3]) [1; 2; 4]%R = Ok (dense [3], out) /\ elt out (dense [3]) [1] = Some 49%R.
Proof.
  exists (fun xs => map (fun k => (dft_re (zlen xs) xs k, dft_im (zlen xs) xs k)) (zrange (half_bins (zlen xs)))).
  assert (He : exact_rfft (fun xs => map (fun k => (dft_re (zlen xs) xs k, dft_im (zlen xs) xs k)) (zrange (half_bins (zlen xs))))) by (intros xs; reflexivity).
  split; [exact He|]. split; [now apply exact_length|]. split; [reflexivity|]. intros junk.
  destruct (C81_cpu_spectrum _ 0 junk (dense [3]) [1; 2; 4]%R 3 He) as (out & E & V); try reflexivity; try (unfold zlen; cbn; lia).
  exists out. split; [exact E|]. rewrite V by lia. f_equal. change (1 - 3 / 2) with 0. unfold dft_power, dft_re, dft_im, rsum, angle, sample.
  change (zrange 3) with [0; 1; 2]. cbn [map fold_right firstn Z.to_nat Pos.to_nat Pos.iter_op Nat.add nth].
  rewrite !Z.mul_0_l. replace (2 * PI * 0 / 3)%R with 0%R by lra. rewrite cos_0, sin_0. change (Z.to_nat 0) with 0%nat. change (Z.to_nat 1) with 1%nat. change (Z.to_nat 2) with 2%nat. change (Z.to_nat 3) with 3%nat. cbn [firstn nth]. lra.
Qed.

(** C81: every even length writes one float past the end of the result. *)
Theorem C81_even_length_refuted : forall F (add mul : F -> F -> F) rfft (junk : Z -> F) l (m : mem F) N,
  half_length rfft -> l_shape l = [N] -> 0 < N < 2 ^ 31 -> N mod 2 = 0 -> N <= zlen m ->
  fft_shift_cpu add mul rfft 0 junk Float32 l m = UB.
Proof. intros F add mul rfft junk l m N Hr Hl HN H2 Hm. destruct (C81_cpu_defined F add mul rfft junk l m N) as (_ & H & _); auto. Qed.
Print Assumptions C81_even_length_refuted.
(** C81: among the long odd lengths some miscompute the centre and write before the start. *)
Theorem C81_long_length_refuted : forall F (add mul : F -> F -> F) rfft (junk : Z -> F) l (m : mem F),
  half_length rfft -> l_shape l = [2 ^ 25 + 3] -> 2 ^ 25 + 3 <= zlen m ->
  fft_shift_cpu add mul rfft 0 junk Float32 l m = UB /\ dc_index (2 ^ 25 + 3) = (2 ^ 25 + 3) / 2 - 1.
Proof.
  intros F add mul rfft junk l m Hr Hl Hm. assert (E : dc_index (2 ^ 25 + 3) = (2 ^ 25 + 3) / 2 - 1) by (vm_compute; reflexivity).
  split; [|exact E]. destruct (C81_cpu_defined F add mul rfft junk l m (2 ^ 25 + 3)) as (_ & H & _); auto; [lia|]. apply H. right. rewrite E. lia.
Qed.
Print Assumptions C81_long_length_refuted.
(** C81: a slice is not transformed: its offset is ignored. *)
Theorem C81_slice_refuted : forall rfft junk, exact_rfft rfft -> exists l m,
  wf l /\ inside l (zlen m) /\ elt m l [0] = Some 1%R /\ elt m l [1] = Some 1%R /\ elt m l [2] = Some 1%R /\
  exists out, fft_shift_cpu Rplus Rmult rfft 0 junk Float32 l m = Ok (dense [3], out) /\ forall j, 0 <= j < 3 -> elt out (dense [3]) [j] = Some 0%R.
Proof.
  intros rfft junk Hr. exists (Layout [3] [1] [3]), [0; 0; 0; 1; 1; 1]%R. split; [split; reflexivity|].
  split. { intros idx H. inversion H as [|? i ? r Hi H']; subst. inversion H'; subst. unfold cell, zlen. cbn. lia. }
  split; [reflexivity|]. split; [reflexivity|]. split; [reflexivity|].
  destruct (C81_cpu_spectrum rfft 0 junk (Layout [3] [1] [3]) [0; 0; 0; 1; 1; 1]%R 3 Hr) as (out & E & V); try reflexivity; try (unfold zlen; cbn; lia).
  exists out. split; [exact E|]. intros j Hj. rewrite V by exact Hj. f_equal. change (firstn (Z.to_nat 3) [0; 0; 0; 1; 1; 1]%R) with [0; 0; 0]%R.
  unfold dft_power, dft_re, dft_im. set (k := j - 3 / 2). assert (E0 : forall g, rsum (fun n => sample [0; 0; 0]%R n * g n)%R 3 = 0%R).
  { intros g. unfold rsum, sample. change (zrange 3) with [0; 1; 2]. cbn [map fold_right]. change (Z.to_nat 0) with 0%nat. change (Z.to_nat 1) with 1%nat. change (Z.to_nat 2) with 2%nat. cbn [nth]. lra. }
  rewrite !E0. lra.
Qed.
Print Assumptions C81_slice_refuted.
Lemma C81_other_types : forall F (add mul : F -> F -> F) neg rfft slack (junk : Z -> F) junkc l (m : mem F),
  fft_shift_cpu add mul rfft slack junk OtherType l m = Throw RuntimeError /\ fft_cpu junkc OtherType l m = Throw RuntimeError /\
  fft_cuda neg rfft junkc OtherType l m = Throw RuntimeError.
Proof. intros. repeat split. Qed.

(** ** On the GPU *)
(** C81: every execution of the kernel ends, and writes the shifted spectrum except at the lowest frequency (and, for odd lengths, the highest). *)
Theorem C81_gpu_shift : forall F (add mul : F -> F -> F) rfft addV (xs : list F) (mo : mem F) N,
  half_length rfft -> zlen xs = N -> 0 < N < 2 ^ 31 -> zlen mo = N -> dc_index N = N / 2 ->
  gpu_final faddr_eqb addV (fmem0 (rfft xs) mo) (shift_gpu add mul N) (fun k => forall j, 0 <= j < N ->
    k (FOut j) = if (j =? 0) || ((N mod 2 =? 1) && (j =? N - 1)) then option_map FV (znth mo j)
                 else option_map FV (option_map (mag2 add mul) (znth (rfft xs) (Z.abs (j - N / 2))))).
Proof.
  intros F add mul rfft addV xs mo N Hr Lx HN Lm Hdc.
  assert (Lb : zlen (rfft xs) = N / 2 + 1) by (rewrite Hr, Lx; apply half_odd; lia).
  eapply gpu_final_weaken; [|apply shift_gpu_correct].
  - intros k Hk j Hj. cbv beta in Hk. rewrite Hk. unfold out_value, bin_value. rewrite Hdc. rewrite Z.quot_div_nonneg by lia.
    destruct (Z.abs (j - N / 2) <? N / 2) eqn:E1, ((j =? 0) || ((N mod 2 =? 1) && (j =? N - 1))) eqn:E2; try reflexivity; lia.
  - lia.
  - rewrite Z.quot_div_nonneg by lia. lia.
  - intros j. rewrite Hdc, Lm, Z.quot_div_nonneg by lia. lia.
Qed.
Print Assumptions C81_gpu_shift.
Example C81_gpu_case : half_length (fun xs : list Z => map (fun k => (k, k)) (zrange (half_bins (zlen xs)))) /\ dc_index 1024 = 1024 / 2 /\
  map (@length _) (shift_gpu Z.add Z.mul 1024) = [512%nat].
Proof.
  split; [|split; reflexivity]. intros xs. pose proof (zrange_length (half_bins (zlen xs))) as E. unfold zlen in *. rewrite map_length, E. unfold half_bins. lia.
Qed.
(** C81: position 0 is never computed on the GPU: whatever the allocation held is returned. *)
Theorem C81_gpu_first_refuted : forall F (add mul : F -> F -> F) rfft addV (xs : list F) (mo : mem F) N,
  half_length rfft -> zlen xs = N -> 0 < N < 2 ^ 31 -> zlen mo = N -> dc_index N = N / 2 ->
  gpu_final faddr_eqb addV (fmem0 (rfft xs) mo) (shift_gpu add mul N) (fun k => k (FOut 0) = option_map FV (znth mo 0)).
Proof.
  intros F add mul rfft addV xs mo N Hr Lx HN Lm Hdc. eapply gpu_final_weaken; [|apply C81_gpu_shift; eauto].
  intros k Hk. rewrite Hk by lia. reflexivity.
Qed.
Print Assumptions C81_gpu_first_refuted.

(** ** The complex transform *)
Lemma fft_cuda_out {F} (neg : F -> F) rfft junk l (m : mem F) N : half_length rfft -> l_shape l = [N] -> 2 <= N < 2 ^ 31 -> N <= zlen m ->
  exists out, fft_cuda neg rfft junk Float32 l m = Ok (dense [N], out) /\ zlen out = N /\
    forall k, 0 <= k < N -> znth out k =
      if k <=? N / 2 then znth (rfft (firstn (Z.to_nat N) m)) k
      else if k <? 2 * (N / 2) then option_map (conj neg) (znth (rfft (firstn (Z.to_nat N) m)) (2 * (N / 2) - k)) else Some (junk k).
Proof.
  intros Hr Hl HN Hm. unfold fft_cuda. rewrite Hl. change (zget [N] 0) with (Ok N). cbn [obind].
  assert (E : to_int32 N = N) by (unfold to_int32; rewrite Z.mod_small; lia). rewrite E. replace (N <=? 1) with false by lia.
  destruct (first_ok m N) as (-> & Lx); [lia|]. cbn [obind]. rewrite alloc_1d. set (xs := firstn (Z.to_nat N) m) in *.
  assert (Lb : zlen (rfft xs) = N / 2 + 1) by (rewrite Hr, Lx; apply half_odd; lia). rewrite half_odd by lia.
  set (mo := rfft xs ++ _).
  assert (Lj : length (map junk (zrange N)) = Z.to_nat N). { pose proof (zrange_length N) as Z1. unfold zlen in *. rewrite map_length. lia. }
  assert (Lm : zlen mo = N) by (unfold mo, zlen in *; rewrite app_length, skipn_length, Lj; lia).
  assert (Vm : forall k, 0 <= k < N -> znth mo k = if k <=? N / 2 then znth (rfft xs) k else Some (junk k)).
  { intros k Hk. unfold znth. replace (k <? 0) with false by lia. unfold mo. destruct (k <=? N / 2) eqn:Ek.
    - rewrite nth_error_app1; [reflexivity|]. unfold zlen in Lb. lia.
    - rewrite nth_error_app2 by (unfold zlen in Lb; lia). rewrite <- (firstn_skipn (length (rfft xs)) (map junk (zrange N))) in Lj.
      assert (En : nth_error (map junk (zrange N)) (Z.to_nat k) = Some (junk k)) by (rewrite nth_error_map, nth_error_zrange by exact Hk; reflexivity).
      rewrite <- (firstn_skipn (length (rfft xs)) (map junk (zrange N))) in En.
      assert (Lf : length (firstn (length (rfft xs)) (map junk (zrange N))) = length (rfft xs)).
      { rewrite firstn_length, map_length. pose proof (zrange_length N) as Z1. unfold zlen in *. lia. }
      rewrite nth_error_app2 in En by (rewrite Lf; unfold zlen in Lb; lia). rewrite Lf in En. exact En. }
  destruct (conj_loop_ok neg (N / 2 + 1) (Z.to_nat (N / 2 - 1)) mo) as (out & Eo & Lo & Vo); [lia|lia|].
  replace (N / 2 + 1 - 2) with (Z.of_nat (Z.to_nat (N / 2 - 1))) by lia. rewrite Eo. cbn [obind]. exists out. split; [reflexivity|]. split; [lia|].
  intros k Hk. rewrite Vo. destruct (k <=? N / 2) eqn:Ek.
  - replace ((N / 2 + 1 <=? k) && (k <? N / 2 + 1 + Z.of_nat (Z.to_nat (N / 2 - 1)))) with false by lia. rewrite Vm by lia. now rewrite Ek.
  - destruct (k <? 2 * (N / 2)) eqn:E2.
    + replace ((N / 2 + 1 <=? k) && (k <? N / 2 + 1 + Z.of_nat (Z.to_nat (N / 2 - 1)))) with true by lia.
      rewrite Vm by lia. replace (2 * (N / 2 + 1) - 2 - k <=? N / 2) with true by lia. do 2 f_equal. lia.
    + replace ((N / 2 + 1 <=? k) && (k <? N / 2 + 1 + Z.of_nat (Z.to_nat (N / 2 - 1)))) with false by lia. rewrite Vm by lia. now rewrite Ek.
Qed.
(** C81: for an even number of samples the GPU's complex transform is the discrete Fourier transform. *)
Theorem C81_fft_gpu_even : forall rfft junk l (m : mem R) N,
  exact_rfft rfft -> l_shape l = [N] -> 2 <= N < 2 ^ 31 -> N mod 2 = 0 -> N <= zlen m ->
  exists out, fft_cuda Ropp rfft junk Float32 l m = Ok (dense [N], out) /\ zlen out = N /\
    forall k, 0 <= k < N -> znth out k = Some (dft_re N (firstn (Z.to_nat N) m) k, dft_im N (firstn (Z.to_nat N) m) k).
Proof.
  intros rfft junk l m N Hr Hl HN H2 Hm. destruct (fft_cuda_out Ropp rfft junk l m N (exact_length _ Hr) Hl HN Hm) as (out & E & L & V).
  exists out. split; [exact E|]. split; [exact L|]. intros k Hk. rewrite V by exact Hk. destruct (first_ok m N) as (_ & Lx); [lia|].
  destruct (k <=? N / 2) eqn:Ek.
  - rewrite (exact_bin rfft) by (auto; rewrite Lx, half_odd by lia; lia). now rewrite Lx.
  - replace (k <? 2 * (N / 2)) with true by lia. rewrite (exact_bin rfft) by (auto; rewrite Lx, half_odd by lia; lia). rewrite Lx. unfold conj. cbn [option_map fst snd].
    replace (2 * (N / 2) - k) with (N - k) by lia. destruct (dft_mirror N (firstn (Z.to_nat N) m) k) as (-> & ->); [lia|]. now rewrite Ropp_involutive.
Qed.
Print Assumptions C81_fft_gpu_even.
Example C81_fft_case : exists rfft, exact_rfft rfft /\ 4 mod 2 = 0 /\ 4 <= zlen [1; 2; 3; 4]%R.
Proof. exists (fun xs => map (fun k => (dft_re (zlen xs) xs k, dft_im (zlen xs) xs k)) (zrange (half_bins (zlen xs)))). split; [intros xs; reflexivity|]. split; [reflexivity|unfold zlen; cbn; lia]. Qed.
(** C81: for an odd number the upper half is off by one bin, and the last element is never written. *)
Theorem C81_fft_gpu_odd_refuted : forall F (neg : F -> F) rfft junk l (m : mem F) N,
  half_length rfft -> l_shape l = [N] -> 3 <= N < 2 ^ 31 -> N mod 2 = 1 -> N <= zlen m ->
  exists out, fft_cuda neg rfft junk Float32 l m = Ok (dense [N], out) /\ znth out (N - 1) = Some (junk (N - 1)) /\
    forall k, N / 2 < k < N - 1 -> znth out k = option_map (conj neg) (znth (rfft (firstn (Z.to_nat N) m)) (N - k - 1)).
Proof.
  intros F neg rfft junk l m N Hr Hl HN H2 Hm. destruct (fft_cuda_out neg rfft junk l m N Hr Hl ltac:(lia) Hm) as (out & E & L & V).
  exists out. split; [exact E|]. split.
  - rewrite V by lia. replace (N - 1 <=? N / 2) with false by lia. now replace (N - 1 <? 2 * (N / 2)) with false by lia.
  - intros k Hk. rewrite V by lia. replace (k <=? N / 2) with false by lia. replace (k <? 2 * (N / 2)) with true by lia. do 2 f_equal. lia.
Qed.
Print Assumptions C81_fft_gpu_odd_refuted.
(** C81: on the CPU the complex transform computes nothing: the result is whatever the allocation held. *)
Theorem C81_fft_cpu_refuted : forall F (l : layout) (m : mem F) (c d : F * F), alloc_elems (l_shape l) > 0 -> c <> d ->
  exists out1 out2, fft_cpu (fun _ => c) Float32 l m = Ok (dense (l_shape l), out1) /\ fft_cpu (fun _ => d) Float32 l m = Ok (dense (l_shape l), out2) /\ out1 <> out2.
Proof.
  intros F l m c d Hn Hcd. eexists _, _. split; [reflexivity|]. split; [reflexivity|]. intros E. apply Hcd.
  assert (Hi : nth_error (map (fun _ : Z => c) (zrange (alloc_elems (l_shape l)))) 0 = Some c) by (rewrite nth_error_map; rewrite (nth_error_zrange _ 0) by lia; reflexivity).
  rewrite E, nth_error_map in Hi. rewrite (nth_error_zrange _ 0) in Hi by lia. cbn in Hi. congruence.
Qed.
Print Assumptions C81_fft_cpu_refuted.
