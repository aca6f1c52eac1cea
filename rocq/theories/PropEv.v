(** C83: what an event says about its hits. *)
From Coq Require Import Reals Lra ZifyBool Lia.
From Flocq Require Import Core BinarySingleNaN.
From Verif Require Import HitModel HitFacts EventProofs PropHit DriftFloatProofs CudaOffsetProofs FloatErr MeanErr.
Local Open Scope Z_scope.

(** The mean of [v] over the hits. *)
Definition hit_mean (v : hit -> R) (hs : list hit) : R := (fold_right Rplus 0 (map v hs) / IZR (zlen hs))%R.
(** Finite values of at most 2^e. *)
Definition moderate (e : Z) (h : hit) : Prop :=
  is_finite (h_power h) = true /\ is_finite (h_band h) = true /\ is_finite (h_snr h) = true /\ is_finite (h_drift h) = true /\
  (Rabs (B2R (h_power h)) <= bpow radix2 e)%R /\ (Rabs (B2R (h_band h)) <= bpow radix2 e)%R /\ (Rabs (B2R (h_snr h)) <= bpow radix2 e)%R /\ (Rabs (B2R (h_drift h)) <= bpow radix2 e)%R.

Lemma step_bound e i x y : (Rabs x <= IZR i * bpow radix2 e)%R -> (Rabs y <= bpow radix2 e)%R -> (Rabs (x + y) <= IZR (i + 1) * bpow radix2 e)%R.
Proof. intros Hx Hy. rewrite plus_IZR. pose proof (Rabs_triang x y). lra. Qed.

Section Means.
  Variables (e k : Z) (hs : list hit).
  Hypotheses (He : -100 <= e <= 70) (Hk : 0 <= k <= 24) (Hn : 1 <= zlen hs <= 2 ^ k) (Hm : Forall (moderate e) hs).
  Let n := zlen hs.
  Lemma kpow : 2 ^ k <= 2 ^ 24. Proof. apply Z.pow_le_mono_r; lia. Qed.
  Lemma mean32 (val : hit -> f32) : (forall h, moderate e h -> is_finite (val h) = true /\ (Rabs (B2R (val h)) <= bpow radix2 e)%R) ->
    let m := div32 (fold_left (fun a h => add32 a (val h)) hs (f32_of_Z 0)) (f32_of_Z n) in
    is_finite m = true /\ (Rabs (B2R m - hit_mean (fun h => B2R (val h)) hs) <= bpow radix2 (e + k - 24))%R.
  Proof.
    intros Hv m. pose proof kpow as Kp. destruct (f32_of_Z_ok 0) as (Z1 & Z2); [lia|]. destruct (f32_of_Z_ok n) as (N1 & N2); [unfold n; lia|].
    destruct (fold_err (fun a h => add32 a (val h)) (fun h => B2R (val h)) e (2 ^ k) (bpow radix2 (e + k - 24 - 1)) (moderate e)) with (hs := hs) (i := 0) (a := f32_of_Z 0) as (S1 & S2 & S3); auto.
    - intros i a h Hi Fa Ba Hh. destruct (Hv h Hh) as (V1 & V2).
      destruct (plus_ok 24 128 prec24 emax128 a (val h) (i + 1) e k) as (P1 & P2 & P3 & P4); auto; [lia|lia|lia|lia|lia|now apply step_bound|].
      unfold add32. rewrite P2. auto.
    - lia.
    - fold (zlen hs). lia.
    - rewrite Z1, Rabs_R0. lra.
    - fold (zlen hs) in S2, S3. rewrite Z.add_0_l in S2. rewrite Z1, Rplus_0_l in S3.
      destruct (mean_err 24 128 prec24 emax128 (fold_left (fun a h => add32 a (val h)) hs (f32_of_Z 0)) (f32_of_Z n) n e (total (fun h => B2R (val h)) hs) (bpow radix2 (e + k - 24 - 1))) as (M1 & M2);
        auto; [unfold n; lia|lia|].
      split; [exact M1|]. eapply Rle_trans; [exact M2|]. replace (e + k - 24) with (1 + (e + k - 24 - 1)) at 2 by lia. rewrite (bpow_plus radix2 1). change (bpow radix2 1) with 2%R.
      assert (bpow radix2 (e - 24 - 1) <= bpow radix2 (e + k - 24 - 1))%R by (apply bpow_le; lia). lra.
  Qed.
  Lemma mean64 :
    let m := div64 (fold_left (fun a h => add64 a (h_drift h)) hs (f64_of_Z 0)) (f64_of_Z n) in
    is_finite m = true /\ (Rabs (B2R m - hit_mean (fun h => B2R (h_drift h)) hs) <= bpow radix2 (e + k - 53))%R.
  Proof.
    intros m. pose proof kpow as Kp. destruct (f64_of_Z_ok 0) as (Z1 & Z2); [lia|]. destruct (f64_of_Z_ok n) as (N1 & N2); [unfold n; lia|].
    destruct (fold_err (fun a h => add64 a (h_drift h)) (fun h => B2R (h_drift h)) e (2 ^ k) (bpow radix2 (e + k - 53 - 1)) (moderate e)) with (hs := hs) (i := 0) (a := f64_of_Z 0) as (S1 & S2 & S3); auto.
    - intros i a h Hi Fa Ba Hh. destruct Hh as (_ & _ & _ & V1 & _ & _ & _ & V2).
      destruct (plus_ok 53 1024 prec53 emax1024 a (h_drift h) (i + 1) e k) as (P1 & P2 & P3 & P4); auto; [lia|lia|lia|lia|lia|now apply step_bound|].
      unfold add64. rewrite P2. auto.
    - lia.
    - fold (zlen hs). lia.
    - rewrite Z1, Rabs_R0. lra.
    - fold (zlen hs) in S2, S3. rewrite Z.add_0_l in S2. rewrite Z1, Rplus_0_l in S3.
      destruct (mean_err 53 1024 prec53 emax1024 (fold_left (fun a h => add64 a (h_drift h)) hs (f64_of_Z 0)) (f64_of_Z n) n e (total (fun h => B2R (h_drift h)) hs) (bpow radix2 (e + k - 53 - 1))) as (M1 & M2);
        auto; [unfold n; lia|lia|].
      split; [exact M1|]. eapply Rle_trans; [exact M2|]. replace (e + k - 53) with (1 + (e + k - 53 - 1)) at 2 by lia. rewrite (bpow_plus radix2 1). change (bpow radix2 1) with 2%R.
      assert (bpow radix2 (e - 53 - 1) <= bpow radix2 (e + k - 53 - 1))%R by (apply bpow_le; lia). lra.
  Qed.
  Lemma mean_power :
    let m := div32 (fold_left (fun a h => narrow (add64 (widen a) (h_power h))) hs (f32_of_Z 0)) (f32_of_Z n) in
    is_finite m = true /\ (Rabs (B2R m - hit_mean (fun h => B2R (h_power h)) hs) <= bpow radix2 (e + k - 23))%R.
  Proof.
    intros m. pose proof kpow as Kp. destruct (f32_of_Z_ok 0) as (Z1 & Z2); [lia|]. destruct (f32_of_Z_ok n) as (N1 & N2); [unfold n; lia|].
    set (delta := (bpow radix2 (e + k - 24 - 1) + bpow radix2 (e + k - 53 - 1))%R).
    destruct (fold_err (fun a h => narrow (add64 (widen a) (h_power h))) (fun h => B2R (h_power h)) e (2 ^ k) delta (moderate e)) with (hs := hs) (i := 0) (a := f32_of_Z 0) as (S1 & S2 & S3); auto.
    - intros i a h Hi Fa Ba Hh. destruct Hh as (V1 & _ & _ & _ & V2 & _). destruct (widen_ok a Fa) as (W1 & W2).
      destruct (plus_ok 53 1024 prec53 emax1024 (widen a) (h_power h) (i + 1) e k) as (P1 & P2 & P3 & P4); auto; [lia|lia|lia|lia|lia|rewrite W1; now apply step_bound|].
      fold (add64 (widen a) (h_power h)) in P1, P2. rewrite W1 in *. rewrite <- P2 in P3, P4.
      assert (T : (IZR (i + 1) * bpow radix2 e <= bpow radix2 (e + k))%R).
      { replace (e + k) with (k + e) by lia. rewrite bpow_plus. apply Rmult_le_compat_r; [apply bpow_ge_0|]. rewrite <- (IZR_Zpower radix2) by lia. apply IZR_le. change (i + 1 <= 2 ^ k). lia. }
      destruct (narrow_ok (add64 (widen a) (h_power h)) P1) as (R1 & R2).
      { apply Rle_trans with (bpow radix2 (e + k)); [lra|apply bpow_le; lia]. }
      change (rd32 (B2R (add64 (widen a) (h_power h)))) with (rdp 24 128 (B2R (add64 (widen a) (h_power h)))) in R1.
      split; [exact R2|]. rewrite R1. split; [apply (rdp_le 24 128 prec24); [lia|lia|exact P3]|].
      pose proof (rdp_err 24 128 prec24 (e + k) (B2R (add64 (widen a) (h_power h))) ltac:(lia) ltac:(lra)) as Er.
      unfold delta. apply Rabs_le. apply Rabs_le_inv in Er. apply Rabs_le_inv in P4. lra.
    - lia.
    - fold (zlen hs). lia.
    - rewrite Z1, Rabs_R0. lra.
    - fold (zlen hs) in S2, S3. rewrite Z.add_0_l in S2. rewrite Z1, Rplus_0_l in S3.
      destruct (mean_err 24 128 prec24 emax128 (fold_left (fun a h => narrow (add64 (widen a) (h_power h))) hs (f32_of_Z 0)) (f32_of_Z n) n e (total (fun h => B2R (h_power h)) hs) delta) as (M1 & M2);
        auto; [unfold n; lia|lia|].
      split; [exact M1|]. eapply Rle_trans; [exact M2|]. unfold delta. replace (e + k - 23) with (2 + (e + k - 24 - 1)) by lia. rewrite (bpow_plus radix2 2). change (bpow radix2 2) with 4%R.
      assert (bpow radix2 (e - 24 - 1) <= bpow radix2 (e + k - 24 - 1))%R by (apply bpow_le; lia).
      assert (bpow radix2 (e + k - 53 - 1) <= bpow radix2 (e + k - 24 - 1))%R by (apply bpow_le; lia). pose proof (bpow_ge_0 radix2 (e + k - 24 - 1)). lra.
  Qed.
End Means.

(** The events of a search: each starts at the frequency of its first hit and at the beginning of the scan of that hit, ends with that scan, and averages
    power, bandwidth, SNR and drift rate over all its hits; values of at most 2^e over at most 2^k hits are averaged to within the given errors. *)
Theorem C83_event_values : forall S (dist : S -> hit -> hit -> f32 * S) Inv s on off evs,
  cache_legal dist Inv -> Inv s -> event_search dist s (on :: off) = Ok evs -> forall ev, In ev evs ->
  exists sc h rest, In sc on /\ ev_hits ev = h :: rest /\ In h (snd sc) /\
    (-60 <= B2R (sp_tstart (fst sc)) <= IZR (2 ^ 17) -> 0 <= B2R (sp_dur (fst sc)) <= IZR (2 ^ 30) -> 0 <= B2R (h_freq h) <= IZR (2 ^ 20) ->
     is_finite (sp_tstart (fst sc)) = true -> is_finite (sp_dur (fst sc)) = true -> is_finite (h_freq h) = true ->
     Rabs (B2R (ev_start ev) - B2R (sp_tstart (fst sc)) * 86400) <= bpow radix2 (-20) /\
     Rabs (B2R (ev_end ev) - (B2R (sp_tstart (fst sc)) * 86400 + B2R (sp_dur (fst sc)))) <= bpow radix2 (-18) /\
     Rabs (B2R (ev_freq ev) - B2R (h_freq h) * 1000000) <= bpow radix2 (-14))%R /\
    forall e k, -100 <= e <= 70 -> 0 <= k <= 24 -> zlen (ev_hits ev) <= 2 ^ k -> Forall (moderate e) (ev_hits ev) ->
      (is_finite (ev_drift ev) = true /\ is_finite (ev_snr ev) = true /\ is_finite (ev_band ev) = true /\ is_finite (ev_power ev) = true /\
       Rabs (B2R (ev_drift ev) - hit_mean (fun h => B2R (h_drift h)) (ev_hits ev)) <= bpow radix2 (e + k - 53) /\
       Rabs (B2R (ev_snr ev) - hit_mean (fun h => B2R (h_snr h)) (ev_hits ev)) <= bpow radix2 (e + k - 24) /\
       Rabs (B2R (ev_band ev) - hit_mean (fun h => B2R (h_band h)) (ev_hits ev)) <= bpow radix2 (e + k - 24) /\
       Rabs (B2R (ev_power ev) - hit_mean (fun h => B2R (h_power h)) (ev_hits ev)) <= bpow radix2 (e + k - 23))%R.
Proof.
  intros S dist Inv s on off evs Hl HI E0 ev He. unfold event_search in E0.
  destruct (from_scans_spec dist Inv cache_can Hl (flat_map snd (concat off)) (map fst on) s (map snd on) HI) as (evs' & s' & E & _ & F).
  rewrite E in E0. cbn [obind fst] in E0. injection E0 as ->.
  destruct (fromall_events _ _ _ _ _ F ev He) as (k0 & sp & starts & h & hs & A & B & C & D & (-> & Hz & _)).
  destruct (picks_added _ _ _ _ D) as (added & ks & -> & _). rewrite nth_error_map in A, B.
  destruct (nth_error on k0) as [sc|] eqn:Esc; [|discriminate]. injection A as <-. injection B as <-.
  exists sc, h, added. split; [eapply nth_error_In; eauto|]. split; [reflexivity|]. split; [exact C|]. split.
  - intros H1 H2 H3 F1 F2 F3. cbn [averaged ev_start ev_end ev_freq].
    destruct (f64_of_Z_ok 86400) as (K1 & K2); [lia|]. destruct (f64_of_Z_ok 1000000) as (J1 & J2); [lia|].
    assert (P34 : bpow radix2 34 = 17179869184%R) by reflexivity. assert (P35 : bpow radix2 35 = 34359738368%R) by reflexivity. assert (P40 : bpow radix2 40 = 1099511627776%R) by reflexivity.
    assert (B1 : (Rabs (B2R (sp_tstart (fst sc)) * B2R (f64_of_Z 86400)) <= bpow radix2 34)%R) by (rewrite K1, P34; apply Rabs_le; change (IZR (2 ^ 17)) with 131072%R in H1; lra).
    destruct (mul64_ok _ _ F1 K2 34 ltac:(lia) B1) as (M1 & M2). pose proof (rd64_err 34 _ ltac:(lia) B1) as Er. rewrite <- M2 in Er. rewrite K1 in Er.
    pose proof (rd64_bound 34 _ ltac:(lia) B1) as Bb. rewrite <- M2 in Bb.
    assert (B2 : (Rabs (B2R (mul64 (sp_tstart (fst sc)) (f64_of_Z 86400)) + B2R (sp_dur (fst sc))) <= bpow radix2 35)%R).
    { rewrite P35. rewrite P34 in Bb. apply Rabs_le_inv in Bb. apply Rabs_le. change (IZR (2 ^ 30)) with 1073741824%R in H2. lra. }
    destruct (add64_ok _ _ M1 F2 35 ltac:(lia) B2) as (N1 & N2). pose proof (rd64_err 35 _ ltac:(lia) B2) as Er2. rewrite <- N2 in Er2.
    assert (B3 : (Rabs (B2R (h_freq h) * B2R (f64_of_Z 1000000)) <= bpow radix2 40)%R) by (rewrite J1, P40; apply Rabs_le; change (IZR (2 ^ 20)) with 1048576%R in H3; lra).
    destruct (mul64_ok _ _ F3 J2 40 ltac:(lia) B3) as (_ & Q2). pose proof (rd64_err 40 _ ltac:(lia) B3) as Er3. rewrite <- Q2, J1 in Er3.
    split; [exact Er|]. split; [|exact Er3].
    change (34 - 54) with (-20) in Er. change (35 - 54) with (-19) in Er2. assert (W1 : (bpow radix2 (-18) = 2 * bpow radix2 (-19))%R) by exact (bpow_plus radix2 1 (-19)).
    assert (W2 : (bpow radix2 (-19) = 2 * bpow radix2 (-20))%R) by exact (bpow_plus radix2 1 (-20)). assert (W3 : (0 < bpow radix2 (-20))%R) by apply bpow_gt_0.
    apply Rabs_le. apply Rabs_le_inv in Er. apply Rabs_le_inv in Er2. lra.
  - intros e k He' Hk Hn Hm. cbn [app averaged ev_hits] in *.
    cbn [averaged ev_drift ev_snr ev_band ev_power].
    destruct (mean64 e k (h :: added)) as (D1 & D2); auto; [unfold zlen in *; cbn [length] in *; lia|].
    destruct (mean_power e k (h :: added)) as (W1 & W2); auto; [unfold zlen in *; cbn [length] in *; lia|].
    destruct (mean32 e k (h :: added) He' Hk ltac:(unfold zlen in *; cbn [length] in *; lia) Hm h_snr) as (N1 & N2); [intros x X; split; apply X|].
    destruct (mean32 e k (h :: added) He' Hk ltac:(unfold zlen in *; cbn [length] in *; lia) Hm h_band) as (B1 & B2); [intros x X; split; apply X|].
    auto 10.
Qed.
Print Assumptions C83_event_values.

(** The event of the example in C36, whose hits drift at 1 Hz/s. *)
Example C83_case :
  match event_search list_cache [] [[(Span (f64_of_Z 60000) (f64_of_Z 288), [h0]); (Span (f64_of_Z 60000) (f64_of_Z 288), [with_drift h0 (f64_of_Z 2)])]; []] with
  | Ok [e] => Beqb (ev_start e) (f64_of_Z 5184000000) && Beqb (ev_end e) (f64_of_Z 5184000288) && Beqb (ev_freq e) (f64_of_Z 8000000000) &&
              Beqb (mul64 (ev_drift e) (f64_of_Z 2)) (f64_of_Z 3)
  | _ => false end = true.
Proof. vm_compute. reflexivity. Qed.

(** The end of an event does not cover its hits: the event below holds a hit that begins a day after the event's end. *)
Definition still_hit (day : Z) : hit := Hit 1 (f64_of_Z 8000) (f64_of_Z (day * 86400)) (f64_of_Z 288) 0 (f64_of_Z 0) (f64_of_Z 5) 16 (f32_of_Z 20) (f32_of_Z 3) 4 [] 0.
Theorem C83_end_refuted :
  match event_search list_cache [] [[(Span (f64_of_Z 60000) (f64_of_Z 288), [still_hit 60000]); (Span (f64_of_Z 60001) (f64_of_Z 288), [still_hit 60001])]; []] with
  | Ok [e] => match ev_hits e with [a; b] => f64lt (ev_end e) (h_time b) && f64lt (sub64 (ev_end e) (ev_start e)) (f64_of_Z 289) | _ => false end
  | _ => false end = true.
Proof. vm_compute. reflexivity. Qed.
Print Assumptions C83_end_refuted.
