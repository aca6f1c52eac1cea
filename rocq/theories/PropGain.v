(** C116: what normalize returns does not depend on the gain of the receiver, the device or the schedule. *)
From Verif Require Import PropGred GredReal GredExact GredKernels GaccRel GvarModel.
From Coq Require Import ZifyBool ZifyNat Lia Reals Lra Psatz.
From Flocq Require Import Core BinarySingleNaN.
From Verif Require Import DriftFloatProofs HitFacts FlagProofs NdIndexFacts NdMemFacts NdProofs RedProofs3 PropFlag PropGmag GnormModel PropLax PropGlax PropEq PropGnorm.
Local Open Scope Z_scope.

Lemma positive_sign (b : f32) : (0 < B2R b)%R -> Bsign b = false.
Proof.
  destruct b as [s|s| |s m e H]; intros P; try (exfalso; change (0 < 0)%R in P; lra). destruct s; [|reflexivity]. exfalso.
  assert (K : (F2R (Float radix2 (Z.neg m) e) < 0)%R) by now apply F2R_lt_0. change (0 < F2R (Float radix2 (Z.neg m) e))%R in P. lra.
Qed.
Lemma quotient_real (a b : f32) : is_finite a = true -> is_finite b = true -> (0 <= B2R a <= B2R b)%R -> (0 < B2R b)%R ->
  is_finite (Bdiv mode_NE a b) = true /\ B2R (Bdiv mode_NE a b) = round radix2 (SpecFloat.fexp 24 128) (round_mode mode_NE) (B2R a / B2R b) /\ Bsign (Bdiv mode_NE a b) = Bsign a.
Proof.
  intros Fa Fb Hab Hb. destruct (quotient_ok a b Fa Fb Hab Hb) as (F & _). split; [exact F|].
  pose proof (Bdiv_correct 24 128 prec24 emax128 mode_NE a b ltac:(lra)) as K. destruct (Rlt_bool _ _).
  - destruct K as (E & _ & S). split; [exact E|]. rewrite S, (positive_sign b Hb), xorb_false_r; [reflexivity|]. destruct (Bdiv mode_NE a b); try discriminate F; reflexivity.
  - exfalso. pose proof F as G. rewrite <- is_finite_SF_B2SF in G. 
    pose proof (f_equal is_finite_SF K) as Q. change (is_finite_SF (binary_overflow 24 128 mode_NE (xorb (Bsign a) (Bsign b)))) with false in Q.
    pose proof (eq_trans (eq_sym Q) G) as X. discriminate X.
Qed.
(** Numbers multiplied by the same factor have the same quotient, bit for bit. *)
Lemma same_quotient (g : R) (a b a' b' : f32) : (0 < g)%R -> is_finite a = true -> is_finite b = true -> is_finite a' = true -> is_finite b' = true ->
  (0 <= B2R a <= B2R b)%R -> (0 < B2R b)%R -> B2R a' = (g * B2R a)%R -> B2R b' = (g * B2R b)%R -> Bsign a' = Bsign a -> Bdiv mode_NE a' b' = Bdiv mode_NE a b.
Proof.
  intros Hg Fa Fb Fa' Fb' Hab Hb Ea Eb S. destruct (quotient_real a b Fa Fb Hab Hb) as (F & E & G).
  destruct (quotient_real a' b' Fa' Fb') as (F' & E' & G'); [rewrite Ea, Eb; split; [apply Rmult_le_pos; lra|apply Rmult_le_compat_l; lra]|rewrite Eb; now apply Rmult_lt_0_compat|].
  apply B2R_Bsign_inj; [exact F'|exact F| |congruence]. rewrite E, E', Ea, Eb. f_equal. field. lra.
Qed.

(** A channel's samples normalized on either device. *)
Inductive normalizes (lowest : f32) (data r : arr f32) : Prop :=
| On_cpu (xa xb : Z -> Z) (junk : Z -> f32) : normalize_lax xa xb ops32 lowest junk data = Ok r -> normalizes lowest data r
| On_gpu (junk : Z -> f32) : gpu_normalize lowest junk data r -> normalizes lowest data r.
(** Whatever the device, every sample is divided by one that no sample exceeds, or all samples are 0 and nothing but NaN is left. *)
Lemma normalizes_by lowest T C x d r : powers [T; C] x d -> is_finite lowest = true -> (B2R lowest < 0)%R -> normalizes lowest (dense [T; C], x) r ->
  exists q, arr_is r [T; C] q /\
    ((forall i, in_range [T; C] i -> B2R (d i) = 0%R /\ q i = B754_nan) \/
     exists M, is_finite M = true /\ (0 < B2R M)%R /\ greatest [T; C] d M /\ forall i, in_range [T; C] i -> q i = Bdiv mode_NE (d i) M).
Proof.
  intros H Fl Ll Hn. pose proof H as (P & N & H4 & Hb & Hx & E & F). assert (HT : 1 <= T /\ 1 <= C). { inversion P as [|? ? P1 P2]; subst. inversion P2; subst. lia. } destruct HT as (HT & HC).
  assert (Nan : forall v : f32, is_nan v = true -> v = B754_nan) by (intros v Hv; destruct v; try discriminate Hv; reflexivity).
  destruct Hn as [xa xb junk Er | junk Hr].
  - destruct (C111_normalize xa xb lowest junk (dense [T; C], x) T C d) as (r' & q & M & Er' & A & L & Q & Pos & Zero).
    + now apply arr_is_dense.
    + exact HT.
    + exact HC.
    + change (zprod [T; C]) with (T * (C * 1)) in Hb. lia.
    + exact Fl.
    + lra.
    + intros t c Ht Hc. apply F. repeat constructor; lia.
    + pose proof (eq_trans (eq_sym Er) Er') as X. injection X as <-. exists q. split; [exact A|].
      assert (G : forall i, in_range [T; C] i -> exists t c, i = [t; c] /\ 0 <= t < T /\ 0 <= c < C) by (intros i R; apply in_range2 in R as (t & c & -> & Ht & Hc); eauto 6).
      destruct (Rlt_dec 0 (B2R M)) as [PM|PM].
      * right. destruct (Pos PM) as (_ & (t & c & Ht & Hc & Em & _)). assert (Rm : in_range [T; C] [t; c]) by (repeat constructor; lia). exists M. split; [rewrite <- Em; now apply F|]. split; [exact PM|]. split; [split; [eauto|]|].
        { intros i R. destruct (G i R) as (t' & c' & -> & Ht' & Hc'). now apply L. }
        intros i R. destruct (G i R) as (t' & c' & -> & Ht' & Hc'). now apply Q.
      * left. assert (Z0 : forall t c, 0 <= t < T -> 0 <= c < C -> B2R (d [t; c]) = 0%R) by (intros t c Ht Hc; specialize (L t c Ht Hc); destruct (F [t; c]) as (_ & K); [repeat constructor; lia|lra]).
        intros i R. destruct (G i R) as (t' & c' & -> & Ht' & Hc'). split; [now apply Z0|]. apply Nan. now apply Zero.
  - destruct (proj2 (C115_gpu_normalize lowest junk [T; C] x d H Fl Ll) r Hr) as (M & q & Gm & _ & _ & A & Q & Pos & Zero). exists q. split; [exact A|].
    pose proof Gm as ((im & Rm & Em) & U). destruct (F im Rm) as (Fm & Pm). rewrite Em in Fm, Pm. destruct (Rlt_dec 0 (B2R M)) as [PM|PM]; [right; exists M; auto|left].
    assert (Z0 : forall i, in_range [T; C] i -> B2R (d i) = 0%R) by (intros i R; specialize (U i R); destruct (F i R) as (_ & K); lra). intros i R. split; [now apply Z0|]. apply Nan. now apply Zero.
Qed.

(** C116: let every sample be [g] times as large (exactly).  Whatever the devices, schedules and contents of uninitialised memory, normalize returns the same numbers, bit for bit. *)
Theorem C116_gain : forall lowest g T C x x' d d' r r', powers [T; C] x d -> powers [T; C] x' d' -> is_finite lowest = true -> (B2R lowest < 0)%R -> (0 < g)%R ->
  (forall i, in_range [T; C] i -> B2R (d' i) = (g * B2R (d i))%R /\ Bsign (d' i) = Bsign (d i)) ->
  normalizes lowest (dense [T; C], x) r -> normalizes lowest (dense [T; C], x') r' ->
  l_shape (fst r') = l_shape (fst r) /\ forall i, in_range [T; C] i -> exists v, elt (snd r) (fst r) i = Some v /\ elt (snd r') (fst r') i = Some v.
Proof.
  intros lowest g T C x x' d d' r r' H H' Fl Ll Hg S Hr Hr'. destruct (normalizes_by lowest T C x d r H Fl Ll Hr) as (q & (_ & S1 & _ & E1) & Q). destruct (normalizes_by lowest T C x' d' r' H' Fl Ll Hr') as (q' & (_ & S2 & _ & E2) & Q').
  destruct H as (_ & _ & _ & _ & _ & _ & F). destruct H' as (_ & _ & _ & _ & _ & _ & F'). split; [congruence|]. intros i R. exists (q i). split; [now apply E1|]. rewrite (E2 i R). f_equal.
  assert (Mono : forall a b, (g * a <= g * b)%R -> (a <= b)%R) by (intros a b K; apply Rmult_le_reg_l with g; assumption).
  destruct Q as [Q|(M & Fm & Pm & ((im & Rim & Em) & Um) & Q)], Q' as [Q'|(M' & Fm' & Pm' & ((im' & Rim' & Em') & Um') & Q')].
  - destruct (Q i R) as (_ & ->). now destruct (Q' i R) as (_ & ->).
  - exfalso. rewrite <- Em' in Pm'. rewrite (proj1 (S im' Rim')), (proj1 (Q im' Rim')) in Pm'. lra.
  - exfalso. rewrite <- Em in Pm. pose proof (proj1 (Q' im Rim)) as K. rewrite (proj1 (S im Rim)) in K. apply Rmult_integral in K. lra.
  - rewrite (Q i R), (Q' i R). destruct (S i R) as (Ei & Si). destruct (F i R) as (Fi & Pi). apply (same_quotient g); auto; [now apply F'|].
    subst M M'. apply Rle_antisym; [rewrite (proj1 (S im' Rim')); apply Rmult_le_compat_l; [lra|now apply Um]|rewrite <- (proj1 (S im Rim)); now apply Um'].
Qed.
Print Assumptions C116_gain.
(** Both devices do return something for every such channel. *)
Theorem C116_both_devices : forall lowest T C x d, powers [T; C] x d -> is_finite lowest = true -> (B2R lowest < 0)%R ->
  (forall xa xb junk, exists r, normalize_lax xa xb ops32 lowest junk (dense [T; C], x) = Ok r /\ normalizes lowest (dense [T; C], x) r) /\
  (forall junk, exists r, gpu_normalize lowest junk (dense [T; C], x) r /\ normalizes lowest (dense [T; C], x) r).
Proof.
  intros lowest T C x d H Fl Ll. pose proof H as (P & N & H4 & Hb & Hx & E & F). assert (HT : 1 <= T /\ 1 <= C). { inversion P as [|? ? P1 P2]; subst. inversion P2; subst. lia. } destruct HT as (HT & HC). split.
  - intros xa xb junk. destruct (C111_normalize xa xb lowest junk (dense [T; C], x) T C d) as (r & q & M & Er & _).
    + now apply arr_is_dense.
    + exact HT.
    + exact HC.
    + change (zprod [T; C]) with (T * (C * 1)) in Hb. lia.
    + exact Fl.
    + lra.
    + intros t c Ht Hc. apply F. repeat constructor; lia.
    + exists r. split; [exact Er|]. now apply (On_cpu _ _ _ xa xb junk).
  - intros junk. destruct (C115_gpu_normalize lowest junk [T; C] x d H Fl Ll) as ((r & Hr) & _). exists r. split; [exact Hr|]. now apply (On_gpu _ _ _ junk).
Qed.
Print Assumptions C116_both_devices.
(** Twice the samples of C115_case: the same numbers, on the CPU and on a GPU. *)
Definition twelve : mem f32 := map f32_of_Z [6; 2; 8; 2; 10; 18].
Example C116_case : powers [2; 3] six (lit (f32_of_Z 0) [2; 3] six) /\ powers [2; 3] twelve (lit (f32_of_Z 0) [2; 3] twelve) /\
  (forall i, in_range [2; 3] i -> B2R (lit (f32_of_Z 0) [2; 3] twelve i) = (2 * B2R (lit (f32_of_Z 0) [2%Z; 3%Z] six i))%R /\ Bsign (lit (f32_of_Z 0) [2; 3] twelve i) = Bsign (lit (f32_of_Z 0) [2; 3] six i)) /\
  (exists r, normalizes (f32_of_Z (-1)) (dense [2; 3], six) r) /\ exists r, normalizes (f32_of_Z (-1)) (dense [2; 3], twelve) r.
Proof.
  destruct C115_case as (H6 & Fl & Ll & _).
  assert (Q : forall z, (Z.abs z <= 2 ^ 24)%Z -> B2R (f32_of_Z z) = IZR z /\ is_finite (f32_of_Z z) = true) by (intros z Hz; apply f32_of_Z_ok; lia).
  assert (G : forall i, in_range [2; 3] i -> exists z, 1 <= z <= 9 /\ lit (f32_of_Z 0) [2; 3] six i = f32_of_Z z /\ lit (f32_of_Z 0) [2; 3] twelve i = f32_of_Z (2 * z)).
  { intros i R. apply in_range2 in R as (t & c & -> & Ht & Hc). assert (Dt : t = 0 \/ t = 1) by lia. assert (Dc : c = 0 \/ c = 1 \/ c = 2) by lia.
    destruct Dt as [-> | ->], Dc as [-> | [-> | ->] ]; [exists 3|exists 1|exists 4|exists 1|exists 5|exists 9]; (split; [lia|split; reflexivity]). }
  assert (H12 : powers [2; 3] twelve (lit (f32_of_Z 0) [2; 3] twelve)).
  { split; [repeat constructor|]. split; [discriminate|]. split; [vm_compute; discriminate|]. split; [reflexivity|]. split; [reflexivity|].
    split; [exact (proj2 (proj2 (proj2 (proj2 (lit_grid (f32_of_Z 0) [2; 3] twelve eq_refl)))))|]. intros i R. destruct (G i R) as (z & Hz & _ & ->). destruct (Q (2 * z) ltac:(lia)) as (-> & F). split; [exact F|]. apply IZR_le. lia. }
  split; [exact H6|]. split; [exact H12|]. split.
  - intros i R. destruct (G i R) as (z & Hz & -> & ->). destruct (Q z ltac:(lia)) as (E1 & _), (Q (2 * z) ltac:(lia)) as (E2 & _). split; [rewrite E1, E2, mult_IZR; reflexivity|].
    rewrite !positive_sign; [reflexivity|rewrite E1; apply IZR_lt; lia|rewrite E2; apply IZR_lt; lia].
  - split; [destruct (proj1 (C116_both_devices _ 2 3 _ _ H6 Fl Ll) (fun _ => 0) (fun _ => 0) (fun _ => f32_of_Z 7)) as (r & _ & K)|destruct (proj2 (C116_both_devices _ 2 3 _ _ H12 Fl Ll) (fun _ => f32_of_Z 7)) as (r & _ & K)]; eauto.
Qed.
(** The factor must be exact: 'any gain' is false.  A factor of 3, rounded for each sample, changes the result. *)
Definition first_of (o : outcome (arr f32)) : f32 := match o with Ok r => nth 0 (snd r) B754_nan | _ => B754_nan end.
Theorem C116_rounded_gain_refuted :
  let x := map f32_of_Z [8388607; 8388608] in let x' := map (Bmult mode_NE (f32_of_Z 3)) x in
  let v y := first_of (normalize_lax (fun _ => 9) (fun _ => 9) ops32 (f32_of_Z (-1)) (fun _ => f32_of_Z 7) (dense [1; 2], y)) in
  is_finite (v x) = true /\ is_finite (v x') = true /\ Beqb (v x) (v x') = false.
Proof. vm_compute. auto. Qed.
Print Assumptions C116_rounded_gain_refuted.
