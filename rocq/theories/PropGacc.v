(** Property theorems C102: rounding errors of sums and means on a GPU. *)
From Verif Require Import PropGred GredReal GredExact GredKernels GaccRel.
From Verif Require PropFsum FsumModel FsumProofs2.
From Coq Require Import ZifyBool ZifyNat Lia Permutation Reals Lra.
From Flocq Require Import Core BinarySingleNaN.
From Verif Require Import DriftFloatProofs FsumFacts FsumProofs GaccProofs.
Local Open Scope Z_scope.

(** Arrays whose reductions are covered: what a kernel can take, unsliced, of 32-bit extent and reduced to at most 1024 outputs. *)
Definition few_outputs (x : mem f32) (l : layout) (axes : list Z) : Prop :=
  gpu_ok x l axes /\ unsliced l /\ zprod (out_shape axes (l_shape l)) <= 1024 /\ red_factor l axes < 2 ^ 31.
(** Numbers whose magnitudes add up to at most 2^124. *)
Definition in_reach (xs : list f32) : Prop := Forall (fun x => is_finite x = true) xs /\ (rsum (map Rabs (map (@B2R 24 128) xs)) <= bpow radix2 124)%R.
(** A number within 2^-19 of the sum of magnitudes from the exact sum, however many elements there are. *)
Definition gpu_sum_of (xs : list f32) (v : f32) : Prop :=
  is_finite v = true /\ (Rabs (B2R v - rsum (map (@B2R 24 128) xs)) <= / 524288 * rsum (map Rabs (map (@B2R 24 128) xs)))%R.
(** A number within 2^-19 of the mean magnitude, and an underflow of 2^-140, from the exact mean. *)
Definition gpu_mean_of (xs : list f32) (v : f32) : Prop :=
  is_finite v = true /\ (Rabs (B2R v - rsum (map (@B2R 24 128) xs) / IZR (zlen xs)) <= / 524288 * (rsum (map Rabs (map (@B2R 24 128) xs)) / IZR (zlen xs)) + bpow radix2 (-140))%R.

Section Bounds.
  Local Open Scope R_scope.
  Lemma sum_end p s xs : (p <= 9)%nat -> sum_level p s xs -> in_reach xs -> gpu_sum_of xs s.
  Proof.
    intros Hp H A. destruct (H A Hp) as (F & E). split; [exact F|]. eapply Rle_trans; [exact E|]. change (rsum (map Rabs (map (@B2R 24 128) xs))) with (rabs (vals xs)). destruct (level_range p Hp).
    apply Rmult_le_compat_r; [apply rabs_nonneg|]. lra.
  Qed.
  Lemma mean_end p s xs : (p <= 9)%nat -> (1 <= zlen xs)%Z -> mean_level (zlen xs) p s xs -> in_reach xs -> gpu_mean_of xs s.
  Proof.
    intros Hp Hn H A. destruct (H A Hp) as (F & E). split; [exact F|]. eapply Rle_trans; [exact E|]. change (rsum (map Rabs (map (@B2R 24 128) xs))) with (rabs (vals xs)). destruct (level_range p Hp).
    apply Rplus_le_compat; [|now apply small_le]. apply Rmult_le_compat_r; [|lra]. apply Rmult_le_pos; [apply rabs_nonneg|]. apply Rlt_le, Rinv_0_lt_compat. apply IZR_lt. lia.
  Qed.
  Lemma mmean_end p s xs : (p <= 9)%nat -> (1 <= zlen xs < 2 ^ 31)%Z -> msum_level p s xs -> in_reach xs -> gpu_mean_of xs (Bdiv mode_NE (fst s) (f32_of_Z (snd s))).
  Proof.
    intros Hp Hn (H & E) A. destruct (H A Hp) as (F & B). destruct (level_range p Hp). rewrite E. unfold cnt. rewrite Z.mod_small by lia.
    destruct (div_close (fst s) _ _ (17 + 9 / 8 * INR p) (zlen xs) F Hn (rsum_abs (vals xs)) (proj2 A) ltac:(lra) B) as (F' & B'). split; [exact F'|]. eapply Rle_trans; [exact B'|].
    change (rsum (map Rabs (map (@B2R 24 128) xs))) with (rabs (vals xs)). apply Rplus_le_compat; [|apply bpow_le; lia]. apply Rmult_le_compat_r; [|lra]. apply Rmult_le_pos; [apply rabs_nonneg|]. apply Rlt_le, Rinv_0_lt_compat. apply IZR_lt. lia.
  Qed.
End Bounds.

(** C102: sums and means on a GPU are close to the exact ones, however many elements, under every schedule. *)
Theorem C102_gpu_sum : forall l lm axes x mask, few_outputs x l axes ->
  gpu_yields (gk_sum ops32) l lm axes x mask (fun out => forall oi es xs, in_range (out_shape axes (l_shape l)) oi ->
    enumerates (l_shape l) axes oi es -> reads x l es xs -> exists v, out 0 oi = Some v /\ (in_reach xs -> gpu_sum_of xs v)).
Proof.
  intros l lm axes x mask (H & U & N & Rf).
  eapply gpu_weaken; [|eapply (joint_value (gk_sum ops32) kstate sum_level l lm axes x mask (fun xs _ v => in_reach xs -> gpu_sum_of xs v) sum_joint H U ltac:(discriminate) N Rf)].
  - cbn beta. intros out Ho oi es xs Hoi He Hx. exact (Ho oi es xs 0%nat Hoi ltac:(cbn; lia) He Hx).
  - intros oi es xs k g s p _ _ _ Eg Hp T. destruct k as [|[|k]]; try discriminate. injection Eg as <-. now apply (sum_end p).
Qed.
Print Assumptions C102_gpu_sum.
Theorem C102_gpu_mean : forall l lm axes x mask, few_outputs x l axes ->
  gpu_yields (gk_mean ops32 (red_factor l axes)) l lm axes x mask (fun out => forall oi es xs, in_range (out_shape axes (l_shape l)) oi ->
    enumerates (l_shape l) axes oi es -> reads x l es xs -> exists v, out 0 oi = Some v /\ (in_reach xs -> gpu_mean_of xs v)).
Proof.
  intros l lm axes x mask (H & U & N & Rf). assert (R1 : 1 <= red_factor l axes).
  { unfold red_factor. destruct H as ((_ & _ & Hg & _) & HP & _). apply zprod_posl, posl_sub; [exact HP|]. destruct (good_all_if_nil _ _ Hg) as (_ & F). exact F. }
  eapply gpu_weaken; [|eapply (joint_value (gk_mean ops32 (red_factor l axes)) kstate (mean_level (red_factor l axes)) l lm axes x mask (fun xs _ v => in_reach xs -> gpu_mean_of xs v) (mean_joint _ (conj R1 Rf)) H U ltac:(discriminate) N Rf)].
  - cbn beta. intros out Ho oi es xs Hoi He Hx. exact (Ho oi es xs 0%nat Hoi ltac:(cbn; lia) He Hx).
  - intros oi es xs k g s p Hoi He Hx Eg Hp T. destruct k as [|[|k]]; try discriminate. injection Eg as <-. change (reads x l es xs) in Hx. destruct (nonempty x l axes oi es xs H Hoi He Hx) as (E & _). rewrite <- E in T. apply (mean_end p); auto. lia.
Qed.
Print Assumptions C102_gpu_mean.
Theorem C102_gpu_masked : forall l lm axes x mask, few_outputs x l axes -> mask_ok l lm mask ->
  let holds (f : list f32 -> f32 -> Prop) := fun out : Z -> list Z -> option f32 => forall oi es xs, in_range (out_shape axes (l_shape l)) oi -> enumerates (l_shape l) axes oi es ->
    reads x l (unmasked lm mask es) xs -> exists v, out 0 oi = Some v /\ f xs v in
  gpu_yields (gk_msum ops32) l lm axes x mask (holds (fun xs v => in_reach xs -> gpu_sum_of xs v)) /\
  gpu_yields (gk_mmean ops32) l lm axes x mask (holds (fun xs v => in_reach xs -> xs <> [] -> gpu_mean_of xs v)).
Proof.
  intros l lm axes x mask (H & U & N & Rf) Hm holds.
  assert (UM : forall S C Y (K : kernel f32 S C Y) es, k_masked K = true -> usable K lm mask es = unmasked lm mask es).
  { intros S C Y K es Hk. destruct Hm as (_ & _ & Um & _). unfold usable, unmasked. now rewrite Hk, (unsliced_eq _ Um). }
  split.
  - eapply gpu_weaken; [|eapply (joint_value (gk_msum ops32) mkstate msum_level l lm axes x mask (fun xs _ v => in_reach xs -> gpu_sum_of xs v) (masked_joint _) H U (fun _ => Hm) N Rf)].
    + cbn beta. intros out Ho oi es xs Hoi He Hx. rewrite <- (UM _ _ _ (gk_msum ops32)) in Hx by reflexivity. exact (Ho oi es xs 0%nat Hoi ltac:(cbn; lia) He Hx).
    + intros oi es xs k g s p _ _ _ Eg Hp (T & _). destruct k as [|[|k]]; try discriminate. injection Eg as <-. now apply (sum_end p).
  - eapply gpu_weaken; [|eapply (joint_value (gk_mmean ops32) mkstate msum_level l lm axes x mask (fun xs _ v => in_reach xs -> xs <> [] -> gpu_mean_of xs v) (masked_joint _) H U (fun _ => Hm) N Rf)].
    + cbn beta. intros out Ho oi es xs Hoi He Hx. rewrite <- (UM _ _ _ (gk_mmean ops32)) in Hx by reflexivity. exact (Ho oi es xs 0%nat Hoi ltac:(cbn; lia) He Hx).
    + intros oi es xs k g s p Hoi He Hx Eg Hp T A Ne. destruct k as [|[|k]]; try discriminate. injection Eg as <-. apply (mmean_end p); auto. rewrite UM in Hx by reflexivity. pose proof (reads_length _ _ _ _ Hx) as L.
      destruct H as ((_ & _ & Hg & _) & HP & _). pose proof (enumerates_count (l_shape l) axes oi es HP Hg Hoi He) as Le. change (zlen es = red_factor l axes) in Le.
      assert (FL : forall (q : list Z -> bool) l, (length (filter q l) <= length l)%nat) by (clear; intros q l; induction l as [|a l IH]; cbn; [lia|destruct (q a); cbn; lia]).
      specialize (FL (fun idx => match elt mask lm idx with Some b => b =? 0 | None => false end) es). fold (unmasked lm mask es) in FL. unfold zlen in *. destruct xs; [easy|]. cbn [length] in *. lia.
Qed.
Print Assumptions C102_gpu_masked.

(** "A sum is the same on either device" is false: a CPU stops counting ones at 2^24, a GPU does not. *)
Lemma ones_in_reach n : (Z.of_nat n < 2 ^ 31) -> in_reach (repeat (f32_of_Z 1) n) /\ rsum (map (@B2R 24 128) (repeat (f32_of_Z 1) n)) = INR n /\ rsum (map Rabs (map (@B2R 24 128) (repeat (f32_of_Z 1) n))) = INR n.
Proof.
  intros Hn. destruct (f32_of_Z_ok 1 ltac:(lia)) as (V & F).
  assert (E : forall n, rsum (map (@B2R 24 128) (repeat (f32_of_Z 1) n)) = INR n /\ rsum (map Rabs (map (@B2R 24 128) (repeat (f32_of_Z 1) n))) = INR n).
  { intros k. induction k as [|k (IH1 & IH2)]; [split; reflexivity|]. cbn [repeat map]. rewrite !rsum_cons, IH1, IH2, V, S_INR, Rabs_R1. split; ring. }
  destruct (E n) as (E1 & E2). split; [|split; assumption]. split; [apply Forall_forall; intros x Hx; apply repeat_spec in Hx as ->; exact F|]. rewrite E2, INR_IZR_INZ. apply Rle_trans with (bpow radix2 31); [change (bpow radix2 31) with (IZR (2 ^ 31)); apply IZR_le; lia|apply bpow_le; lia].
Qed.
Theorem C102_devices_agree_refuted : forall junk l lm axes x mask, few_outputs x l axes -> PropFsum.float_array l x axes -> (forall e, In e x -> e = f32_of_Z 1) ->
  (exists vs, FsumModel.float_sum junk l x axes = Ok (dense (out_shape axes (l_shape l)), vs) /\
    forall o, in_range (out_shape axes (l_shape l)) o -> exists v, elt vs (dense (out_shape axes (l_shape l))) o = Some v /\ is_finite v = true /\ B2R v = IZR (Z.min (red_factor l axes) (2 ^ 24))) /\
  gpu_yields (gk_sum ops32) l lm axes x mask (fun out => forall o, in_range (out_shape axes (l_shape l)) o -> exists v, out 0 o = Some v /\ is_finite v = true /\
    (Rabs (B2R v - IZR (red_factor l axes)) <= / 524288 * IZR (red_factor l axes))%R).
Proof.
  intros junk l lm axes x mask H Hf H1. pose proof H as ((Hr & HP & Hd) & U & N & Rf). pose proof Hr as (_ & _ & Hg & _ & Hi).
  assert (C : forall o es, in_range (out_shape axes (l_shape l)) o -> enumerates (l_shape l) axes o es -> zlen es = red_factor l axes) by (intros o es Ho He; exact (enumerates_count (l_shape l) axes o es HP Hg Ho He)).
  split.
  - destruct (PropFsum.C91_sum_refuted junk l x axes Hf H1) as (vs & E & Hv). exists vs. split; [exact E|]. intros o Ho. destruct (Hv o Ho) as (es & v & He & Ev & F & V). exists v. rewrite (C o es Ho He) in V. auto.
  - eapply gpu_weaken; [|apply (C102_gpu_sum l lm axes x mask H)]. cbn beta. intros out Ho o Hin. destruct (PropFsum.C91_sum_refuted junk l x axes Hf H1) as (vs & _ & Hv). destruct (Hv o Hin) as (es & _ & He & _).
    assert (X : exists xs, reads x l es xs). { assert (Ha : forall idx, In idx es -> in_range (l_shape l) idx) by (intros idx Hx; destruct He as (_ & He); apply He in Hx; tauto). clear He. induction es as [|e es IH]; [exists []; constructor|].
      destruct IH as (xs & Hx); [intros; apply Ha; now right|]. destruct (znth_some x (cell l e)) as (v & Ev); [apply Hi, Ha; now left|]. exists (v :: xs). constructor; [exact Ev|exact Hx]. }
    destruct X as (xs & Hx). destruct (Ho o es xs Hin He Hx) as (v & Ev & Hs). exists v. split; [exact Ev|]. pose proof (reads_length _ _ _ _ Hx) as L. rewrite (C o es Hin He) in L.
    rewrite (PropFsum.reads_from x l es xs _ H1 Hx) in Hs. destruct (ones_in_reach (length xs) ltac:(unfold zlen in L; lia)) as (A & E1 & E2). destruct (Hs A) as (F & B). split; [exact F|]. rewrite E1, E2, INR_IZR_INZ in B. unfold zlen in L. now rewrite L in B.
Qed.
Print Assumptions C102_devices_agree_refuted.
Lemma ones_case (x : mem f32) : zlen x = 2 ^ 30 -> few_outputs x (dense [2 ^ 30]) [] /\ PropFsum.float_array (dense [2 ^ 30]) x [] /\ red_factor (dense [2 ^ 30]) [] = 2 ^ 30.
Proof.
  intros L. destruct (dense_ok x [2 ^ 30] []) as (H & U); [repeat constructor|vm_compute; discriminate|split; constructor|reflexivity|rewrite L; reflexivity|].
  split; [split; [exact H|split; [exact U|split; [vm_compute; discriminate|reflexivity]]]|]. split; [split; [apply H|split; [apply H|reflexivity]]|reflexivity].
Qed.
(** The hypotheses hold of 2^30 ones: the CPU's sum is 2^24, the GPU's at least 2^29. *)
Example C102_case : exists x, few_outputs x (dense [2 ^ 30]) [] /\ PropFsum.float_array (dense [2 ^ 30]) x [] /\ (forall e, In e x -> e = f32_of_Z 1) /\ red_factor (dense [2 ^ 30]) [] = 2 ^ 30.
Proof.
  assert (X : exists x : mem f32, zlen x = 2 ^ 30 /\ forall e, In e x -> e = f32_of_Z 1).
  { remember (2 ^ 30) as n eqn:E. exists (repeat (f32_of_Z 1) (Z.to_nat n)). split; [unfold zlen; rewrite repeat_length; apply Z2Nat.id; rewrite E; discriminate|]. intros e He. now apply repeat_spec in He. }
  destruct X as (x & L & H). exists x. destruct (ones_case x L) as (A & B & C). auto.
Qed.
(** A masked array of both signs. *)
Definition mixed : mem f32 := map f32_of_Z [3; -1; 4; 1; -5; 9].
Definition mixed_mask : mem Z := [0; 1; 0; 0; 0; 7].
Example C102_masked_case : few_outputs mixed (dense [2; 3]) [1] /\ mask_ok (dense [2; 3]) (dense [2; 3]) mixed_mask /\ in_reach mixed.
Proof.
  destruct (dense_ok mixed [2; 3] [1]) as (H & U); [repeat constructor|vm_compute; discriminate|split; [repeat constructor; auto|repeat constructor; unfold zlen; cbn; lia]|reflexivity|reflexivity|].
  split; [split; [exact H|split; [exact U|split; [vm_compute; discriminate|reflexivity]]]|]. split.
  - split; [split; reflexivity|]. split; [reflexivity|]. split; [exact U|]. destruct H as ((_ & _ & _ & _ & Hi) & _). exact Hi.
  - split.
    + unfold mixed. apply Forall_map. repeat (apply Forall_cons || apply Forall_nil); apply f32_of_Z_ok; lia.
    + unfold mixed. rewrite map_map. cbn [map]. rewrite (proj1 (f32_of_Z_ok 3 ltac:(lia))), (proj1 (f32_of_Z_ok (-1) ltac:(lia))), (proj1 (f32_of_Z_ok 4 ltac:(lia))), (proj1 (f32_of_Z_ok 1 ltac:(lia))), (proj1 (f32_of_Z_ok (-5) ltac:(lia))), (proj1 (f32_of_Z_ok 9 ltac:(lia))).
      rewrite !rsum_cons, rsum_nil, <- !abs_IZR. cbn [Z.abs]. apply Rle_trans with (bpow radix2 5); [change (bpow radix2 5) with 32%R; lra|apply bpow_le; lia].
Qed.
