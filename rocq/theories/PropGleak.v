(** Property theorems C105: rounding errors of GPU sums and means with any number of outputs. *)
From Verif Require Import PropGred GredReal GredExact GredKernels GaccRel GleakRel.
From Coq Require Import ZifyBool ZifyNat Lia Permutation Reals Lra.
From Flocq Require Import Core BinarySingleNaN.
From Verif Require Import DriftFloatProofs FsumFacts FsumProofs GaccProofs PropGacc GleakProofs.
Local Open Scope Z_scope.

(** Arrays whose reductions are covered: what a kernel can take, unsliced, of 32-bit extent; the number of outputs is free. *)
Definition any_outputs (x : mem f32) (l : layout) (axes : list Z) : Prop := gpu_ok x l axes /\ unsliced l /\ red_factor l axes < 2 ^ 31.
(** [M] bounds the magnitudes of the elements that are used anywhere in the array, and leaves room for their sums. *)
Definition magnitudes (used : list Z -> Prop) (x : mem f32) (l : layout) (axes : list Z) (M : R) : Prop :=
  (0 <= M)%R /\ (IZR (red_factor l axes) * M <= bpow radix2 123)%R /\
  forall idx v, in_range (l_shape l) idx -> used idx -> elt x l idx = Some v -> is_finite v = true /\ (Rabs (B2R v) <= M)%R.
(** Error of a sum: 2^-19 of the magnitudes added, and 2^-20 of as many elements of the largest magnitude in the array. *)
Definition sum_near (rf : Z) (M : R) (xs : list f32) (v : f32) : Prop := is_finite v = true /\
  (Rabs (B2R v - rsum (map (@B2R 24 128) xs)) <= / 524288 * rsum (map Rabs (map (@B2R 24 128) xs)) + / 1048576 * (IZR rf * M))%R.
Definition mean_near (rf : Z) (M : R) (xs : list f32) (v : f32) : Prop := is_finite v = true /\
  (Rabs (B2R v - rsum (map (@B2R 24 128) xs) / IZR (zlen xs)) <=
   / 524288 * (rsum (map Rabs (map (@B2R 24 128) xs)) / IZR (zlen xs)) + / 1048576 * (IZR rf * M / IZR (zlen xs)) + bpow radix2 (-140))%R.

Lemma factor_pos (x : mem f32) l axes : gpu_ok x l axes -> 1 <= red_factor l axes.
Proof. intros ((_ & _ & Hg & _) & HP & _). unfold red_factor. apply zprod_posl, posl_sub; [exact HP|]. destruct (good_all_if_nil _ _ Hg) as (_ & F). exact F. Qed.
Lemma reads_held M x l es xs : (forall idx v, In idx es -> elt x l idx = Some v -> is_finite v = true /\ (Rabs (B2R v) <= M)%R) -> reads x l es xs -> Forall (held M) xs.
Proof. intros H Hx. induction Hx as [|idx v es xs E _ IH]; constructor; [apply (H idx v); [now left|exact E]|]. apply IH. intros i w Hi. apply H. now right. Qed.
Lemma share_fits rf M : 1 <= rf < 2 ^ 31 -> (0 <= M)%R -> (IZR rf * M <= bpow radix2 123)%R -> 1 <= share rf <= 2 ^ 22 /\ (IZR (share rf) * M <= bpow radix2 123)%R.
Proof.
  intros Hr M0 HM. destruct (share_total rf ltac:(lia)) as (B & S1 & _). pose proof (few_iterations rf 0 Hr ltac:(lia)) as S2. change (share rf <= 2 ^ 22) in S2. split; [lia|].
  eapply Rle_trans; [|exact HM]. apply Rmult_le_compat_r; [exact M0|]. apply IZR_le. destruct (Z_le_gt_dec (share rf) rf) as [L|L]; [exact L|]. exfalso.
  assert (0 + block_size rf * (share rf - 1) < rf) by (apply (iterations_spec 0 rf (block_size rf) (share rf - 1)); unfold share in *; lia). nia.
Qed.

(** C105: with any number of outputs, sums and means on a GPU are close to the exact ones. *)
Theorem C105_gpu_sum : forall l lm axes x mask M, any_outputs x l axes -> magnitudes (fun _ => True) x l axes M ->
  gpu_yields (gk_sum ops32) l lm axes x mask (fun out => forall oi es xs, in_range (out_shape axes (l_shape l)) oi ->
    enumerates (l_shape l) axes oi es -> reads x l es xs -> exists v, out 0 oi = Some v /\ sum_near (red_factor l axes) M xs v).
Proof.
  intros l lm axes x mask M (H & U & Rf) (M0 & MR & HM). pose proof (factor_pos x l axes H) as R1. destruct (share_fits _ M (conj R1 Rf) M0 MR) as (N1 & NM). destruct (share_total _ R1) as (_ & _ & B2).
  eapply gpu_weaken; [|eapply (leak_value (gk_sum ops32) (held M) (share (red_factor l axes)) _ _ _ l lm axes x mask (fun xs _ v => sum_near (red_factor l axes) M xs v) (sum_leak M _ M0 N1 NM) H U ltac:(discriminate) eq_refl ltac:(lia))].
  - cbn beta. intros out Ho oi es xs Hoi He Hx. exact (Ho oi es xs 0%nat Hoi ltac:(cbn; lia) He Hx).
  - intros idx v Hi E _. exact (HM idx v Hi I E).
  - intros oi es xs k g s p Hoi He Hx Eg Hp EB T. destruct k as [|[|k]]; try discriminate. injection Eg as <-. change (reads x l es xs) in Hx. destruct (nonempty x l axes oi es xs H Hoi He Hx) as (L & _).
    rewrite EB in B2. apply (lsum_end M (share (red_factor l axes)) M0 N1 (red_factor l axes) p Hp B2 MR s xs); [|lia|exact T].
    apply (reads_held M x l es); [|exact Hx]. intros idx v Hi E. apply (HM idx v); [|exact I|exact E]. destruct He as (_ & He). apply He in Hi. tauto.
Qed.
Print Assumptions C105_gpu_sum.
Theorem C105_gpu_mean : forall l lm axes x mask M, any_outputs x l axes -> magnitudes (fun _ => True) x l axes M ->
  gpu_yields (gk_mean ops32 (red_factor l axes)) l lm axes x mask (fun out => forall oi es xs, in_range (out_shape axes (l_shape l)) oi ->
    enumerates (l_shape l) axes oi es -> reads x l es xs -> exists v, out 0 oi = Some v /\ mean_near (red_factor l axes) M xs v).
Proof.
  intros l lm axes x mask M (H & U & Rf) (M0 & MR & HM). pose proof (factor_pos x l axes H) as R1. destruct (share_fits _ M (conj R1 Rf) M0 MR) as (N1 & NM). destruct (share_total _ R1) as (_ & _ & B2).
  eapply gpu_weaken; [|eapply (leak_value (gk_mean ops32 (red_factor l axes)) (held M) (share (red_factor l axes)) _ _ _ l lm axes x mask (fun xs _ v => mean_near (red_factor l axes) M xs v) (mean_leak M _ M0 N1 NM _ (conj R1 Rf)) H U ltac:(discriminate) eq_refl ltac:(lia))].
  - cbn beta. intros out Ho oi es xs Hoi He Hx. exact (Ho oi es xs 0%nat Hoi ltac:(cbn; lia) He Hx).
  - intros idx v Hi E _. exact (HM idx v Hi I E).
  - intros oi es xs k g s p Hoi He Hx Eg Hp EB T. destruct k as [|[|k]]; try discriminate. injection Eg as <-. change (reads x l es xs) in Hx. destruct (nonempty x l axes oi es xs H Hoi He Hx) as (L & _).
    rewrite EB in B2. destruct (lmean_end M (share (red_factor l axes)) M0 N1 (red_factor l axes) p Hp B2 R1 MR s xs L Rf) as (F & E); [|exact T|].
    + apply (reads_held M x l es); [|exact Hx]. intros idx v Hi E. apply (HM idx v); [|exact I|exact E]. destruct He as (_ & He). apply He in Hi. tauto.
    + split; [exact F|]. rewrite L. replace (IZR (red_factor l axes) * M / IZR (red_factor l axes))%R with M; [exact E|]. field. apply not_0_IZR. lia.
Qed.
Print Assumptions C105_gpu_mean.
Theorem C105_gpu_masked : forall l lm axes x mask M, any_outputs x l axes -> mask_ok l lm mask -> magnitudes (fun idx => elt mask lm idx = Some 0) x l axes M ->
  let holds (f : list f32 -> f32 -> Prop) := fun out : Z -> list Z -> option f32 => forall oi es xs, in_range (out_shape axes (l_shape l)) oi -> enumerates (l_shape l) axes oi es ->
    reads x l (unmasked lm mask es) xs -> exists v, out 0 oi = Some v /\ f xs v in
  gpu_yields (gk_msum ops32) l lm axes x mask (holds (sum_near (red_factor l axes) M)) /\
  gpu_yields (gk_mmean ops32) l lm axes x mask (holds (fun xs v => xs <> [] -> mean_near (red_factor l axes) M xs v)).
Proof.
  intros l lm axes x mask M (H & U & Rf) Hm (M0 & MR & HM) holds. pose proof (factor_pos x l axes H) as R1. destruct (share_fits _ M (conj R1 Rf) M0 MR) as (N1 & NM). destruct (share_total _ R1) as (_ & _ & B2).
  assert (UM : forall S C Y (K : kernel f32 S C Y) es, k_masked K = true -> usable K lm mask es = unmasked lm mask es).
  { intros S C Y K es Hk. destruct Hm as (_ & _ & Um & _). unfold usable, unmasked. now rewrite Hk, (unsliced_eq _ Um). }
  assert (FL : forall (q : list Z -> bool) l, (length (filter q l) <= length l)%nat) by (clear; intros q l; induction l as [|a l IH]; cbn; [lia|destruct (q a); cbn; lia]).
  assert (G : forall oi es xs, in_range (out_shape axes (l_shape l)) oi -> enumerates (l_shape l) axes oi es -> reads x l (unmasked lm mask es) xs -> zlen xs <= red_factor l axes /\ Forall (held M) xs).
  { intros oi es xs Hoi He Hx. split.
    - pose proof (reads_length _ _ _ _ Hx) as L. destruct H as ((_ & _ & Hg & _) & HP & _). pose proof (enumerates_count (l_shape l) axes oi es HP Hg Hoi He) as Le. change (zlen es = red_factor l axes) in Le.
      specialize (FL (fun idx => match elt mask lm idx with Some b => b =? 0 | None => false end) es). fold (unmasked lm mask es) in FL. unfold zlen in *. lia.
    - apply (reads_held M x l (unmasked lm mask es)); [|exact Hx]. intros idx v Hi E. unfold unmasked in Hi. apply filter_In in Hi as (Hi & Hq). apply (HM idx v); [| |exact E].
      + destruct He as (_ & He). apply He in Hi. tauto.
      + destruct (elt mask lm idx) as [b|]; [f_equal; lia|discriminate]. }
  split.
  - eapply gpu_weaken; [|eapply (leak_value (gk_msum ops32) (held M) (share (red_factor l axes)) _ _ _ l lm axes x mask (fun xs _ v => sum_near (red_factor l axes) M xs v) (masked_leak M _ M0 N1 NM _) H U (fun _ => Hm) eq_refl ltac:(lia))].
    + cbn beta. intros out Ho oi es xs Hoi He Hx. rewrite <- (UM _ _ _ (gk_msum ops32)) in Hx by reflexivity. exact (Ho oi es xs 0%nat Hoi ltac:(cbn; lia) He Hx).
    + intros idx v Hi E Hk. exact (HM idx v Hi (Hk eq_refl) E).
    + intros oi es xs k g s p Hoi He Hx Eg Hp EB (T & _). destruct k as [|[|k]]; try discriminate. injection Eg as <-. rewrite UM in Hx by reflexivity. destruct (G oi es xs Hoi He Hx) as (L & Fl).
      rewrite EB in B2. exact (lsum_end M (share (red_factor l axes)) M0 N1 (red_factor l axes) p Hp B2 MR _ xs Fl L T).
  - eapply gpu_weaken; [|eapply (leak_value (gk_mmean ops32) (held M) (share (red_factor l axes)) _ _ _ l lm axes x mask (fun xs _ v => xs <> [] -> mean_near (red_factor l axes) M xs v) (masked_leak M _ M0 N1 NM _) H U (fun _ => Hm) eq_refl ltac:(lia))].
    + cbn beta. intros out Ho oi es xs Hoi He Hx. rewrite <- (UM _ _ _ (gk_mmean ops32)) in Hx by reflexivity. exact (Ho oi es xs 0%nat Hoi ltac:(cbn; lia) He Hx).
    + intros idx v Hi E Hk. exact (HM idx v Hi (Hk eq_refl) E).
    + intros oi es xs k g s p Hoi He Hx Eg Hp EB T Ne. destruct k as [|[|k]]; try discriminate. injection Eg as <-. rewrite UM in Hx by reflexivity. destruct (G oi es xs Hoi He Hx) as (L & Fl).
      rewrite EB in B2. assert (1 <= zlen xs) by (unfold zlen in *; destruct xs; [easy|cbn [length]; lia]). exact (lmmean_end M (share (red_factor l axes)) M0 N1 (red_factor l axes) p Hp B2 MR s xs ltac:(lia) Rf Fl T).
Qed.
Print Assumptions C105_gpu_masked.

(** "The error of an output is bounded by its own elements" is false beyond 1024 outputs: this output's elements are zeros. *)
Lemma leaky_held e : In e leaky -> is_finite e = true /\ (Rabs (B2R e) <= bpow radix2 31)%R.
Proof.
  unfold leaky. intros He. apply in_map_iff in He as (z & <- & Hz).
  assert (R : 0 <= z <= 2 ^ 30). { destruct Hz as [<-|[<-|[<-|Hz]]]; try lia. apply in_map_iff in Hz as (? & <- & _). lia. }
  clear Hz. destruct (KurtProofs.of_Z_near z ltac:(lia)) as (F & (Z0 & V0 & _ & B)). split; [exact F|]. rewrite Rabs_pos_eq by exact V0. eapply Rle_trans; [exact B|]. rewrite pow_1, KurtProofs.u_val.
  apply Rle_trans with (IZR (2 ^ 30) * 2)%R; [|change (bpow radix2 31) with (IZR (2 ^ 31)); rewrite <- mult_IZR; apply IZR_le; lia].
  assert (IZR z <= IZR (2 ^ 30))%R by (apply IZR_le; lia). set (q := IZR (2 ^ 30)) in *. clearbody q. lra.
Qed.
Theorem C105_own_elements_refuted :
  any_outputs leaky (dense [1025; 3]) [1] /\ magnitudes (fun _ => True) leaky (dense [1025; 3]) [1] (bpow radix2 31) /\
  forall lm mask, gpu_yields (gk_sum ops32) (dense [1025; 3]) lm [1] leaky mask (fun out => exists v, out 0 [1024] = Some v /\
    forall es xs, enumerates [1025; 3] [1] [1024] es -> reads leaky (dense [1025; 3]) es xs -> in_reach xs /\ ~ gpu_sum_of xs v).
Proof.
  destruct C76_leaked_correction_refuted as (H & Hz & Hv). split; [|split].
  - split; [exact H|]. split; [|reflexivity]. unfold unsliced. repeat constructor.
  - split; [apply bpow_ge_0|]. split.
    + change (red_factor (dense [1025; 3]) [1]) with 3. apply Rle_trans with (bpow radix2 2 * bpow radix2 31)%R; [apply Rmult_le_compat_r; [apply bpow_ge_0|change (bpow radix2 2) with 4%R; lra]|]. rewrite <- bpow_plus. apply bpow_le. lia.
    + intros idx v _ _ E. apply leaky_held. unfold elt, znth in E. destruct (_ <? 0); [discriminate|]. eapply nth_error_In. exact E.
  - intros lm mask. eapply gpu_weaken; [|apply (Hv lm mask)]. cbn beta. intros out (v & Ho & Ev). exists v. split; [exact Ho|]. intros es xs He Hx.
    assert (Hx0 : Forall (fun x => x = f32_of_Z 0) xs).
    { destruct He as (_ & He). assert (Hin : forall idx, In idx es -> exists j, idx = [1024; j] /\ 0 <= j < 3).
      { intros idx Hi. apply He in Hi as (Hr & Ho'). inversion Hr as [|? i ? r Hi Hr1]; subst. inversion Hr1 as [|? j ? r1 Hj Hr2]; subst. inversion Hr2; subst. cbn in Ho'. injection Ho' as ->. exists j. split; [reflexivity|lia]. }
      clear He Hv Ho Ev. revert Hin. induction Hx as [|idx w es xs E _ IH]; intros Hin; constructor; [|apply IH; intros i Hi; apply Hin; now right].
      destruct (Hin idx (or_introl eq_refl)) as (j & -> & Hj). unfold elt in E. change (cell (dense [1025; 3]) [1024; j]) with (0 + (1024 * 3 + (j * 1 + 0))) in E. rewrite Hz in E by lia. congruence. }
    destruct (f32_of_Z_ok 0 ltac:(lia)) as (V0 & F0).
    assert (S0 : rsum (map (@B2R 24 128) xs) = 0%R /\ rsum (map Rabs (map (@B2R 24 128) xs)) = 0%R).
    { clear - Hx0 V0. induction Hx0 as [|w xs -> _ (I1 & I2)]; [split; reflexivity|]. cbn [map]. rewrite !rsum_cons, I1, I2, V0, Rabs_R0. split; ring. }
    destruct S0 as (S1 & S2). split.
    + split; [|rewrite S2; apply bpow_ge_0]. eapply Forall_impl; [|exact Hx0]. intros w ->. exact F0.
    + intros (F & B). rewrite S1, S2, Rmult_0_r, Rminus_0_r in B. destruct (f32_of_Z_ok 1 ltac:(lia)) as (V1 & F1).
      unfold f32eq in Ev. rewrite (Bcompare_correct 24 128 v (f32_of_Z 1) F F1), V1 in Ev. destruct (Rcompare_spec (B2R v) 1) as [C|C|C]; try discriminate. rewrite C, Rabs_R1 in B. lra.
Qed.
Print Assumptions C105_own_elements_refuted.

(** The hypotheses hold of time samples of four thousand channels, averaged per channel. *)
Definition waterfall (n : Z) : mem f32 := map (fun i => f32_of_Z (i mod 1000 + 1)) (zrange n).
Lemma waterfall_len n : 0 <= n -> zlen (waterfall n) = n. Proof. intros H. unfold waterfall, zlen. rewrite map_length. pose proof (zrange_length n) as E. unfold zlen in E. lia. Qed.
Lemma waterfall_case (x : mem f32) : zlen x = 16 * 4096 -> (forall v, In v x -> is_finite v = true /\ (Rabs (B2R v) <= 1000)%R) ->
  any_outputs x (dense [16; 4096]) [0] /\ magnitudes (fun _ => True) x (dense [16; 4096]) [0] 1000.
Proof.
  intros L Hx. destruct (dense_ok x [16; 4096] [0]) as (H & U); [repeat constructor|vm_compute; discriminate|split; [repeat constructor; auto|repeat constructor; unfold zlen; cbn; lia]|reflexivity|rewrite L; reflexivity|].
  split; [split; [exact H|split; [exact U|reflexivity]]|]. split; [lra|]. split.
  - change (red_factor (dense [16; 4096]) [0]) with 16. apply Rle_trans with (bpow radix2 20); [change (bpow radix2 20) with 1048576%R; lra|apply bpow_le; lia].
  - intros idx v _ _ E. unfold elt, znth in E. destruct (_ <? 0); [discriminate|]. apply nth_error_In in E. now apply Hx.
Qed.
Example C105_case : exists x, any_outputs x (dense [16; 4096]) [0] /\ magnitudes (fun _ => True) x (dense [16; 4096]) [0] 1000 /\ zprod (out_shape [0] [16; 4096]) = 4096.
Proof.
  assert (X : forall n, 0 <= n -> exists x : mem f32, zlen x = n /\ forall v, In v x -> is_finite v = true /\ (Rabs (B2R v) <= 1000)%R).
  { intros n Hn. exists (waterfall n). split; [now apply waterfall_len|]. intros v E. unfold waterfall in E. apply in_map_iff in E as (i & <- & _). pose proof (Z.mod_pos_bound i 1000 ltac:(lia)).
    destruct (f32_of_Z_ok (i mod 1000 + 1) ltac:(lia)) as (V & F). split; [exact F|]. rewrite V, Rabs_pos_eq by (apply IZR_le; lia). apply IZR_le. lia. }
  destruct (X (16 * 4096) ltac:(lia)) as (x & L & Hx). exists x. destruct (waterfall_case x L Hx) as (A & B). split; [exact A|]. split; [exact B|reflexivity].
Qed.
