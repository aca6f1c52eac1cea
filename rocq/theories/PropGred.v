(** Property theorems C75, C76: reductions on a GPU. *)
From Verif Require Import GredReal GredNever CcFloat HitFacts PropRed.
From Coq Require Import ZifyBool ZifyNat Reals Lra Lia.
From Flocq Require Import IEEE754.BinarySingleNaN.
Local Open Scope Z_scope.

(** Arrays a kernel can take: non-empty, at most four dimensions, data inside its buffer. *)
Definition gpu_ok {X} (x : mem X) (l : layout) (axes : list Z) : Prop := red_hyps x l axes /\ posl (l_shape l) /\ ndim l <= 4.
Definition unsliced (l : layout) : Prop := Forall (fun o => o = 0) (l_offsets l).
Definition mask_ok (l lm : layout) (mask : mem Z) : Prop := wf lm /\ l_shape lm = l_shape l /\ unsliced lm /\ inside lm (zlen mask).
Lemma unsliced_eq l : unsliced l -> unshift l = l.
Proof. destruct l as [sh st of]. unfold unsliced, unshift. cbn. intros H. f_equal. induction H as [|o of -> H IH]; cbn; congruence. Qed.

Lemma gpu_inhabited {X} (x : mem X) l axes : gpu_ok x l axes -> exists d : X, znth x (cell l (GredIndex.pos (l_shape l) [] 0 0)) = Some d.
Proof. intros ((_ & _ & _ & _ & Hi) & HP & _). apply znth_some. apply Hi. now apply pos_range. Qed.

(** What a caller sees: every execution of the launch terminates without deadlock, race-induced undefined behaviour or error,
    and the outputs are as stated ([gpu_yields], GredExact.v). *)
Lemma gpu_value {X S C Y} (K : kernel X S C Y) l lm axes x mask R1 R2 I (f : list X -> nat -> Y -> Prop) :
  kernel_rel K R1 R2 I -> gpu_ok x l axes -> unsliced l -> (k_masked K = true -> mask_ok l lm mask) ->
  (k_chained K = true -> zlen (out_shape axes (l_shape l)) = 1 \/ zprod (out_shape axes (l_shape l)) <= 1024) ->
  (forall oi es xs k g s, in_range (out_shape axes (l_shape l)) oi -> enumerates (l_shape l) axes oi es -> reads x l (usable K lm mask es) xs ->
     nth_error (k_outs K) k = Some g -> R2 s xs -> f xs k (g s)) ->
  gpu_yields K l lm axes x mask (fun out => forall oi es xs k, in_range (out_shape axes (l_shape l)) oi -> (k < length (k_outs K))%nat ->
    enumerates (l_shape l) axes oi es -> reads x l (usable K lm mask es) xs -> exists v, out (Z.of_nat k) oi = Some v /\ f xs k v).
Proof.
  intros HK (Hr & HP & Hn) Hu Hm Hc Hf. pose proof (unsliced_eq l Hu) as El.
  assert (Hr' : red_hyps x (unshift l) axes) by now rewrite El.
  assert (Hm' : k_masked K = true -> wf lm /\ l_shape lm = l_shape l /\ inside (unshift lm) (zlen mask)).
  { intros Hk. destruct (Hm Hk) as (W & E & U & Hi). rewrite (unsliced_eq _ U). auto. }
  destruct (gpu_inhabited x l axes (conj Hr (conj HP Hn))) as (d & _).
  destruct (gpu_reduce K l lm axes x mask (proj1 Hr) Hr' HP Hn Hm' Hc d) as (Hy & Hv).
  rewrite El in Hv. destruct Hy as (grid & Eg & Hy). exists grid. split; [exact Eg|]. intros jS jY. destruct (Hy jS jY) as (H1 & H2). split; [exact H1|].
    intros o Ho. destruct (H2 o Ho) as (c & E & H3 & H4). exists c. split; [exact E|]. split; [exact H3|]. intros Hd oi es xs k Hoi Hk He Hx.
    destruct (nth_error (k_outs K) k) as [g|] eqn:Eg'; [|apply nth_error_None in Eg'; lia].
    eexists. split; [apply (H4 Hd oi k g Hoi Eg')|]. exact (Hf oi es xs k g _ Hoi He Hx Eg' (Hv R1 R2 I HK oi Hoi es xs He Hx)).
Qed.
Lemma gpu_weaken {X S C Y} (K : kernel X S C Y) l lm axes x mask (P Q : (Z -> list Z -> option Y) -> Prop) :
  (forall out, P out -> Q out) -> gpu_yields K l lm axes x mask P -> gpu_yields K l lm axes x mask Q.
Proof.
  intros HPQ (grid & Eg & Hy). exists grid. split; [exact Eg|]. intros jS jY. destruct (Hy jS jY) as (H1 & H2). split; [exact H1|].
  intros o Ho. destruct (H2 o Ho) as (c & E & H3 & H4). exists c. auto.
Qed.

Lemma nonempty {X} (x : mem X) l axes oi es xs : gpu_ok x l axes -> in_range (out_shape axes (l_shape l)) oi ->
  enumerates (l_shape l) axes oi es -> reads x l es xs -> zlen xs = red_factor l axes /\ xs <> [].
Proof.
  intros ((W & N & Hg & _) & HP & _) Hoi He Hx. pose proof (reads_length _ _ _ _ Hx) as L.
  rewrite (enumerates_count (l_shape l) axes oi es HP Hg Hoi He) in L. split; [exact L|].
  assert (1 <= zprod (map (getz (l_shape l)) (all_if_nil (zlen (l_shape l)) axes))).
  { apply zprod_posl. apply posl_sub; [exact HP|]. destruct (good_all_if_nil _ _ Hg) as (_ & F). exact F. }
  intros ->. rewrite <- L in H. unfold zlen in H. cbn [length] in H. lia.
Qed.

(** C75: sums, means, deviations and maxima computed on a GPU are those of exactly the elements that belong to each output, each
    taken once, under every schedule of the threads. *)
Theorem C75_gpu_sum : forall l lm axes x mask, gpu_ok x l axes -> unsliced l ->
  gpu_yields (gk_sum opsR) l lm axes x mask (fun out => forall oi es xs, in_range (out_shape axes (l_shape l)) oi ->
    enumerates (l_shape l) axes oi es -> reads x l es xs -> out 0 oi = Some (rsum xs)).
Proof.
  intros l lm axes x mask H U. eapply gpu_weaken; [|eapply (gpu_value _ l lm axes x mask _ _ _ (fun xs k v => v = rsum xs) sum_rel H U); try discriminate].
  - intros out Ho oi es xs Hoi He Hx. destruct (Ho oi es xs 0%nat Hoi) as (v & E & ->); [cbn; lia|auto|auto|exact E].
  - intros oi es xs [|k] g s _ _ _ Hg ->; [|destruct k; discriminate]. injection Hg as <-. reflexivity.
Qed.
Print Assumptions C75_gpu_sum.

Theorem C75_gpu_mean : forall l lm axes x mask, gpu_ok x l axes -> unsliced l ->
  gpu_yields (gk_mean opsR (red_factor l axes)) l lm axes x mask (fun out => forall oi es xs, in_range (out_shape axes (l_shape l)) oi ->
    enumerates (l_shape l) axes oi es -> reads x l es xs -> out 0 oi = Some (rmean xs)).
Proof.
  intros l lm axes x mask H U. eapply gpu_weaken; [|eapply (gpu_value _ l lm axes x mask _ _ _ (fun xs k v => v = rmean xs) (mean_rel _) H U); try discriminate].
  - intros out Ho oi es xs Hoi He Hx. destruct (Ho oi es xs 0%nat Hoi) as (v & E & ->); [cbn; lia|auto|auto|exact E].
  - intros oi es xs [|k] g s Hoi He Hx Hg ->; [|destruct k; discriminate]. injection Hg as <-.
    destruct (nonempty x l axes oi es xs H Hoi He Hx) as (<- & _). reflexivity.
Qed.
Print Assumptions C75_gpu_mean.

Lemma moments rf s xs : (fst s = rsum xs / IZR rf /\ snd s = rsum (squares xs) / IZR rf)%R -> zlen xs = rf -> xs <> [] ->
  fin_var opsR relu s = rvar xs /\ fst s = rmean xs.
Proof.
  intros (H1 & H2) L N. unfold fin_var. cbn [o_sub o_mul opsR]. rewrite H1, H2, <- L, rvar_moments by exact N.
  split; [|reflexivity]. unfold relu. apply Rmax_right. now apply rvar_nonneg.
Qed.
Theorem C75_gpu_stddev_var : forall l lm axes x mask, gpu_ok x l axes -> unsliced l ->
  gpu_yields (gk_stddev opsR sqrt relu (red_factor l axes)) l lm axes x mask (fun out => forall oi es xs, in_range (out_shape axes (l_shape l)) oi ->
    enumerates (l_shape l) axes oi es -> reads x l es xs -> out 0 oi = Some (sqrt (rvar xs))) /\
  gpu_yields (gk_var opsR relu (red_factor l axes)) l lm axes x mask (fun out => forall oi es xs, in_range (out_shape axes (l_shape l)) oi ->
    enumerates (l_shape l) axes oi es -> reads x l es xs -> out 0 oi = Some (rvar xs)).
Proof.
  intros l lm axes x mask H U. split.
  - eapply gpu_weaken; [|eapply (gpu_value _ l lm axes x mask _ _ _ (fun xs k v => v = sqrt (rvar xs)) (sums_rel _ _ _) H U); try discriminate].
    + intros out Ho oi es xs Hoi He Hx. destruct (Ho oi es xs 0%nat Hoi) as (v & E & ->); [cbn; lia|auto|auto|exact E].
    + intros oi es xs [|k] g s Hoi He Hx Hg HS; [|destruct k; discriminate]. injection Hg as <-.
      destruct (nonempty x l axes oi es xs H Hoi He Hx) as (L & N). unfold fin_std. now rewrite (proj1 (moments _ s xs HS L N)).
  - eapply gpu_weaken; [|eapply (gpu_value _ l lm axes x mask _ _ _ (fun xs k v => v = rvar xs) (sums_rel _ _ _) H U); try discriminate].
    + intros out Ho oi es xs Hoi He Hx. destruct (Ho oi es xs 0%nat Hoi) as (v & E & ->); [cbn; lia|auto|auto|exact E].
    + intros oi es xs [|k] g s Hoi He Hx Hg HS; [|destruct k; discriminate]. injection Hg as <-.
      destruct (nonempty x l axes oi es xs H Hoi He Hx) as (L & N). apply (moments _ s xs HS L N).
Qed.
Print Assumptions C75_gpu_stddev_var.

(** The combined mean and deviation, for outputs of one dimension or at most 1024 elements (see C76 for the others). *)
Theorem C75_gpu_mean_stddev : forall l lm axes x mask, gpu_ok x l axes -> unsliced l ->
  zlen (out_shape axes (l_shape l)) = 1 \/ zprod (out_shape axes (l_shape l)) <= 1024 ->
  gpu_yields (gk_mean_stddev opsR sqrt relu (red_factor l axes)) l lm axes x mask (fun out => forall oi es xs, in_range (out_shape axes (l_shape l)) oi ->
    enumerates (l_shape l) axes oi es -> reads x l es xs -> out 0 oi = Some (rmean xs) /\ out 1 oi = Some (sqrt (rvar xs))).
Proof.
  intros l lm axes x mask H U Hs.
  eapply gpu_weaken; [|eapply (gpu_value _ l lm axes x mask _ _ _ (fun xs k v => v = match k with O => rmean xs | _ => sqrt (rvar xs) end) (sums_rel _ _ _) H U); try discriminate; auto].
  - intros out Ho oi es xs Hoi He Hx. destruct (Ho oi es xs 0%nat Hoi) as (v & E1 & ->); [cbn; lia|auto|auto|].
    destruct (Ho oi es xs 1%nat Hoi) as (v & E2 & ->); [cbn; lia|auto|auto|]. split; [exact E1|exact E2].
  - intros oi es xs k g s Hoi He Hx Hg HS. destruct (nonempty x l axes oi es xs H Hoi He Hx) as (L & N). destruct (moments _ s xs HS L N) as (M1 & M2).
    destruct k as [|[|k]]; [injection Hg as <-; exact M2|injection Hg as <-|destruct k; discriminate]. unfold fin_std. now rewrite M1.
Qed.
Print Assumptions C75_gpu_mean_stddev.

(** Masked: only elements whose mask byte is 0 count; at least one, and fewer than 2^32, are needed. *)
Definition unmasked (lm : layout) (mask : mem Z) (es : list (list Z)) : list (list Z) := filter (fun idx => match elt mask lm idx with Some b => b =? 0 | None => false end) es.
Lemma usable_masked {S C Y} (K : kernel R S C Y) l lm mask es : k_masked K = true -> mask_ok l lm mask -> usable K lm mask es = unmasked lm mask es.
Proof. intros Hk (_ & _ & U & _). unfold usable, unmasked. rewrite Hk, (unsliced_eq _ U). reflexivity. Qed.
Lemma counted_mean {S} (P : S -> list R -> Prop) s xs : counted P s xs -> zlen xs < 2 ^ 32 -> P (fst s) xs /\ snd s = zlen xs.
Proof. intros (H1 & H2) L. rewrite Z.mod_small in H2 by (unfold zlen in *; lia). auto. Qed.
Theorem C75_gpu_masked : forall l lm axes x mask, gpu_ok x l axes -> unsliced l -> mask_ok l lm mask ->
  let holds (f : (Z -> list Z -> option R) -> list Z -> list R -> Prop) := fun out : Z -> list Z -> option R => forall oi es xs, in_range (out_shape axes (l_shape l)) oi -> enumerates (l_shape l) axes oi es ->
    reads x l (unmasked lm mask es) xs -> xs <> [] -> zlen xs < 2 ^ 32 -> f out oi xs in
  gpu_yields (gk_msum opsR) l lm axes x mask (holds (fun out oi xs => out 0 oi = Some (rsum xs))) /\
  gpu_yields (gk_mmean opsR) l lm axes x mask (holds (fun out oi xs => out 0 oi = Some (rmean xs))) /\
  gpu_yields (gk_mstddev opsR sqrt relu) l lm axes x mask (holds (fun out oi xs => out 0 oi = Some (sqrt (rvar xs)))) /\
  gpu_yields (gk_mvar opsR relu) l lm axes x mask (holds (fun out oi xs => out 0 oi = Some (rvar xs))) /\
  gpu_yields (gk_mmean_stddev opsR sqrt relu) l lm axes x mask
    (holds (fun out oi xs => out 0 oi = Some (rmean xs) /\ out 1 oi = Some (sqrt (rvar xs)))).
Proof.
  intros l lm axes x mask H U Hm holds.
  assert (MV : forall s xs, counted is_sums s xs -> xs <> [] -> zlen xs < 2 ^ 32 -> fin_mvar opsR relu s = rvar xs /\ fst (norm2 opsR (snd s) (fst s)) = rmean xs).
  { intros s xs HS N L. destruct (counted_mean _ s xs HS L) as ((E1 & E2) & E3). unfold fin_mvar.
    apply (moments (zlen xs)); auto. unfold norm2. cbn. rewrite E1, E2, E3. auto. }
  repeat split.
  - eapply gpu_weaken; [|eapply (gpu_value (gk_msum opsR) l lm axes x mask _ _ _ (fun xs k v => v = rsum xs) (msum_rel _) H U); auto; try discriminate].
    + intros out Ho oi es xs Hoi He Hx N L. rewrite <- (usable_masked (gk_msum opsR) l) in Hx by auto. destruct (Ho oi es xs 0%nat Hoi) as (v & E & ->); [cbn; lia|auto|auto|exact E].
    + intros oi es xs [|k] g s Hoi He Hx Hg HS; [|destruct k; discriminate]. injection Hg as <-. apply HS.
  - eapply gpu_weaken; [|eapply (gpu_value (gk_mmean opsR) l lm axes x mask _ _ _ (fun xs k v => zlen xs < 2 ^ 32 -> v = rmean xs) (msum_rel _) H U); auto; try discriminate].
    + intros out Ho oi es xs Hoi He Hx N L. rewrite <- (usable_masked (gk_mmean opsR) l) in Hx by auto. destruct (Ho oi es xs 0%nat Hoi) as (v & E & F); [cbn; lia|auto|auto|]. rewrite F in E by auto. exact E.
    + intros oi es xs [|k] g s Hoi He Hx Hg HS L; [|destruct k; discriminate]. injection Hg as <-. destruct (counted_mean _ s xs HS L) as (E1 & E2).
      unfold is_sum in E1. cbn. rewrite E1, E2. reflexivity.
  - eapply gpu_weaken; [|eapply (gpu_value (gk_mstddev opsR sqrt relu) l lm axes x mask _ _ _ (fun xs k v => xs <> [] -> zlen xs < 2 ^ 32 -> v = sqrt (rvar xs)) (msums_rel _) H U); auto; try discriminate].
    + intros out Ho oi es xs Hoi He Hx N L. rewrite <- (usable_masked (gk_mstddev opsR sqrt relu) l) in Hx by auto. destruct (Ho oi es xs 0%nat Hoi) as (v & E & F); [cbn; lia|auto|auto|]. rewrite F in E by auto. exact E.
    + intros oi es xs [|k] g s Hoi He Hx Hg HS N L; [|destruct k; discriminate]. injection Hg as <-. unfold fin_mstd. now rewrite (proj1 (MV s xs HS N L)).
  - eapply gpu_weaken; [|eapply (gpu_value (gk_mvar opsR relu) l lm axes x mask _ _ _ (fun xs k v => xs <> [] -> zlen xs < 2 ^ 32 -> v = rvar xs) (msums_rel _) H U); auto; try discriminate].
    + intros out Ho oi es xs Hoi He Hx N L. rewrite <- (usable_masked (gk_mvar opsR relu) l) in Hx by auto. destruct (Ho oi es xs 0%nat Hoi) as (v & E & F); [cbn; lia|auto|auto|]. rewrite F in E by auto. exact E.
    + intros oi es xs [|k] g s Hoi He Hx Hg HS N L; [|destruct k; discriminate]. injection Hg as <-. now apply MV.
  - eapply gpu_weaken; [|eapply (gpu_value (gk_mmean_stddev opsR sqrt relu) l lm axes x mask _ _ _
      (fun xs k v => xs <> [] -> zlen xs < 2 ^ 32 -> v = match k with O => rmean xs | _ => sqrt (rvar xs) end) (msums_rel _) H U); auto; try discriminate].
    + intros out Ho oi es xs Hoi He Hx N L. rewrite <- (usable_masked (gk_mmean_stddev opsR sqrt relu) l) in Hx by auto.
      destruct (Ho oi es xs 0%nat Hoi) as (v & E1 & F1); [cbn; lia|auto|auto|]. destruct (Ho oi es xs 1%nat Hoi) as (w & E2 & F2); [cbn; lia|auto|auto|].
      rewrite F1 in E1 by auto. rewrite F2 in E2 by auto. split; [exact E1|exact E2].
    + intros oi es xs k g s Hoi He Hx Hg HS N L. destruct (MV s xs HS N L) as (M1 & M2).
      destruct k as [|[|k]]; [injection Hg as <-; exact M2|injection Hg as <-|destruct k; discriminate]. unfold fin_mstd. now rewrite M1.
Qed.
Print Assumptions C75_gpu_masked.

(** NaN-free maximum: the largest element that is not NaN, or the lowest float; elements that are NaN are passed over. *)
Lemma f32gt_spec (a b : f32) : f32gt a b = true <-> is_nan a = false /\ is_nan b = false /\ (xval b < xval a)%R.
Proof.
  unfold f32gt. destruct (is_nan a) eqn:Ea; [rewrite compare_nan by auto; split; [discriminate|intros (H & _); discriminate]|].
  destruct (is_nan b) eqn:Eb; [rewrite compare_nan by auto; split; [discriminate|intros (_ & H & _); discriminate]|].
  rewrite compare_val by auto. destruct (Rcompare_spec (xval a) (xval b)); split; intros H'; try discriminate; try reflexivity; try lra; auto; destruct H' as (_ & _ & H'); lra.
Qed.
Theorem C75_gpu_max : forall (lowest : f32) l lm axes x mask, is_nan lowest = false -> gpu_ok x l axes -> unsliced l ->
  gpu_yields (gk_max f32gt lowest) l lm axes x mask (fun out => forall oi es xs, in_range (out_shape axes (l_shape l)) oi ->
    enumerates (l_shape l) axes oi es -> reads x l es xs -> exists v, out 0 oi = Some v /\
      is_nan v = false /\ In v (lowest :: xs) /\ forall y, In y (lowest :: xs) -> f32gt y v = false).
Proof.
  intros lowest l lm axes x mask HN H U.
  assert (HR : kernel_rel (gk_max f32gt lowest) (is_max f32gt (fun v => is_nan v = false) lowest) (is_max f32gt (fun v => is_nan v = false) lowest) (fun _ => True)).
  { apply max_rel; [exact HN| | | |].
    - intros a. apply Bool.not_true_is_false. rewrite f32gt_spec. lra.
    - intros a b. rewrite f32gt_spec. tauto.
    - intros a b c. rewrite !f32gt_spec. intros (H1 & H2 & H3) (H4 & H5 & H6). repeat split; auto; lra.
    - intros a b c Hb. rewrite !f32gt_spec. intros (H1 & H2 & H3). destruct (Rlt_dec (xval b) (xval a)); [left; auto|right; repeat split; auto; lra]. }
  eapply gpu_weaken; [|eapply (gpu_value _ l lm axes x mask _ _ _ (fun xs k v => is_max f32gt (fun v => is_nan v = false) lowest v xs) HR H U); try discriminate].
  - intros out Ho oi es xs Hoi He Hx. destruct (Ho oi es xs 0%nat Hoi) as (v & E & F); [cbn; lia|auto|auto|]. exists v. split; [exact E|exact F].
  - intros oi es xs [|k] g s Hoi He Hx Hg HS; [|destruct k; discriminate]. injection Hg as <-. exact HS.
Qed.
Print Assumptions C75_gpu_max.

(** In any arithmetic the outputs are a function of the input alone: no schedule, and nothing left in memory, changes them. *)
Theorem C75_schedule_independent : forall X S C Y (K : kernel X S C Y) l lm axes x mask,
  gpu_ok x l axes -> unsliced l -> (k_masked K = true -> mask_ok l lm mask) ->
  (k_chained K = true -> zlen (out_shape axes (l_shape l)) = 1 \/ zprod (out_shape axes (l_shape l)) <= 1024) ->
  exists val : list Z -> S, gpu_yields K l lm axes x mask (fun out =>
    forall oi k f, in_range (out_shape axes (l_shape l)) oi -> nth_error (k_outs K) k = Some f -> out (Z.of_nat k) oi = Some (f (val oi))).
Proof.
  intros X S C Y K l lm axes x mask H U Hm Hc. destruct (gpu_inhabited x l axes H) as (d & _). pose proof (unsliced_eq l U) as El.
  destruct H as (Hr & HP & Hn).
  assert (Hr' : red_hyps x (unshift l) axes) by now rewrite El.
  assert (Hm' : k_masked K = true -> wf lm /\ l_shape lm = l_shape l /\ inside (unshift lm) (zlen mask)).
  { intros Hk. destruct (Hm Hk) as (W & E & Um & Hi). rewrite (unsliced_eq _ Um). auto. }
  destruct (gpu_reduce K l lm axes x mask (proj1 Hr) Hr' HP Hn Hm' Hc d) as (Hy & _).
  eauto.
Qed.
Print Assumptions C75_schedule_independent.

(** The GPU and the CPU agree (in exact arithmetic). *)
Theorem C75_agrees_with_cpu : forall l lm axes x mask junk, gpu_ok x l axes -> unsliced l ->
  (exists vs, nd_sum 0%R Rplus junk l x axes = Ok (dense (out_shape axes (l_shape l)), vs) /\
    gpu_yields (gk_sum opsR) l lm axes x mask (fun out => forall oi, in_range (out_shape axes (l_shape l)) oi ->
      out 0 oi = elt vs (dense (out_shape axes (l_shape l))) oi)) /\
  (exists vs, nd_mean 0%R Rplus (fun s n => s / IZR n)%R junk l x axes = Ok (dense (out_shape axes (l_shape l)), vs) /\
    gpu_yields (gk_mean opsR (red_factor l axes)) l lm axes x mask (fun out => forall oi, in_range (out_shape axes (l_shape l)) oi ->
      out 0 oi = elt vs (dense (out_shape axes (l_shape l))) oi)).
Proof.
  intros l lm axes x mask junk H U. split.
  - destruct (C09_sum R 0%R Rplus junk l x axes (proj1 H)) as (vs & E & _ & Hv). exists vs. split; [exact E|].
    eapply gpu_weaken; [|apply C75_gpu_sum; auto]. intros out Ho oi Hoi. destruct (Hv oi Hoi) as (es & xs & He & Hx & ->).
    rewrite (Ho oi es xs Hoi He Hx). now rewrite fold_rsum, Rplus_0_l.
  - destruct (C09_mean R R R 0%R Rplus (fun s n => s / IZR n)%R junk l x axes (proj1 H)) as (vs & E & _ & Hv). exists vs. split; [exact E|].
    eapply gpu_weaken; [|apply C75_gpu_mean; auto]. intros out Ho oi Hoi. destruct (Hv oi Hoi) as (es & xs & He & Hx & ->).
    rewrite (Ho oi es xs Hoi He Hx). unfold rmean. now rewrite fold_rsum, Rplus_0_l, (reads_length _ _ _ _ Hx).
Qed.
Print Assumptions C75_agrees_with_cpu.

(** Non-trivial case: the rows of a 2x3 array. *)
Lemma dense_ok {X} (x : mem X) sh axes : posl sh -> zlen sh <= 4 -> good_axes (zlen sh) axes -> zprod (out_shape axes sh) < 2 ^ 31 -> zlen x = zprod sh ->
  gpu_ok x (dense sh) axes /\ unsliced (dense sh).
Proof.
  intros HP Hn Hg Hs Hx. split; [|apply Forall_map, Forall_forall; reflexivity]. split; [|split; [exact HP|exact Hn]].
  split; [apply dense_wf|]. split; [eapply Forall_impl; [|exact HP]; cbn; lia|]. split; [exact Hg|]. split; [exact Hs|].
  intros idx Hi. rewrite Hx. apply (oix_of sh idx HP Hi).
Qed.
Example C75_case : gpu_yields (gk_sum opsR) (dense [2; 3]) (dense []) [1] [1; 2; 3; 4; 5; 6]%R [] (fun out => out 0 [0] = Some 6%R /\ out 0 [1] = Some 15%R) /\
  gpu_yields (gk_var opsR relu 3) (dense [2; 3]) (dense []) [1] [1; 2; 3; 4; 5; 6]%R [] (fun out => out 0 [1] = Some (2 / 3)%R).
Proof.
  assert (H : gpu_ok [1; 2; 3; 4; 5; 6]%R (dense [2; 3]) [1] /\ unsliced (dense [2; 3])).
  { apply dense_ok; [repeat constructor; lia|vm_compute; discriminate|split; [repeat constructor; auto|repeat constructor; unfold zlen; cbn; lia]|vm_compute; reflexivity|reflexivity]. }
  assert (E : forall i, 0 <= i < 2 -> enumerates [2; 3] [1] [i] [[i; 0]; [i; 1]; [i; 2]]).
  { intros i Hi. pose proof (fibre_enumerates [2; 3] [1] [i]) as F. unfold fibre in F. cbn in F. apply F; [apply (proj1 H)|]. repeat constructor; cbn; lia. }
  destruct H as (H & U). split.
  - eapply gpu_weaken; [|apply (C75_gpu_sum (dense [2; 3]) (dense []) [1] _ [] H U)]. intros out Ho. split.
    + rewrite (Ho [0] [[0; 0]; [0; 1]; [0; 2]] [1; 2; 3]%R); [f_equal; cbn; lra|repeat constructor; cbn; lia|apply (E 0); lia|repeat constructor].
    + rewrite (Ho [1] [[1; 0]; [1; 1]; [1; 2]] [4; 5; 6]%R); [f_equal; cbn; lra|repeat constructor; cbn; lia|apply (E 1); lia|repeat constructor].
  - eapply gpu_weaken; [|apply (proj2 (C75_gpu_stddev_var (dense [2; 3]) (dense []) [1] _ [] H U))]. intros out Ho.
    rewrite (Ho [1] [[1; 0]; [1; 1]; [1; 2]] [4; 5; 6]%R); [f_equal; unfold rvar, rmean; change (zlen [4; 5; 6]%R) with 3; cbn; field|repeat constructor; cbn; lia|apply (E 1); lia|repeat constructor].
Qed.

Example C75_masked_case : let x := [1; 2; 3; 4; 5; 6]%R in let mask := [0; 1; 0; 1; 1; 0] in
  mask_ok (dense [2; 3]) (dense [2; 3]) mask /\ reads x (dense [2; 3]) (unmasked (dense [2; 3]) mask [[0; 0]; [0; 1]; [0; 2]]) [1; 3]%R /\
  zprod (out_shape [1] [2; 3]) <= 1024.
Proof.
  cbn zeta. split; [|split; [repeat constructor|vm_compute; discriminate]].
  split; [apply dense_wf|]. split; [reflexivity|]. split; [repeat constructor|apply dense_inside].
Qed.

(** ** C76: where the GPU's results are not those of the CPU *)
(** A slice is reduced as if it began at the start of its buffer. *)
Theorem C76_offsets_ignored : forall l lm axes x mask, wf l -> gpu_ok x (unshift l) axes ->
  gpu_yields (gk_sum opsR) l lm axes x mask (fun out => forall oi es xs, in_range (out_shape axes (l_shape l)) oi ->
    enumerates (l_shape l) axes oi es -> reads x (unshift l) es xs -> out 0 oi = Some (rsum xs)).
Proof.
  intros l lm axes x mask W (Hr & HP & Hn).
  destruct (gpu_reduce (gk_sum opsR) l lm axes x mask W Hr HP Hn ltac:(discriminate) ltac:(discriminate) 0%R) as (Hy & Hv).
  eapply gpu_weaken; [|exact Hy]. cbn beta. intros out Ho oi es xs Hoi He Hx.
  pose proof (Ho oi 0%nat (fun s => s) Hoi eq_refl) as E. etransitivity; [exact E|]. f_equal. exact (Hv _ _ _ sum_rel oi Hoi es xs He Hx).
Qed.
Print Assumptions C76_offsets_ignored.
Theorem C76_sliced_input_refuted : exists l x, gpu_ok x l [] /\ nd_sum 0%R Rplus (fun _ => 0%R) l x [] = Ok (dense [1], [0 + 2 + 3]%R) /\
  forall lm mask, gpu_yields (gk_sum opsR) l lm [] x mask (fun out => out 0 [0] = Some 3%R).
Proof.
  exists (Layout [2] [1] [1]), [1; 2; 3]%R. split; [|split; [reflexivity|]].
  - split; [|split; [repeat constructor; lia|vm_compute; discriminate]].
    split; [split; reflexivity|]. split; [repeat constructor; cbn; lia|]. split; [split; constructor|]. split; [vm_compute; reflexivity|].
    intros idx Hi. inversion Hi as [|? i ? r Hi' Hr]; subst. inversion Hr; subst. unfold cell, zlen, zsum. cbn [l_shape l_strides l_offsets unshift length combine map fold_right fst snd] in *. cbn. lia.
  - intros lm mask. eapply gpu_weaken; [|apply C76_offsets_ignored; [split; reflexivity|]].
    + intros out Ho. rewrite (Ho [0] [[0]; [1]] [1; 2]%R); [f_equal; cbn; lra|repeat constructor; cbn; lia| |repeat constructor].
      pose proof (fibre_enumerates [2] [] [0]) as F. unfold fibre in F. cbn in F. apply F; [split; constructor|]. repeat constructor; cbn; lia.
    + split; [|split; [repeat constructor; lia|vm_compute; discriminate]].
      split; [split; reflexivity|]. split; [repeat constructor; cbn; lia|]. split; [split; constructor|]. split; [vm_compute; reflexivity|].
      intros idx Hi. inversion Hi as [|? i ? r Hi' Hr]; subst. inversion Hr; subst. unfold cell, zlen, zsum. cbn [l_shape l_strides l_offsets unshift length combine map fold_right fst snd] in *. cbn. lia.
Qed.
Print Assumptions C76_sliced_input_refuted.

(** Beyond 1024 outputs the rounding correction of one output leaks into a later one: a row of zeros sums to 1. *)
Definition ops32 : numops f32 := Ops (Bplus mode_NE) (Bminus mode_NE) (Bmult mode_NE) (Bdiv mode_NE) Babs f32lt f32_of_Z (fun _ => UB).
Definition leaky : mem f32 := map f32_of_Z (2 ^ 30 :: 0 :: 1 :: map (fun _ => 0) (zrange 3072)).
Theorem C76_leaked_correction_refuted : 
  gpu_ok leaky (dense [1025; 3]) [1] /\ (forall i, 3 <= i < 3075 -> znth leaky i = Some (f32_of_Z 0)) /\
  forall lm mask, gpu_yields (gk_sum ops32) (dense [1025; 3]) lm [1] leaky mask (fun out => exists v, out 0 [1024] = Some v /\ f32eq v (f32_of_Z 1) = true).
Proof.
  assert (L : zlen leaky = 3075) by (vm_compute; reflexivity).
  assert (H : gpu_ok leaky (dense [1025; 3]) [1] /\ unsliced (dense [1025; 3])).
  { apply dense_ok; [repeat constructor; lia|vm_compute; discriminate|split; [repeat constructor; auto|repeat constructor; unfold zlen; cbn; lia]|vm_compute; reflexivity|rewrite L; reflexivity]. }
  split; [apply H|]. split.
  - intros i Hi. unfold leaky, znth. replace (i <? 0) with false by lia.
    replace (Z.to_nat i) with (3 + Z.to_nat (i - 3))%nat by lia. cbn [plus map nth_error]. rewrite !nth_error_map, nth_error_zrange by lia. reflexivity.
  - intros lm mask. destruct H as ((Hr & HP & Hn) & U). pose proof (unsliced_eq _ U) as El.
    assert (Hr' : red_hyps leaky (unshift (dense [1025; 3])) [1]) by now rewrite El.
    destruct (gpu_reduce (gk_sum ops32) (dense [1025; 3]) lm [1] leaky mask (proj1 Hr) Hr' HP Hn ltac:(discriminate) ltac:(discriminate) (f32_of_Z 0)) as (Hy & _).
    eapply gpu_weaken; [|exact Hy]. cbn beta. intros out Ho. exists (gpu_val (gk_sum ops32) (dense [1025; 3]) lm [1] leaky mask (f32_of_Z 0) [1024]).
    split; [apply (Ho [1024] 0%nat (fun s => s)); [repeat constructor; cbn; lia|reflexivity]|].
    unfold gpu_val, result.
    (* the mask is not looked at *)
    match goal with |- f32eq (total _ _ _ ?xv ?mv _ _ _) _ = _ => generalize mv end. intros mv. vm_compute. reflexivity.
Qed.
Print Assumptions C76_leaked_correction_refuted.

(** With more than 1024 outputs in at least two rows, the unmasked mean_stddev never writes the last deviation: whatever the
    fresh buffer held is returned, for every input, in every execution. *)
Theorem C76_last_deviation_unwritten : forall {F} (O : numops F) sqrtF relu rf l lm axes x mask rest q grid junkS junkY c,
  let K := gk_mean_stddev O sqrtF relu rf in
  let osh := out_shape axes (l_shape l) in
  let B := block_size (zprod (map (getz (l_shape l)) (all_if_nil (ndim l) axes))) in
  posl (l_shape l) -> osh = rest ++ [q] -> 2 <= q -> 2 <= zprod rest -> 1024 < zprod osh ->
  launch K l lm axes = Ok grid ->
  bgsteps gaddr_eqb (fun u _ => u) (gmem0 K osh B (num_blocks (zprod osh)) x mask junkS junkY, grid) (Ok c) ->
  fst c (GOut 1 (zprod osh - 1)) = Some (VY (junkY 1 (zprod osh - 1))).
Proof.
  intros F O sqrtF relu rf l lm axes x mask rest q grid jS jY c K osh B HP Eo Hq Hr Hn Hl Hs.
  unfold launch in Hl. rewrite <- out_shape_reduced in Hl. fold osh in Hl. destruct (_ || _); [discriminate|].
  assert (HO : posl osh) by now apply out_shape_posl.
  assert (EG : num_blocks (zprod osh) = 1024) by (unfold num_blocks; lia). rewrite EG in *.
  injection Hl as <-. rewrite Eo in *.
  rewrite (nowr_steps gaddr_eqb gaddr_eqb_spec (fun u _ => u) (GOut 1 (zprod (rest ++ [q]) - 1)) _ _ Hs) with (c' := c); [|apply (missed_blocks K fst (fin_std O sqrtF relu) eq_refl eq_refl); auto|reflexivity].
  cbn [fst gmem0]. change (zlen (k_outs K)) with 2. unfold onumel.
  replace ((0 <=? 1) && (1 <? 2) && (0 <=? zprod (rest ++ [q]) - 1) && (zprod (rest ++ [q]) - 1 <? zprod (rest ++ [q]))) with true by lia. reflexivity.
Qed.
Print Assumptions C76_last_deviation_unwritten.
Example C76_last_deviation_case : let sh := [2; 600; 4] in exists rest q grid, out_shape [2] sh = rest ++ [q] /\ 2 <= q /\ 2 <= zprod rest /\ 1024 < zprod (out_shape [2] sh) /\
  launch (gk_mean_stddev opsR sqrt relu 4) (dense sh) (dense sh) [2] = Ok grid.
Proof. exists [2], 600. eexists. split; [reflexivity|]. split; [lia|]. split; [vm_compute; discriminate|]. split; [vm_compute; reflexivity|]. unfold launch. cbn. reflexivity. Qed.

(** When every element is masked the GPU's mean is NaN, where the CPU throws. *)
Lemma blank_rel : kernel_rel (gk_mmean ops32) (fun s l => l = [] -> s = (B754_zero false, 0)) (fun s l => l = [] -> s = (B754_zero false, 0)) (fun _ => True).
Proof.
  constructor; auto.
  - intros s c x l _ _. split; [|exact Logic.I]. intros E. destruct l; discriminate.
  - intros s s' l l' H H' E. apply app_eq_nil in E. destruct E as (E1 & E2). rewrite (H E1), (H' E2). reflexivity.
  - intros s l l' HP H E. subst. apply Permutation_sym, Permutation_nil in HP. auto.
Qed.
Theorem C76_all_masked_nan : forall l lm axes x mask, gpu_ok x l axes -> unsliced l -> mask_ok l lm mask ->
  gpu_yields (gk_mmean ops32) l lm axes x mask (fun out => forall oi es, in_range (out_shape axes (l_shape l)) oi -> enumerates (l_shape l) axes oi es ->
    unmasked lm mask es = [] -> out 0 oi = Some B754_nan).
Proof.
  intros l lm axes x mask H U Hm.
  eapply gpu_weaken; [|eapply (gpu_value (gk_mmean ops32) l lm axes x mask _ _ _ (fun xs k v => xs = [] -> v = B754_nan) blank_rel H U); auto; try discriminate].
  - intros out Ho oi es Hoi He Hn. destruct (Ho oi es [] 0%nat Hoi) as (v & E & F); [cbn; lia|auto| |].
    + unfold usable. cbn [k_masked gk_mmean]. destruct Hm as (_ & _ & Um & _). rewrite (unsliced_eq _ Um). change (reads x l (unmasked lm mask es) []). rewrite Hn. constructor.
    + now rewrite (F eq_refl) in E.
  - intros oi es xs [|k] g s Hoi He Hx Hg HS E; [|destruct k; discriminate]. injection Hg as <-. rewrite (HS E). reflexivity.
Qed.
Print Assumptions C76_all_masked_nan.

(** More than four dimensions overrun the kernels' fixed index arrays. *)
Theorem C76_five_dimensions_refuted : forall l lm axes x junk, red_hyps x l axes -> 4 < ndim l ->
  (exists vs, nd_sum 0%R Rplus junk l x axes = Ok (dense (out_shape axes (l_shape l)), vs)) /\ launch (gk_sum opsR) l lm axes = UB.
Proof.
  intros l lm axes x junk H Hn. split; [destruct (C09_sum R 0%R Rplus junk l x axes H) as (vs & E & _); eauto|].
  unfold launch. now replace (4 <? ndim l) with true by lia.
Qed.
Print Assumptions C76_five_dimensions_refuted.
Example C76_five_dimensions_case : red_hyps [7; 8]%R (dense [1; 2; 1; 1; 1]) [0] /\ 4 < ndim (dense [1; 2; 1; 1; 1]).
Proof.
  split; [|vm_compute; reflexivity]. split; [apply dense_wf|]. split; [repeat constructor; cbn; lia|].
  split; [split; [repeat constructor; auto|repeat constructor; unfold ndim, zlen; cbn; lia]|]. split; [vm_compute; reflexivity|]. apply dense_inside.
Qed.
