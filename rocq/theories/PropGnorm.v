(** C115: scaling by the largest sample on a GPU. *)
From Verif Require Import PropGred GredReal GredExact GredKernels GaccRel GvarModel.
From Coq Require Import ZifyBool ZifyNat Lia Permutation Reals Lra Psatz.
From Flocq Require Import Core BinarySingleNaN.
From Verif Require Import DriftFloatProofs HitFacts FlagProofs NdIndexFacts NdMemFacts NdProofs RedProofs3 PropFlag PropGmag GnormModel PropLax PropGlax PropEq.
From Verif Require GelModel GelProofs PropGel PropMag GkurtProofs PropResp.
Local Open Scope Z_scope.

(** [M]: one of the samples that no sample exceeds. *)
Definition greatest (sh : list Z) (d : list Z -> f32) (M : f32) : Prop := (exists i, in_range sh i /\ d i = M) /\ forall i, in_range sh i -> (B2R (d i) <= B2R M)%R.
(** Samples on a GPU: finite, nonnegative. *)
Definition powers (sh : list Z) (x : mem f32) (d : list Z -> f32) : Prop :=
  posl sh /\ sh <> [] /\ zlen sh <= 4 /\ zprod sh < 2 ^ 31 /\ zlen x = zprod sh /\ (forall idx, in_range sh idx -> elt x (dense sh) idx = Some (d idx)) /\
  forall i, in_range sh i -> is_finite (d i) = true /\ (0 <= B2R (d i))%R.
Lemma xval_finite (v : f32) : is_finite v = true -> xval v = B2R v.
Proof. destruct v; intros F; try discriminate F; reflexivity. Qed.

Section Grid.
  Variables (lowest : f32) (sh : list Z) (x : mem f32) (d : list Z -> f32).
  Hypothesis H : powers sh x d.
  Hypothesis Fl : is_finite lowest = true.
  Hypothesis Ll : (B2R lowest < 0)%R.
  Let zeros : mem Z := map (fun _ => 0) (zrange (zprod sh)).
  Lemma as_channel : gpu_channel sh x (dense sh, zeros) d (fun _ => 0).
  Proof.
    destruct H as (P & N & H4 & Hb & Hx & E & _). pose proof (zprod_posl sh P) as n1. repeat (split; [assumption|]). split; [|intros; unfold byte; lia]. apply arr_is_dense; [unfold zeros, zlen; rewrite map_length; pose proof (zrange_length (zprod sh)) as K; unfold zlen in K; lia|].
    intros idx R. unfold elt, zeros. pose proof (dense_inside sh idx R). now rewrite znth_map_zrange by lia.
  Qed.
  Lemma max_runs : (exists v, gpu_scalar (gk_max f32gt lowest) (dense sh, x) v) /\ forall v, gpu_scalar (gk_max f32gt lowest) (dense sh, x) v -> greatest sh d v.
  Proof.
    destruct H as (P & N & H4 & Hb & Hx & E & F).
    destruct (dense_ok x sh [] P H4 ltac:(split; constructor) ltac:(reflexivity) Hx) as (Ok1 & Un).
    assert (Nl : is_nan lowest = false) by (destruct lowest; try discriminate Fl; reflexivity).
    destruct (scalar_yields sh x (dense sh, zeros) d (fun _ => 0) as_channel (gk_max f32gt lowest) (fun xs v => is_nan v = false /\ In v (lowest :: xs) /\ forall y, In y (lowest :: xs) -> f32gt y v = false) (C75_gpu_max lowest (dense sh) (dense []) [] x [] Nl Ok1 Un) lowest lowest) as (A & B).
    split; [exact A|]. intros v Hv. destruct (B v Hv (map d (all_indices sh))) as (Nv & Iv & Uv).
    { exists (all_indices sh). split; [apply all_indices_nodup|]. split; [|reflexivity]. intros idx. apply in_all_indices. }
    assert (J : forall i, in_range sh i -> In (d i) (lowest :: map d (all_indices sh))) by (intros i R; right; apply in_map; now apply in_all_indices).
    assert (S0 : exists i, in_range sh i) by (destruct (dense_hit sh 0) as (i & R & _); [eapply Forall_impl; [|exact P]; cbn; intros; lia|pose proof (zprod_posl sh P); lia|eauto]). destruct S0 as (i0 & R0).
    assert (Fv : is_finite v = true) by (destruct Iv as [<- | Iv]; [exact Fl|]; apply in_map_iff in Iv as (i & <- & Hi); apply F; now apply in_all_indices).
    assert (G : forall i, in_range sh i -> (B2R (d i) <= B2R v)%R).
    { intros i R. specialize (Uv _ (J i R)). destruct (F i R) as (Fi & _). destruct (Rle_dec (B2R (d i)) (B2R v)) as [K|K]; [exact K|]. exfalso. assert (T : f32gt (d i) v = true); [|congruence]. apply f32gt_spec.
      split; [destruct (d i); try discriminate Fi; reflexivity|]. split; [exact Nv|]. rewrite !xval_finite by assumption. lra. }
    split; [|exact G]. destruct Iv as [<- | Iv]; [exfalso; specialize (G i0 R0); destruct (F i0 R0) as (_ & K); lra|]. apply in_map_iff in Iv as (i & E1 & Hi). exists i. split; [now apply in_all_indices|exact E1].
  Qed.
  Lemma quotient_runs junk M : (exists r, gpu_quotient (dense sh) (dense sh) (dense [1]) (fresh junk sh) x [M] r) /\
    forall r, gpu_quotient (dense sh) (dense sh) (dense [1]) (fresh junk sh) x [M] r -> zlen r = zprod sh /\ arr_is (dense sh, r) sh (fun i => Bdiv mode_NE (d i) M).
  Proof.
    destruct H as (P & N & H4 & Hb & Hx & E & F). assert (Nn : Forall (fun d => 0 <= d) sh) by (eapply Forall_impl; [|exact P]; cbn; intros; lia).
    assert (Lo : zlen (fresh junk sh) = zprod sh) by now apply fresh_length. split.
    - destruct (C113_gpu_one_element f32 f32 f32 (Bdiv mode_NE) (fun a _ => a) sh (fresh junk sh) x M 0 0 (fun _ _ => 0) P N H4 Hb Lo Hx) as (g & mo' & Eg & _ & _ & (En & K)).
      destruct (GkurtProofs.finishes _ _ _ En) as (c & Rn & D). { intros o Ho. destruct (K o Ho) as (c' & -> & Q & _). eauto. }
      destruct (K _ Rn) as (c' & Ec & _ & Q). injection Ec as <-. destruct (Q D) as (Out & _). exists mo', (fun a _ => a), 0, 0, (fun _ _ => 0), g, c. auto.
    - intros r (addV & blocks & shared & jk & g & c & Eg & Rn & D & Out). destruct (C113_gpu_one_element f32 f32 f32 (Bdiv mode_NE) addV sh (fresh junk sh) x M blocks shared jk P N H4 Hb Lo Hx) as (g' & mo' & Eg' & Lm & V & (En & K)).
      pose proof (eq_trans (eq_sym Eg) Eg') as Eq. injection Eq as <-. destruct (K _ Rn) as (c' & Ec & _ & Q). injection Ec as <-. destruct (Q D) as (Out' & _).
      assert (Zr : forall i, znth r i = znth mo' i). { intros i. pose proof (eq_trans (eq_sym (Out i)) (Out' i)) as Z1. destruct (znth r i), (znth mo' i); cbn in Z1; try discriminate; [|reflexivity]. injection Z1 as ->. reflexivity. }
      split.
      { rewrite <- Lm. assert (Q1 : forall a b : mem f32, (forall i, znth a i = znth b i) -> zlen a <= zlen b).
        { intros a b Hab. destruct (Z_le_gt_dec (zlen a) (zlen b)) as [L|L]; [exact L|]. exfalso. assert (E1 : exists v, znth a (zlen b) = Some v) by (apply znth_some; pose proof (Zle_0_nat (length b)); unfold zlen in *; lia).
          destruct E1 as (v & E1). rewrite Hab in E1. unfold znth in E1. destruct (zlen b <? 0); [discriminate E1|]. assert (E2 : (Z.to_nat (zlen b) < length b)%nat) by (apply nth_error_Some; congruence). unfold zlen in E2. lia. }
        apply Z.le_antisymm; apply Q1; auto. }
      split; [apply dense_wf|]. split; [reflexivity|]. assert (El : forall idx, in_range sh idx -> elt r (dense sh) idx = Some (Bdiv mode_NE (d idx) M)).
      { intros idx R. destruct (V idx R) as (u & Eu & Ev). rewrite E in Eu by exact R. injection Eu as <-. unfold elt. rewrite Zr. exact Ev. }
      split; [|exact El]. intros idx R. specialize (El idx R). unfold elt in El. cbn [fst snd]. unfold znth in El. destruct (cell (dense sh) idx <? 0) eqn:Ng; [discriminate|]. split; [lia|]. assert (Lt : (Z.to_nat (cell (dense sh) idx) < length r)%nat) by (apply nth_error_Some; congruence). unfold zlen. lia.
  Qed.
End Grid.

(** Both launches end under every schedule, without error and without deadlock, whatever the greatest sample is. *)
Theorem C115_launches_end : forall lowest junk sh x d, powers sh x d -> is_finite lowest = true ->
  gpu_yields (gk_max f32gt lowest) (dense sh) (dense []) [] x [] (fun _ => True) /\
  forall M addV blocks shared jk, exists g, binary_gpu_lax (Bdiv mode_NE) (dense sh) (dense sh) (dense [1]) = Ok g /\
    GelProofs.gpu_final GelModel.eaddr_eqb addV (GelModel.emem0 x [M] (fresh junk sh) blocks shared jk) g (fun _ => True).
Proof.
  intros lowest junk sh x d (P & N & H4 & Hb & Hx & E & F) Fl. destruct (dense_ok x sh [] P H4 ltac:(split; constructor) ltac:(reflexivity) Hx) as (Ok1 & Un).
  assert (Nl : is_nan lowest = false) by (destruct lowest; try discriminate Fl; reflexivity). split.
  - destruct (C75_gpu_max lowest (dense sh) (dense []) [] x [] Nl Ok1 Un) as (gr & L & Y). exists gr. split; [exact L|]. intros jS jY. specialize (Y jS jY). cbv zeta in Y |- *. destruct Y as (A & B). split; [exact A|].
    intros o Ho. destruct (B o Ho) as (c & Ec & Q & _). exists c. auto.
  - intros M addV blocks shared jk. assert (Lo : zlen (fresh junk sh) = zprod sh) by (apply fresh_length; eapply Forall_impl; [|exact P]; cbn; intros; lia).
    destruct (C113_gpu_one_element f32 f32 f32 (Bdiv mode_NE) addV sh (fresh junk sh) x M blocks shared jk P N H4 Hb Lo Hx) as (g & mo' & Eg & _ & _ & G). exists g. split; [exact Eg|].
    eapply GelProofs.gpu_final_weaken; [|exact G]. auto.
Qed.
Print Assumptions C115_launches_end.
(** C115: on a GPU, whatever lies behind the shapes, normalize ends under every schedule and divides every sample by a greatest one: numbers from 0 to 1, 1 at the greatest, if that is positive;
    nothing but NaN if all samples are 0. *)
Theorem C115_gpu_normalize : forall lowest junk sh x d, powers sh x d -> is_finite lowest = true -> (B2R lowest < 0)%R ->
  (exists r, gpu_normalize lowest junk (dense sh, x) r) /\
  (forall r, gpu_normalize lowest junk (dense sh, x) r -> exists M q, greatest sh d M /\ fst r = dense sh /\ zlen (snd r) = zprod sh /\ arr_is r sh q /\ (forall i, in_range sh i -> q i = Bdiv mode_NE (d i) M) /\
    ((0 < B2R M)%R -> forall i, in_range sh i -> is_finite (q i) = true /\ (0 <= B2R (q i) <= 1)%R /\ (B2R (d i) = B2R M -> B2R (q i) = 1%R)) /\
    ((forall i, in_range sh i -> B2R (d i) = 0%R) -> forall i, in_range sh i -> is_nan (q i) = true)).
Proof.
  intros lowest junk sh x d H Fl Ll. destruct (max_runs lowest sh x d H Fl Ll) as ((M0 & R0) & K). split.
  - destruct (quotient_runs lowest sh x d H junk M0) as ((r & Hr) & _). exists (dense sh, r), M0, sh. split; [exact R0|]. split; [destruct H as (P & N & _); exact (expand_by_one sh P N)|]. split; [reflexivity|exact Hr].
  - intros (l & r) (M & osh & Rm & Eo & El & Rq). cbn [fst snd] in *. change (l_shape (dense sh)) with sh in Eo. pose proof H as (P1 & N1 & _). rewrite (expand_by_one sh P1 N1) in Eo. injection Eo as <-. subst l. specialize (K M Rm). destruct (quotient_runs lowest sh x d H junk M) as (_ & Q). destruct (Q r Rq) as (Lr & Qr).
    destruct H as (P & N & H4 & Hb & Hx & E & F). pose proof K as ((im & Rim & <-) & G). destruct (F im Rim) as (FM & _). exists (d im), (fun i => Bdiv mode_NE (d i) (d im)). split; [exact K|]. split; [reflexivity|]. split; [exact Lr|]. split; [exact Qr|]. split; [reflexivity|]. split.
    + intros P0 i R. destruct (F i R) as (Fi & Pi). specialize (G i R). destruct (quotient_ok (d i) (d im) Fi FM (conj Pi G) P0) as (A & B). split; [exact A|]. split; [exact B|]. intros Eq. now apply quotient_one.
    + intros Z0 i R. destruct (F i R) as (Fi & _). apply zero_by_zero; auto.
Qed.
Print Assumptions C115_gpu_normalize.
(** Two spectra of three samples; there the strict model refuses the division as undefined (C69, C107). *)
Definition six : mem f32 := map f32_of_Z [3; 1; 4; 1; 5; 9].
Example C115_case : powers [2; 3] six (lit (f32_of_Z 0) [2; 3] six) /\ is_finite (f32_of_Z (-1)) = true /\ (B2R (f32_of_Z (-1)) < 0)%R /\
  (exists r, gpu_normalize (f32_of_Z (-1)) (fun _ => f32_of_Z 7) (dense [2; 3], six) r) /\ GelModel.binary_gpu (B := f32) (Bdiv mode_NE) (dense [2; 3]) (dense [2; 3]) (dense [1]) = UB.
Proof.
  destruct C111_normalize_case as (A & F & _ & P). destruct A as (_ & _ & _ & E). cbn [fst snd] in E. assert (Lw : (B2R (f32_of_Z (-1)) < 0)%R) by (rewrite (proj1 (f32_of_Z_ok (-1) ltac:(lia))); lra).
  assert (H : powers [2; 3] six (lit (f32_of_Z 0) [2; 3] six)).
  { split; [repeat constructor|]. split; [discriminate|]. split; [vm_compute; discriminate|]. split; [reflexivity|]. split; [reflexivity|]. split; [exact E|]. intros i R. apply in_range2 in R as (t & c & -> & Ht & Hc). exact (P t c Ht Hc). }
  split; [exact H|]. split; [exact F|]. split; [exact Lw|]. split; [exact (proj1 (C115_gpu_normalize _ _ _ _ _ H F Lw))|reflexivity].
Qed.
