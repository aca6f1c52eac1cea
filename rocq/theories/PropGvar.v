(** Property theorems C103: rounding errors of variances and deviations on a GPU. *)
From Verif Require Import PropGred GredReal GredExact GredKernels GaccRel GvarModel.
From Coq Require Import ZifyBool ZifyNat Lia Permutation Reals Lra.
From Flocq Require Import Core BinarySingleNaN.
From Verif Require Import DriftFloatProofs FsumFacts FsumProofs GaccProofs PropGacc GvarProofs.
Local Open Scope Z_scope.

(** Numbers whose squares add up to at most 2^122. *)
Definition squares_in_reach (xs : list f32) : Prop := Forall (fun x => is_finite x = true) xs /\ (rsum (map (fun x => x * x) (map (@B2R 24 128) xs)) <= bpow radix2 122)%R.
(** How far a variance may be off: 2^-17 of the mean square, and underflow. *)
Definition var_margin (xs : list f32) : R := (/ 131072 * mean_square xs + bpow radix2 (-135))%R.
Definition gpu_var_of (xs : list f32) (v : f32) : Prop := is_finite v = true /\ (0 <= B2R v)%R /\ (Rabs (B2R v - variance xs) <= var_margin xs)%R.
Definition gpu_dev_of (xs : list f32) (v : f32) : Prop := is_finite v = true /\ (0 <= B2R v)%R /\ (Rabs (B2R v * B2R v - variance xs) <= var_margin xs)%R.

Section Ends.
  Local Open Scope R_scope.
  Lemma var_end cd xs s : squarable xs -> (1 <= zlen xs)%Z -> mean_ok xs (fst s) (snd s) -> gpu_var_of xs (varv cd s).
  Proof.
    intros Sq Hn Hm. destruct (varv_ok cd xs s Sq Hn Hm) as (F & P & _ & E). destruct (mean_bounds xs Sq Hn) as (_ & _ & _ & (M0 & _) & _). split; [exact F|]. split; [exact P|]. eapply Rle_trans; [exact E|]. unfold var_margin. apply Rplus_le_compat; [apply Rmult_le_compat_r; lra|apply bpow_le; lia].
  Qed.
  Lemma dev_end cd xs s : squarable xs -> (1 <= zlen xs)%Z -> mean_ok xs (fst s) (snd s) -> gpu_dev_of xs (stdv cd s).
  Proof. intros Sq Hn Hm. exact (stdv_ok cd xs s Sq Hn Hm). Qed.
  Lemma mean_end2 p n s xs : (p <= 9)%nat -> zlen xs = n -> (1 <= n < 2 ^ 31)%Z -> plevel n p s xs -> squarable xs -> gpu_mean_of xs (fst s).
  Proof. intros Hp E Hn (H & _) Sq. subst n. apply (mean_end p); auto; [lia|]. apply squarable_addable; [exact Sq|lia]. Qed.
End Ends.

(** C103: variances and deviations on a GPU are numbers, not negative, and close to the exact ones, whether or not the compiler
    contracts, under every schedule. *)
Section Unmasked.
  Variables (cx cd : bool) (l lm : layout) (axes : list Z) (x : mem f32) (mask : mem Z).
  Hypothesis H : few_outputs x l axes.
  Lemma unmasked_var outs chained (f : list f32 -> nat -> f32 -> Prop) :
    (forall xs k g s p, (p <= 9)%nat -> zlen xs = red_factor l axes -> 1 <= red_factor l axes < 2 ^ 31 -> nth_error outs k = Some g -> plevel (red_factor l axes) p s xs -> f xs k (g s)) ->
    gpu_yields (Kernel false (f32_of_Z 0, f32_of_Z 0) (f32_of_Z 0, f32_of_Z 0) (kahan2v cx) (norm2 ops32 (red_factor l axes)) (add2 ops32) outs chained) l lm axes x mask
      (fun out => forall oi es xs k, in_range (out_shape axes (l_shape l)) oi -> (k < length outs)%nat -> enumerates (l_shape l) axes oi es -> reads x l es xs -> exists v, out (Z.of_nat k) oi = Some v /\ f xs k v).
  Proof.
    destruct H as (Hg & U & N & Rf). assert (R1 : 1 <= red_factor l axes).
    { unfold red_factor. destruct Hg as ((_ & _ & Ha & _) & HP & _). apply zprod_posl, posl_sub; [exact HP|]. destruct (good_all_if_nil _ _ Ha) as (_ & F). exact F. }
    intros Hf. eapply (joint_value _ pstate (plevel (red_factor l axes)) l lm axes x mask f (var_joint cx _ outs chained (conj R1 Rf)) Hg U ltac:(discriminate) N Rf).
    intros oi es xs k g s p Hoi He Hx Eg Hp T. apply (Hf xs k g s p); auto. exact (proj1 (nonempty x l axes oi es xs Hg Hoi He Hx)).
  Qed.
End Unmasked.
Theorem C103_gpu_var_stddev : forall cx cd l lm axes x mask, few_outputs x l axes ->
  let holds (f : list f32 -> f32 -> Prop) := fun out : Z -> list Z -> option f32 => forall oi es xs, in_range (out_shape axes (l_shape l)) oi -> enumerates (l_shape l) axes oi es -> reads x l es xs ->
    exists v, out 0 oi = Some v /\ (squares_in_reach xs -> f xs v) in
  gpu_yields (gv_var cx cd (red_factor l axes)) l lm axes x mask (holds gpu_var_of) /\
  gpu_yields (gv_stddev cx cd (red_factor l axes)) l lm axes x mask (holds gpu_dev_of).
Proof.
  intros cx cd l lm axes x mask H holds. split.
  - eapply gpu_weaken; [|apply (unmasked_var cx l lm axes x mask H [varv cd] false (fun xs _ v => squares_in_reach xs -> gpu_var_of xs v))].
    + cbn beta. intros out Ho oi es xs Hoi He Hx. exact (Ho oi es xs 0%nat Hoi ltac:(cbn; lia) He Hx).
    + intros xs [|[|k]] g s p Hp E Hn Eg T Sq; try discriminate. injection Eg as <-. rewrite <- E in T, Hn. apply var_end; [exact Sq|lia|]. now apply (plevel_means p).
  - eapply gpu_weaken; [|apply (unmasked_var cx l lm axes x mask H [stdv cd] false (fun xs _ v => squares_in_reach xs -> gpu_dev_of xs v))].
    + cbn beta. intros out Ho oi es xs Hoi He Hx. exact (Ho oi es xs 0%nat Hoi ltac:(cbn; lia) He Hx).
    + intros xs [|[|k]] g s p Hp E Hn Eg T Sq; try discriminate. injection Eg as <-. rewrite <- E in T, Hn. apply dev_end; [exact Sq|lia|]. now apply (plevel_means p).
Qed.
Print Assumptions C103_gpu_var_stddev.
Theorem C103_gpu_mean_stddev : forall cx cd l lm axes x mask, few_outputs x l axes ->
  gpu_yields (gv_mean_stddev cx cd (red_factor l axes)) l lm axes x mask (fun out => forall oi es xs, in_range (out_shape axes (l_shape l)) oi -> enumerates (l_shape l) axes oi es -> reads x l es xs ->
    exists m d, out 0 oi = Some m /\ out 1 oi = Some d /\ (squares_in_reach xs -> gpu_mean_of xs m /\ gpu_dev_of xs d)).
Proof.
  intros cx cd l lm axes x mask H.
  eapply gpu_weaken; [|apply (unmasked_var cx l lm axes x mask H [fst; stdv cd] true (fun xs k v => squares_in_reach xs -> match k with O => gpu_mean_of xs v | _ => gpu_dev_of xs v end))].
  - cbn beta. intros out Ho oi es xs Hoi He Hx. destruct (Ho oi es xs 0%nat Hoi ltac:(cbn; lia) He Hx) as (m & Em & Hm). destruct (Ho oi es xs 1%nat Hoi ltac:(cbn; lia) He Hx) as (d & Ed & Hd). exists m, d. split; [exact Em|]. split; [exact Ed|]. intros Sq. split; [exact (Hm Sq)|exact (Hd Sq)].
  - intros xs [|[|[|k]]] g s p Hp E Hn Eg T Sq; try discriminate; injection Eg as <-.
    + now apply (mean_end2 p (red_factor l axes)).
    + rewrite <- E in T, Hn. apply dev_end; [exact Sq|lia|]. now apply (plevel_means p).
Qed.
Print Assumptions C103_gpu_mean_stddev.
Theorem C103_gpu_masked : forall cx cd l lm axes x mask, few_outputs x l axes -> mask_ok l lm mask ->
  let holds (n : nat) (f : list f32 -> (nat -> f32) -> Prop) := fun out : Z -> list Z -> option f32 => forall oi es xs, in_range (out_shape axes (l_shape l)) oi -> enumerates (l_shape l) axes oi es ->
    reads x l (unmasked lm mask es) xs -> exists v, (forall k, (k < n)%nat -> out (Z.of_nat k) oi = Some (v k)) /\ (squares_in_reach xs -> xs <> [] -> f xs v) in
  gpu_yields (gv_mvar cx cd) l lm axes x mask (holds 1%nat (fun xs v => gpu_var_of xs (v 0%nat))) /\
  gpu_yields (gv_mstddev cx cd) l lm axes x mask (holds 1%nat (fun xs v => gpu_dev_of xs (v 0%nat))) /\
  gpu_yields (gv_mmean_stddev cx cd) l lm axes x mask (holds 2%nat (fun xs v => gpu_mean_of xs (v 0%nat) /\ gpu_dev_of xs (v 1%nat))).
Proof.
  intros cx cd l lm axes x mask (H & U & N & Rf) Hm holds.
  assert (UM : forall S C Y (K : kernel f32 S C Y) es, k_masked K = true -> usable K lm mask es = unmasked lm mask es).
  { intros S C Y K es Hk. destruct Hm as (_ & _ & Um & _). unfold usable, unmasked. now rewrite Hk, (unsliced_eq _ Um). }
  assert (G : forall outs (f : list f32 -> nat -> f32 -> Prop), (forall xs k g s p, (p <= 9)%nat -> 1 <= zlen xs < 2 ^ 31 -> nth_error outs k = Some g -> mplevel p s xs -> squares_in_reach xs -> f xs k (g s)) ->
    gpu_yields (Kernel true ((f32_of_Z 0, f32_of_Z 0), 0%Z) (f32_of_Z 0, f32_of_Z 0) (mkahan2v cx) (fun s => s) (madd2 ops32) outs false) l lm axes x mask
      (fun out => forall oi es xs k, in_range (out_shape axes (l_shape l)) oi -> (k < length outs)%nat -> enumerates (l_shape l) axes oi es -> reads x l (unmasked lm mask es) xs ->
        exists v, out (Z.of_nat k) oi = Some v /\ (squares_in_reach xs -> xs <> [] -> f xs k v))).
  { intros outs f Hf. eapply gpu_weaken; [|eapply (joint_value (Kernel true ((f32_of_Z 0, f32_of_Z 0), 0%Z) (f32_of_Z 0, f32_of_Z 0) (mkahan2v cx) (fun s => s) (madd2 ops32) outs false) mpstate mplevel l lm axes x mask (fun xs k v => squares_in_reach xs -> xs <> [] -> f xs k v) (mvar_joint cx outs) H U (fun _ => Hm) N Rf)].
    - cbn beta. intros out Ho oi es xs k Hoi Hk He Hx. rewrite <- (UM _ _ _ (Kernel true ((f32_of_Z 0, f32_of_Z 0), 0%Z) (f32_of_Z 0, f32_of_Z 0) (mkahan2v cx) (fun s => s) (madd2 ops32) outs false)) in Hx by reflexivity. exact (Ho oi es xs k Hoi Hk He Hx).
    - intros oi es xs k g s p Hoi He Hx Eg Hp T Sq Ne. apply (Hf xs k g s p); auto. rewrite UM in Hx by reflexivity. pose proof (reads_length _ _ _ _ Hx) as L.
      destruct H as ((_ & _ & Hg & _) & HP & _). pose proof (enumerates_count (l_shape l) axes oi es HP Hg Hoi He) as Le. change (zlen es = red_factor l axes) in Le.
      assert (FL : forall (q : list Z -> bool) l, (length (filter q l) <= length l)%nat) by (clear; intros q l; induction l as [|a l IH]; cbn; [lia|destruct (q a); cbn; lia]).
      specialize (FL (fun idx => match elt mask lm idx with Some b => b =? 0 | None => false end) es). fold (unmasked lm mask es) in FL. unfold zlen in *. destruct xs; [easy|]. cbn [length] in *. lia. }
  split; [|split].
  - eapply gpu_weaken; [|apply (G [mvarv cd] (fun xs _ v => gpu_var_of xs v))].
    + cbn beta. intros out Ho oi es xs Hoi He Hx. destruct (Ho oi es xs 0%nat Hoi ltac:(cbn; lia) He Hx) as (v & E & F). exists (fun _ => v). split; [intros [|k] Hk; [exact E|lia]|exact F].
    + intros xs [|[|k]] g s p Hp Hn Eg T Sq; try discriminate. injection Eg as <-. apply var_end; [exact Sq|lia|]. now apply (mplevel_means p).
  - eapply gpu_weaken; [|apply (G [mstdv cd] (fun xs _ v => gpu_dev_of xs v))].
    + cbn beta. intros out Ho oi es xs Hoi He Hx. destruct (Ho oi es xs 0%nat Hoi ltac:(cbn; lia) He Hx) as (v & E & F). exists (fun _ => v). split; [intros [|k] Hk; [exact E|lia]|exact F].
    + intros xs [|[|k]] g s p Hp Hn Eg T Sq; try discriminate. injection Eg as <-. apply dev_end; [exact Sq|lia|]. now apply (mplevel_means p).
  - eapply gpu_weaken; [|apply (G [fun s => fst (norm2 ops32 (snd s) (fst s)); mstdv cd] (fun xs k v => match k with O => gpu_mean_of xs v | _ => gpu_dev_of xs v end))].
    + cbn beta. intros out Ho oi es xs Hoi He Hx. destruct (Ho oi es xs 0%nat Hoi ltac:(cbn; lia) He Hx) as (m & Em & Fm). destruct (Ho oi es xs 1%nat Hoi ltac:(cbn; lia) He Hx) as (d & Ed & Fd).
      exists (fun k => match k with O => m | _ => d end). split; [intros [|[|k]] Hk; [exact Em|exact Ed|lia]|]. intros Sq Ne. split; [exact (Fm Sq Ne)|exact (Fd Sq Ne)].
    + intros xs [|[|[|k]]] g s p Hp Hn Eg T Sq; try discriminate; injection Eg as <-.
      * destruct T as (T1 & _ & T3). apply (mmean_end p (fst (fst s), snd s)); auto; [split; assumption|]. apply squarable_addable; [exact Sq|lia].
      * apply dev_end; [exact Sq|lia|]. now apply (mplevel_means p).
Qed.
Print Assumptions C103_gpu_masked.

(** "Equal elements have no deviation" is false on a GPU: five elevens do, contracted or not. *)
Definition elevens : mem f32 := map (fun _ => f32_of_Z 11) (zrange 5).
Theorem C103_constant_refuted : few_outputs elevens (dense [5]) [] /\
  forall cx cd lm mask, gpu_yields (gv_stddev cx cd 5) (dense [5]) lm [] elevens mask (fun out => exists v, out 0 [0] = Some v /\ f32lt (f32_of_Z 0) v = true).
Proof.
  destruct (dense_ok elevens [5] []) as (H & U); [repeat constructor|vm_compute; discriminate|split; constructor|reflexivity|reflexivity|].
  split; [split; [exact H|split; [exact U|split; [vm_compute; discriminate|reflexivity]]]|]. intros cx cd lm mask. destruct H as (Hr & HP & Hn). pose proof (unsliced_eq _ U) as El.
  assert (Hr' : red_hyps elevens (unshift (dense [5])) []) by now rewrite El.
  destruct (gpu_reduce (gv_stddev cx cd 5) (dense [5]) lm [] elevens mask (proj1 Hr) Hr' HP Hn ltac:(discriminate) ltac:(discriminate) (f32_of_Z 0)) as (Hy & _).
  eapply gpu_weaken; [|exact Hy]. cbn beta. intros out Ho. exists (stdv cd (gpu_val (gv_stddev cx cd 5) (dense [5]) lm [] elevens mask (f32_of_Z 0) [0])).
  split; [apply (Ho [0] 0%nat (stdv cd)); [repeat constructor; cbn; lia|reflexivity]|].
  unfold gpu_val, result. match goal with |- f32lt _ (stdv _ (total _ _ _ ?xv ?mv _ _ _)) = _ => generalize mv end. intros mv. destruct cx, cd; vm_compute; reflexivity.
Qed.
Print Assumptions C103_constant_refuted.
(** The hypotheses hold of the array of C102's masked case. *)
Example C103_case : few_outputs mixed (dense [2; 3]) [1] /\ mask_ok (dense [2; 3]) (dense [2; 3]) mixed_mask /\ squares_in_reach mixed.
Proof.
  destruct C102_masked_case as (A & B & (F & _)). split; [exact A|]. split; [exact B|]. split; [exact F|]. unfold mixed. rewrite map_map. cbn [map].
  rewrite (proj1 (f32_of_Z_ok 3 ltac:(lia))), (proj1 (f32_of_Z_ok (-1) ltac:(lia))), (proj1 (f32_of_Z_ok 4 ltac:(lia))), (proj1 (f32_of_Z_ok 1 ltac:(lia))), (proj1 (f32_of_Z_ok (-5) ltac:(lia))), (proj1 (f32_of_Z_ok 9 ltac:(lia))).
  rewrite !rsum_cons, rsum_nil. apply Rle_trans with (bpow radix2 8); [change (bpow radix2 8) with 256%R; lra|apply bpow_le; lia].
Qed.
