(** C113: sigma clipping of channels on a GPU, if memory can be read behind a shape. *)
From Verif Require Import PropGred GredReal GredExact GredKernels GaccRel GvarModel.
From Coq Require Import ZifyBool ZifyNat Lia Permutation Reals Lra Psatz.
From Flocq Require Import Core BinarySingleNaN.
From Verif Require Import DriftFloatProofs FsumFacts FsumProofs GaccProofs PropGacc GvarProofs PropGvar GclipModel GclipProofs PropGclip FlagProofs FlagProofs2 NdIndexFacts NdProofs RedProofs3 GlaxModel PropLax.
From Verif Require GelModel GelProofs PropGel NdProofs2.
Local Open Scope Z_scope.

Lemma filter_map {X Y} (g : X -> Y) (q : Y -> bool) l : map g (filter (fun x => q (g x)) l) = filter q (map g l).
Proof. induction l as [|a l IH]; [reflexivity|]. cbn [filter map]. destruct (q (g a)); cbn [map]; now rewrite IH. Qed.
Lemma dense_hit sh i : Forall (fun d => 0 <= d) sh -> 0 <= i < zprod sh -> exists idx, in_range sh idx /\ cell (dense sh) idx = i.
Proof.
  intros N Hi. assert (H : In i (zrange (zprod sh))) by (apply in_zrange; lia). rewrite <- dense_cells in H by exact N. apply in_map_iff in H as (idx & E & H). exists idx. split; [now apply in_all_indices|exact E].
Qed.
Lemma one_is (y : f32) : arr_is (dense [1], [y]) [1] (fun _ => y).
Proof. apply arr_is_dense; [reflexivity|]. intros idx Hi. apply in_range1 in Hi as (i & -> & Hi). replace i with 0 by lia. reflexivity. Qed.
Lemma one_lax xa xb (op : f32 -> f32 -> f32) junk a b : expand_op_lax xa xb op junk (dense [1]) (dense [1]) [a] [b] = Ok (dense [1], [op a b]).
Proof. reflexivity. Qed.

Section Grid.
  Variables (cx cd : bool) (xa xb : Z -> Z) (junk : Z -> f32) (jz : Z -> Z) (sh : list Z) (x : mem f32) (S : Z -> f32) (low high : f32).
  Hypothesis HP : posl sh.
  Hypothesis N0 : sh <> [].
  Hypothesis H4 : zlen sh <= 4.
  Hypothesis Hb : zprod sh < 2 ^ 31.
  Hypothesis Hx : zlen x = zprod sh.
  Hypothesis HS : forall i, 0 <= i < zprod sh -> znth x i = Some (S i).
  Let n := zprod sh.
  Let f (idx : list Z) : f32 := S (cell (dense sh) idx).
  Let data : arr f32 := (dense sh, x).
  Let Nn : Forall (fun d => 0 <= d) sh. Proof. eapply Forall_impl; [|exact HP]. cbn. intros; lia. Qed.
  Let n1 : 1 <= n. Proof. unfold n. pose proof (zprod_posl sh HP). lia. Qed.
  Lemma grid_elt : forall idx, in_range sh idx -> elt x (dense sh) idx = Some (f idx).
  Proof. intros idx R. unfold elt, f. apply HS. now apply dense_inside. Qed.
  Lemma grid_is : arr_is data sh f.
  Proof. apply arr_is_dense; [exact Hx|]. exact grid_elt. Qed.
  Lemma lax_compare (op : f32 -> f32 -> Z) b : exists r, left_shape_op_lax xa xb op jz (dense sh) (dense [1]) x [b] = Ok r /\ fst r = dense sh /\ zlen (snd r) = n /\ arr_is r sh (fun i => op (f i) b).
  Proof.
    destruct (C111_one_element f32 f32 Z xa xb op jz data (dense [1], [b]) sh f b grid_is (one_is b) HP N0 Hb) as (r & E & D & L & A). cbn [fst snd data] in E.
    exists r. split; [|auto]. rewrite <- E. unfold expand_op_lax, left_shape_op_lax. change (l_shape (dense sh)) with sh. change (l_shape (dense [1])) with [1]. rewrite (expand_by_one sh HP N0). reflexivity.
  Qed.
  Lemma lax_sum (a b : arr Z) g h : arr_is a sh g -> arr_is b sh h -> exists r, expand_op_lax xa xb u8_add jz (fst a) (fst b) (snd a) (snd b) = Ok (dense sh, r) /\ zlen r = n /\ arr_is (dense sh, r) sh (fun i => u8_add (g i) (h i)).
  Proof.
    intros A B. destruct (same_shape_is u8_add jz a b sh g h A B HP N0 Hb) as ([l r] & E & D & L & V). cbn [fst snd] in D, L. subst l. exists r. split; [|auto]. rewrite (C111_agrees Z Z Z xa xb); [exact E|]. rewrite E. discriminate.
  Qed.
  Lemma rfi_grid_lax m s : exists r, clip_rfi_lax xa xb junk jz data m s low high = Ok (dense sh, r) /\ zlen r = n /\ forall i, 0 <= i < n -> znth r i = Some (outside m s low high (S i)).
  Proof.
    unfold clip_rfi_lax, data. rewrite one_scalar. cbn [obind fst snd]. rewrite one_lax. cbn [obind fst snd].
    destruct (lax_compare (fun x y => u8_of_bool (f32lt x y)) (Bminus mode_NE m (Bmult mode_NE s low))) as (lo & E1 & _ & _ & A1). rewrite E1. cbn [obind]. rewrite one_scalar. cbn [obind fst snd]. rewrite one_lax. cbn [obind fst snd].
    destruct (lax_compare (fun x y => u8_of_bool (f32gt x y)) (Bplus mode_NE m (Bmult mode_NE s high))) as (hi & E2 & _ & _ & A2). rewrite E2. cbn [obind].
    destruct (lax_sum lo hi _ _ A1 A2) as (r & E3 & Lr & (_ & _ & _ & V)). exists r. split; [exact E3|]. split; [exact Lr|].
    intros i Hi. destruct (dense_hit sh i Nn Hi) as (idx & R & <-). specialize (V idx R). unfold elt in V. cbn [fst snd] in V. rewrite V. unfold f, u8_add, u8_of_bool, outside, to_uint8. destruct (f32lt _ _), (f32gt _ _); reflexivity.
  Qed.
  Lemma grid_left mask F : (forall i, 0 <= i < n -> znth mask i = Some (F i)) -> map f (unmasked (dense sh) mask (all_indices sh)) = left n S F.
  Proof.
    intros HM. unfold left, n. rewrite <- dense_cells by exact Nn. rewrite <- (filter_map (cell (dense sh)) (fun i => F i =? 0)), map_map. unfold f, unmasked. f_equal.
    apply filter_ext_in. intros idx Hi. apply in_all_indices in Hi. unfold elt. rewrite HM by (now apply dense_inside). reflexivity.
  Qed.
  Lemma grid_mask mask : n <= zlen mask -> mask_ok (dense sh) (dense sh) mask.
  Proof. intros L. split; [apply dense_wf|]. split; [reflexivity|]. split; [apply Forall_map, Forall_forall; reflexivity|]. intros idx R. pose proof (dense_inside sh idx R). fold n in H. lia. Qed.
  Lemma grid_stats mask F : n <= zlen mask -> (forall i, 0 <= i < n -> znth mask i = Some (F i)) ->
    (exists m s, gpu_stats cx cd data (dense sh, mask) m s) /\ forall m s, gpu_stats cx cd data (dense sh, mask) m s -> stats_of (left n S F) m s.
  Proof.
    intros L HM. split.
    - apply (stats_exist cx cd sh x f (dense sh) mask HP H4 Hb Hx grid_elt (grid_mask mask L)).
    - intros m s H. rewrite <- (grid_left mask F HM). now apply (stats_are cx cd sh x f (dense sh) mask HP H4 Hb Hx grid_elt (grid_mask mask L)).
  Qed.
  Lemma lax_loop_exists : forall k m s rfi, exists o, clip_loop_lax cx cd xa xb junk jz data low high k m s rfi o.
  Proof.
    induction k as [|k IH]; intros m s rfi; [eexists; apply lclip_over|]. destruct (rfi_grid_lax m s) as (r & E & Lr & V).
    destruct (grid_stats r (fun i => outside m s low high (S i)) ltac:(lia) V) as ((m' & s' & St) & _). destruct (small_change m m' && small_change s s') eqn:Ec.
    - eexists. eapply lclip_settled; eassumption.
    - destruct (IH m' s' (dense sh, r)) as (o & Ho). exists o. eapply lclip_again; eassumption.
  Qed.
  Lemma lax_loop_is : forall k m s rfi o, clip_loop_lax cx cd xa xb junk jz data low high k m s rfi o -> forall j F r, rfi = (dense sh, r) -> zlen r = n -> (forall i, 0 <= i < n -> znth r i = Some (F i)) -> rounds n S low high j F -> stats_of (left n S F) m s ->
    exists j' F' r', (j <= j' <= j + k)%nat /\ (k <> 0%nat -> (j < j')%nat) /\ rounds n S low high j' F' /\ o = Ok (dense sh, r') /\ zlen r' = n /\ (forall i, 0 <= i < n -> znth r' i = Some (F' i)) /\ ((j' < j + k)%nat -> settled n S low high j' F').
  Proof.
    induction 1 as [m s rfi|k m s rfi e H|k m s rfi H|k m s rfi rfi' m' s' H St Ec|k m s rfi rfi' m' s' o H St Ec HL IH]; intros j F r -> Lr V HR Hs.
    - exists j, F, r. split; [lia|]. split; [easy|]. split; [exact HR|]. split; [reflexivity|]. split; [exact Lr|]. split; [exact V|]. lia.
    - exfalso. destruct (rfi_grid_lax m s) as (r' & E & _). rewrite E in H. discriminate.
    - exfalso. destruct (rfi_grid_lax m s) as (r' & E & _). rewrite E in H. discriminate.
    - destruct (rfi_grid_lax m s) as (r' & E & Lr' & V'). rewrite E in H. injection H as <-.
      destruct (grid_stats r' (fun i => outside m s low high (S i)) ltac:(lia) V') as (_ & K). specialize (K m' s' St). apply andb_prop in Ec as (C1 & C2).
      exists (Datatypes.S j), (fun i => outside m s low high (S i)), r'. split; [lia|]. split; [lia|]. split; [now apply (next_round n S low high j F m s)|]. split; [reflexivity|]. split; [exact Lr'|]. split; [exact V'|].
      intros _. exists j, F, m, s, m', s'. split; [reflexivity|]. split; [exact HR|]. split; [exact Hs|]. split; [reflexivity|]. split; [exact K|]. split; [exact C1|exact C2].
    - destruct (rfi_grid_lax m s) as (r' & E & Lr' & V'). rewrite E in H. injection H as <-.
      destruct (grid_stats r' (fun i => outside m s low high (S i)) ltac:(lia) V') as (_ & K). specialize (K m' s' St).
      destruct (IH (Datatypes.S j) (fun i => outside m s low high (S i)) r' eq_refl Lr' V' (next_round n S low high j F m s HR Hs) K) as (j' & F' & r2 & B & B' & R2 & E2 & L2 & V2 & Q).
      exists j', F', r2. split; [lia|]. split; [lia|]. split; [exact R2|]. split; [exact E2|]. split; [exact L2|]. split; [exact V2|]. intros Hj. apply Q. lia.
  Qed.
End Grid.

(** C113: on data of one to four axes, whatever lies behind the shapes, executions exist, and each ends with the channel's mask plus 32 times the flags of at most [max_iter] rounds over
    all samples - at least one round, and fewer than [max_iter] only if the last one changed nothing much. *)
Theorem C113_channels : forall cx cd xa xb junk jz sh x S mask m max_iter low high,
  posl sh -> sh <> [] -> zlen sh <= 4 -> zprod sh < 2 ^ 31 -> zlen x = zprod sh -> (forall i, 0 <= i < zprod sh -> znth x i = Some (S i)) -> arr_is mask sh m -> 0 <= max_iter ->
  (exists o, gpu_sigmaclip_lax cx cd xa xb junk jz (dense sh, x) mask max_iter low high o) /\
  (forall o, gpu_sigmaclip_lax cx cd xa xb junk jz (dense sh, x) mask max_iter low high o ->
    exists k F r, Z.of_nat k <= max_iter /\ (1 <= max_iter -> 1 <= Z.of_nat k) /\ rounds (zprod sh) S low high k F /\ (Z.of_nat k < max_iter -> settled (zprod sh) S low high k F) /\
      o = Ok r /\ arr_is r sh (fun idx => to_uint8 (m idx + 32 * F (cell (dense sh) idx)))).
Proof.
  intros cx cd xa xb junk jz sh x S mask m max_iter low high HP N0 H4 Hb Hx HS Am Hi. pose proof (zprod_posl sh HP) as n1. split.
  - destruct (first_stats cx cd sh x HP H4 Hb Hx) as (a & s & St).
    destruct (lax_loop_exists cx cd xa xb junk jz sh x S low high HP N0 H4 Hb Hx HS (Z.to_nat max_iter) a s (dense sh, map (fun _ => 0) (zrange (zprod sh)))) as (o & Ho).
    eexists _, _. split; [|reflexivity]. exists a, s, o. split; [exact St|]. split; [exact Ho|reflexivity].
  - intros o (o2 & (a & s & o1 & St & L & ->) & ->). cbn [fst] in St, L. change (l_shape (dense sh)) with sh in St, L.
    assert (Lz : forall k, 0 <= k -> zlen (map (fun _ => 0) (zrange k)) = k) by (intros k Hk; unfold zlen; rewrite map_length; pose proof (zrange_length k) as K; unfold zlen in K; lia).
    destruct (grid_stats cx cd xa xb junk jz sh x S HP H4 Hb Hx HS (zero_bytes sh) (fun _ => 0)) as (_ & K); [unfold zero_bytes; rewrite Lz; lia|intros i Hi'; unfold zero_bytes; now rewrite znth_map_zrange by lia|]. specialize (K a s St).
    destruct (lax_loop_is cx cd xa xb junk jz sh x S low high HP N0 H4 Hb Hx HS _ a s _ o1 L 0%nat (fun _ => 0) _ eq_refl) as (k & F & r & B & B' & R & -> & Lr & V & Q); [rewrite Lz; lia|intros i Hi'; now rewrite znth_map_zrange by lia|apply no_round|exact K|].
    assert (HF : forall i, 0 <= F i <= 2) by (intros i; inversion R; [lia|apply outside_range]).
    assert (Ar : arr_is (dense sh, r) sh (fun idx => F (cell (dense sh) idx))). { apply arr_is_dense; [exact Lr|]. intros idx Ri. unfold elt. apply V. now apply dense_inside. }
    cbn [obind]. unfold scale_flags. destruct (scalar_is u8_mul jz (dense sh, r) sh _ SIGMA_CLIP Ar) as (r1 & E1 & _ & _ & A1); [split; [eapply Forall_impl; [|exact HP]; cbn; intros; lia|exact Hb]|]. cbn [fst snd] in E1 |- *. rewrite E1. cbn [obind].
    destruct (lax_sum xa xb jz sh HP N0 Hb mask r1 _ _ Am A1) as (r2 & E2 & L2 & A2).
    exists k, F, (dense sh, r2). split; [lia|]. split; [lia|]. split; [exact R|]. split; [intros; apply Q; lia|]. split; [exact E2|]. eapply arr_is_ext; [|exact A2]. intros idx Ri. cbn beta. specialize (HF (cell (dense sh) idx)).
    unfold u8_mul, u8_add, to_uint8, SIGMA_CLIP. rewrite (Z.mod_small (_ * _)) by lia. f_equal. lia.
Qed.
Print Assumptions C113_channels.

(** ** The kernel *)
Lemma int_sum_zeros {X} (l : list X) : GelModel.int_sum (map (fun _ => 0) l) = 0.
Proof. unfold GelModel.int_sum. assert (H : forall k, k = 0 -> fold_left (fun s o => to_int32 (s + o)) (map (fun _ => 0) l) k = 0); [|now apply H]. induction l as [|a l IH]; intros k ->; [reflexivity|]. cbn [map fold_left]. now apply IH. Qed.
Lemma run3_keeps_length {A B V} (op : A -> B -> V) ma mb tr : forall mo mo', run3 op ma mb mo tr = Ok mo' -> zlen mo' = zlen mo.
Proof.
  induction tr as [|((o, i), j) tr IH]; intros mo mo' E; cbn [run3] in E; [injection E as <-; reflexivity|]. destruct (load ma i); cbn [obind] in E; try discriminate E. destruct (load mb j); cbn [obind] in E; try discriminate E.
  unfold store in E. destruct (_ && _); cbn [obind] in E; [|discriminate E]. rewrite (IH _ _ E). unfold zlen. now rewrite upd_length.
Qed.
Lemma binary_keeps_length {A B V} (op : A -> B -> V) lo la lb mo ma mb mo' : binary_op op lo la lb mo ma mb = Ok mo' -> zlen mo' = zlen mo.
Proof.
  unfold binary_op. destruct (_ && _); [discriminate|]. intros E. do 4 (match type of E with obind ?o _ = _ => destruct o; cbn [obind] in E; try discriminate E end). destruct (l_shape lo); [discriminate E|]. destruct (bin_loop _ _ _ _ _ _ _ _ _ _ _ _ _); [|discriminate E]. exact (run3_keeps_length _ _ _ _ _ _ E).
Qed.
(** C113: the kernel that compares an array of one to four axes with an array of one element gives the comparison of every element with that one, under every schedule. *)
Theorem C113_gpu_one_element : forall A B V (op : A -> B -> V) addV sh (mo : mem V) (ma : mem A) (y : B) blocks shared junk,
  posl sh -> sh <> [] -> zlen sh <= 4 -> zprod sh < 2 ^ 31 -> zlen mo = zprod sh -> zlen ma = zprod sh ->
  exists g mo', binary_gpu_lax op (dense sh) (dense sh) (dense [1]) = Ok g /\ zlen mo' = zprod sh /\
    (forall idx, in_range sh idx -> exists x, elt ma (dense sh) idx = Some x /\ elt mo' (dense sh) idx = Some (op x y)) /\
    GelProofs.gpu_final GelModel.eaddr_eqb addV (GelModel.emem0 ma [y] mo blocks shared junk) g (fun m => PropGel.output_is mo' m /\ PropGel.inputs_kept ma [y] m).
Proof.
  intros A B V op addV sh mo ma y blocks shared junk HP N0 H4 Hb Lo La. set (lb := Layout (map (fun _ => 1) sh) (map (fun _ => 0) sh) (map (fun _ => 0) sh)).
  assert (Nn : Forall (fun d => 0 <= d) sh) by (eapply Forall_impl; [|exact HP]; cbn; intros; lia).
  assert (St : stretches (map (fun _ => 1) sh) sh) by (clear; induction sh; constructor; auto).
  assert (Ss : stretches sh sh) by (clear; induction sh; constructor; auto).
  assert (Wb : wf lb) by (split; unfold lb; cbn [l_strides l_offsets l_shape]; rewrite !map_length; reflexivity).
  assert (Zs : map (fun _ : Z => 0) sh = repeat 0 (length sh)) by (clear; induction sh as [|x s IH]; [reflexivity|cbn; now rewrite IH]).
  assert (Zo : zsum (map (fun _ : Z => 0) sh) = 0) by (clear; induction sh as [|x s IH]; [reflexivity|cbn [map]; rewrite zsum_cons, IH; reflexivity]).
  assert (Cb : forall idx, in_range (l_shape lb) idx -> cell lb idx = 0).
  { intros idx Hi. rewrite cell_dot by (try exact Wb; apply in_range_length; exact Hi). change (l_strides lb) with (map (fun _ : Z => 0) sh). change (l_offsets lb) with (map (fun _ : Z => 0) sh). rewrite Zo, Zs, dot_zero. reflexivity. }
  destruct (PropGel.C79_gpu_binary_kernel A B V op addV (dense sh) (dense sh) lb mo ma [y] blocks shared junk) as (g & mo' & Eg & Eb & Hm & Hg); auto using dense_wf, dense_separate, PropGel.dense_int_offsets.
  - exists [], sh. split; [reflexivity|]. split; [exact Ss|now left].
  - exists [], sh. split; [reflexivity|]. split; [exact St|now left].
  - intros _. unfold lb. cbn [l_shape dense]. clear. unfold compat_same_rank. induction sh as [|x s IH]; [reflexivity|]. cbn [map combine forallb fst snd]. rewrite IH. change (1 =? 1) with true. now rewrite !orb_true_r.
  - rewrite Lo. apply dense_inside.
  - rewrite La. apply dense_inside.
  - intros idx Hi. rewrite Cb by exact Hi. change (0 <= 0 < 1). lia.
  - apply PropGel.dense_near. lia.
  - apply PropGel.dense_near. lia.
  - intros idx Hi. rewrite Cb by exact Hi. change (l_offsets lb) with (map (fun _ : Z => 0) sh). rewrite Zo. lia.
  - exact (PropGel.dense_int_offsets sh).
  - exists g, mo'. split; [|split; [rewrite (binary_keeps_length _ _ _ _ _ _ _ _ Eb); exact Lo|split; [|exact Hg] ] ].
    + rewrite <- Eg. unfold binary_gpu_lax, GelModel.binary_gpu. change (l_shape (dense sh)) with sh. change (l_shape lb) with (map (fun _ : Z => 1) sh). change (l_shape (dense [1])) with [1]. change (l_strides (dense [1])) with [1].
      assert (C1 : (ndim (dense sh) =? ndim (dense [1])) && negb (compat_same_rank sh [1]) = false).
      { destruct sh as [|d [|d2 sh']]; [congruence| |].
        - cbn. rewrite orb_true_r. reflexivity.
        - replace (ndim (dense (d :: d2 :: sh')) =? ndim (dense [1])) with false; [reflexivity|]. symmetry. apply Z.eqb_neq. unfold ndim, zlen. cbn [length l_shape dense]. lia. }
      assert (C2 : compat_same_rank sh (map (fun _ : Z => 1) sh) = true) by (clear; unfold compat_same_rank; induction sh as [|x s IH]; [reflexivity|]; cbn [map combine forallb fst snd]; rewrite IH; change (1 =? 1) with true; now rewrite !orb_true_r).
      rewrite C1, C2. cbn [negb]. rewrite andb_false_r. rewrite (bcast_shape_stretch _ _ Ss), (bcast_shape_stretch _ _ St). cbn [obind].
      destruct (bcast_strides sh (l_strides (dense sh)) sh) as [sa| |] eqn:Ea; cbn [obind]; [|reflexivity|reflexivity].
      replace (bcast_strides [1] [1] sh) with (Ok (repeat 0 (length sh))).
      2:{ symmetry. unfold bcast_strides. destruct sh as [|d sh']; [congruence|]. cbn [length Nat.leb zip_with]. change (1 =? 1) with true. cbv iota. cbn [Nat.sub]. rewrite Nat.sub_0_r. f_equal. clear. induction (length sh') as [|k IH]; [reflexivity|]. cbn [repeat app]. now rewrite IH. }
      replace (bcast_strides (map (fun _ : Z => 1) sh) (l_strides lb) sh) with (Ok (repeat 0 (length sh))).
      2:{ unfold bcast_strides. rewrite map_length, Nat.leb_refl, Nat.sub_diag. cbn [repeat app]. f_equal. unfold lb. cbn [l_strides]. clear. induction sh as [|x s IH]; [reflexivity|]. cbn [length repeat map zip_with]. now rewrite <- IH. }
      cbn [obind]. change (l_offsets lb) with (map (fun _ : Z => 0) sh). change (l_offsets (dense [1])) with (map (fun _ : Z => 0) [1]). rewrite !int_sum_zeros. reflexivity.
    + intros idx Hi. destruct (Hm idx Hi) as (x & y' & X & Y & R). change (l_shape (dense sh)) with sh in X. rewrite FlagProofs.bidx_same in X by exact Hi. exists x. split; [exact X|]. rewrite R. unfold elt in Y. rewrite Cb in Y.
      * injection Y as <-. reflexivity.
      * unfold lb. cbn [l_shape]. eapply NdProofs.bidx_in_range with (lead := []); [exact St|exact Hi].
Qed.
Print Assumptions C113_gpu_one_element.

(** ** One round *)
Lemma left_all n S : left n S (fun _ => 0) = map S (zrange n).
Proof. unfold left. f_equal. induction (zrange n) as [|a l IH]; [reflexivity|]. cbn [filter]. change (0 =? 0) with true. cbn iota. now f_equal. Qed.
(** C113: one round adds flags to the samples of a channel that lie clearly outside the bounds and to none that lies clearly inside; both bounds are taken from all its samples. *)
Theorem C113_one_round : forall cx cd xa xb junk jz sh x S mask m low high,
  posl sh -> sh <> [] -> zlen sh <= 4 -> zprod sh < 2 ^ 31 -> zlen x = zprod sh -> (forall i, 0 <= i < zprod sh -> znth x i = Some (S i)) -> arr_is mask sh m -> (forall idx, in_range sh idx -> m idx = 0) ->
  let xs := map S (zrange (zprod sh)) in squares_in_reach xs ->
  is_finite low = true -> (0 <= B2R low <= bpow radix2 20)%R -> is_finite high = true -> (0 <= B2R high <= bpow radix2 20)%R ->
  forall o, gpu_sigmaclip_lax cx cd xa xb junk jz (dense sh, x) mask 1 low high o ->
    exists r F, o = Ok r /\ arr_is r sh F /\ forall idx, in_range sh idx -> let v := B2R (S (cell (dense sh) idx)) in
      ((v < rmean xs - B2R low * sigma xs - clip_margin (B2R low) xs)%R \/ (rmean xs + B2R high * sigma xs + clip_margin (B2R high) xs < v)%R -> F idx <> 0) /\
      ((rmean xs - B2R low * sigma xs + clip_margin (B2R low) xs <= v <= rmean xs + B2R high * sigma xs - clip_margin (B2R high) xs)%R -> F idx = 0).
Proof.
  intros cx cd xa xb junk jz sh x S mask m low high HP N0 H4 Hb Hx HS Am M0 xs Sq Fl Hl Fh Hh o Ho. pose proof (zprod_posl sh HP) as n1.
  destruct (C113_channels cx cd xa xb junk jz sh x S mask m 1 low high HP N0 H4 Hb Hx HS Am ltac:(lia)) as (_ & K). destruct (K o Ho) as (k & F & r & B & B' & R & _ & -> & A). assert (k = 1%nat) by lia. subst k.
  inversion R as [|k0 F0 a s R0 St Ek EF]; subst. inversion R0; subst. rewrite left_all in St. fold xs in St.
  exists r, (fun idx => to_uint8 (m idx + 32 * outside a s low high (S (cell (dense sh) idx)))). split; [reflexivity|]. split; [exact A|]. intros idx Hi v. pose proof (dense_inside sh idx Hi) as Hc.
  assert (In (S (cell (dense sh) idx)) xs) as Hin by (apply in_map, in_zrange; lia). assert (Fx : is_finite (S (cell (dense sh) idx)) = true) by exact (proj1 (Forall_forall _ _) (proj1 Sq) _ Hin).
  assert (Ne : xs <> []) by (intros E; rewrite E in Hin; destruct Hin). destruct (C107_round xs a s low high _ Sq Ne St Fx Fl Hl Fh Hh) as (Q1 & Q2). rewrite (M0 idx Hi), Z.add_0_l.
  pose proof (outside_range a s low high (S (cell (dense sh) idx))) as HF. unfold to_uint8. rewrite Z.mod_small by lia. split; intros H; [specialize (Q1 H)|specialize (Q2 H)]; lia.
Qed.
Print Assumptions C113_one_round.
(** The hypotheses hold of two spectra of three faint samples and of words 5 and 9 behind the shapes; there the strict model has only undefined behaviour (C107). *)
Definition faint2_at (i : Z) : f32 := match znth (faint ++ faint) i with Some v => v | None => f32_of_Z 0 end.
Example C113_case : posl [2; 3] /\ zlen [2; 3] <= 4 /\ zprod [2; 3] < 2 ^ 31 /\ zlen (faint ++ faint) = zprod [2; 3] /\ (forall i, 0 <= i < zprod [2; 3] -> znth (faint ++ faint) i = Some (faint2_at i)) /\
  arr_is (dense [2; 3], map (fun _ => 0) (zrange 6)) [2; 3] (fun _ => 0) /\ squares_in_reach (map faint2_at (zrange (zprod [2; 3]))) /\
  (exists o, gpu_sigmaclip_lax true false (fun _ => 5) (fun _ => 9) (fun _ => f32_of_Z 0) (fun _ => 0) (dense [2; 3], faint ++ faint) (dense [2; 3], map (fun _ => 0) (zrange 6)) 1 (f32_of_Z 3) (f32_of_Z 3) o /\ o <> UB) /\
  (forall o, gpu_sigmaclip true false (fun _ => f32_of_Z 0) (fun _ => 0) (dense [2; 3], faint ++ faint) (dense [2; 3], map (fun _ => 0) (zrange 6)) 1 (f32_of_Z 3) (f32_of_Z 3) o -> o = UB) /\
  exists g, binary_gpu_lax Z.ltb (dense [2; 3]) (dense [2; 3]) (dense [1]) = Ok g /\ map (@length _) g = [512%nat].
Proof.
  assert (HP : posl [2; 3]) by repeat constructor. assert (N0 : [2; 3] <> []) by discriminate. assert (H4 : zlen [2; 3] <= 4) by (vm_compute; discriminate). assert (Hb : zprod [2; 3] < 2 ^ 31) by reflexivity. assert (Hx : zlen (faint ++ faint) = zprod [2; 3]) by reflexivity.
  assert (V : forall i, 0 <= i < zprod [2; 3] -> znth (faint ++ faint) i = Some (faint2_at i)).
  { intros i Hi. unfold faint2_at. assert (E : exists v, znth (faint ++ faint) i = Some v) by (apply znth_some; rewrite Hx; exact Hi). destruct E as (v & ->). reflexivity. }
  assert (Az : arr_is (dense [2; 3], map (fun _ => 0) (zrange 6)) [2; 3] (fun _ => 0)).
  { apply arr_is_dense; [reflexivity|]. intros idx R. unfold elt. pose proof (dense_inside [2; 3] idx R) as K. change (zprod [2; 3]) with 6 in K. now rewrite znth_map_zrange by lia. }
  assert (Fi : forall i, 0 <= i < 6 -> is_finite (faint2_at i) = true /\ (Rabs (B2R (faint2_at i)) <= bpow radix2 (-22))%R).
  { intros i Hi. destruct faint_real as (A & B & C). assert (K : faint2_at i = faint_at (i mod 3)).
    { assert (J : i = 0 \/ i = 1 \/ i = 2 \/ i = 3 \/ i = 4 \/ i = 5) by lia. destruct J as [-> | [-> | [-> | [-> | [-> | ->] ] ] ] ]; reflexivity. }
    rewrite K. pose proof (Z.mod_pos_bound i 3 ltac:(lia)) as M. assert (J : i mod 3 = 0 \/ i mod 3 = 1 \/ i mod 3 = 2) by lia. destruct J as [-> | [-> | ->] ]; (split; [vm_compute; reflexivity|]).
    - rewrite A, Rabs_pos_eq by apply bpow_ge_0. apply bpow_le. lia.
    - rewrite B, Rabs_R0. apply bpow_ge_0.
    - rewrite C, Rabs_R0. apply bpow_ge_0. }
  split; [exact HP|]. split; [exact H4|]. split; [exact Hb|]. split; [exact Hx|]. split; [exact V|]. split; [exact Az|]. split.
  { change (zprod [2; 3]) with 6. rewrite <- left_all. apply small_reach; [now apply left_small|reflexivity]. }
  split.
  { destruct (C113_channels true false (fun _ => 5) (fun _ => 9) (fun _ => f32_of_Z 0) (fun _ => 0) [2; 3] (faint ++ faint) faint2_at (dense [2; 3], map (fun _ => 0) (zrange 6)) (fun _ => 0) 1 (f32_of_Z 3) (f32_of_Z 3) HP N0 H4 Hb Hx V Az ltac:(lia)) as ((o & Ho) & K).
    exists o. split; [exact Ho|]. destruct (K o Ho) as (k & F & r & _ & _ & _ & _ & -> & _). discriminate. }
  split; [|eexists; split; reflexivity].
  exact (proj2 (C107_channels_undefined_refuted true false (fun _ => f32_of_Z 0) (fun _ => 0) [2; 3] (faint ++ faint) (dense [2; 3], map (fun _ => 0) (zrange 6)) 1 (f32_of_Z 3) (f32_of_Z 3) HP ltac:(vm_compute; split; discriminate) Hb Hx ltac:(lia))).
Qed.
