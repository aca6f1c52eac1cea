(** GPU sigma clipping: the statistics of a round and the flags computed from them. *)
From Verif Require Import PropGred GredReal GredExact GredKernels GaccRel GvarModel.
From Coq Require Import ZifyBool ZifyNat Lia Permutation Reals Lra.
From Flocq Require Import Core BinarySingleNaN.
From Verif Require Import DriftFloatProofs FsumFacts FsumProofs GaccProofs PropGacc GvarProofs PropGvar GclipModel FlagProofs FlagProofs2 NdIndexFacts NdProofs RedProofs3.
From Verif Require GkurtProofs PropGel NdProofs2.
Local Open Scope Z_scope.

(** What the statistics of the samples [xs] left by a mask are. *)
Definition stats_of (xs : list f32) (m s : f32) : Prop := (squares_in_reach xs -> xs <> [] -> gpu_mean_of xs m /\ gpu_dev_of xs s) /\ (xs = [] -> is_nan m = true).
Lemma zero_over_zero (s : f32) : is_finite s = true -> B2R s = 0%R -> is_nan (Bdiv mode_NE s (f32_of_Z 0)) = true.
Proof. destruct s as [[|]|[|]| |[|] m e H]; intros F Z; try discriminate F; try reflexivity; exfalso; cbn in Z; apply (F2R_neq_0 radix2 _) in Z; auto; discriminate. Qed.

Lemma map_getz_zrange sh : map (getz sh) (zrange (zlen sh)) = sh.
Proof.
  unfold zrange, zlen. rewrite Nat2Z.id, map_map. induction sh as [|d sh IH]; [reflexivity|]. cbn [length seq map]. rewrite <- seq_shift, map_map. f_equal. rewrite <- IH at 2. apply map_ext. intros i. unfold getz. rewrite !Nat2Z.id. reflexivity.
Qed.
Section Stats.
  Variables (cx cd : bool) (sh : list Z) (x : mem f32) (f : list Z -> f32) (lm : layout) (mask : mem Z).
  Hypothesis HP : posl sh.
  Hypothesis H4 : zlen sh <= 4.
  Hypothesis Hb : zprod sh < 2 ^ 31.
  Hypothesis Hx : zlen x = zprod sh.
  Hypothesis Hf : forall idx, in_range sh idx -> elt x (dense sh) idx = Some (f idx).
  Hypothesis Hm : mask_ok (dense sh) lm mask.
  Let xs := map f (unmasked lm mask (all_indices sh)).
  Lemma stats_few : few_outputs x (dense sh) [].
  Proof.
    destruct (PropGred.dense_ok x sh []) as (Hok & Hun); [exact HP|exact H4|split; constructor|reflexivity|exact Hx|]. split; [exact Hok|]. split; [exact Hun|]. split; [vm_compute; discriminate|].
    assert (E : red_factor (dense sh) [] = zprod sh); [|now rewrite E]. unfold red_factor. change (l_shape (dense sh)) with sh. f_equal. unfold ndim. change (l_shape (dense sh)) with sh. apply map_getz_zrange.
  Qed.
  Lemma stats_yield : gpu_yields (gv_mmean_stddev cx cd) (dense sh) lm [] x mask (fun out => exists m s, out 0 [0] = Some m /\ out 1 [0] = Some s /\ stats_of xs m s).
  Proof.
    destruct stats_few as (Hok & Hun & N1 & Rf).
    assert (UM : usable (gv_mmean_stddev cx cd) lm mask (all_indices sh) = unmasked lm mask (all_indices sh)).
    { destruct Hm as (_ & _ & Um & _). unfold usable, unmasked. cbn [k_masked gv_mmean_stddev]. now rewrite (unsliced_eq _ Um). }
    eapply gpu_weaken; [|eapply (joint_value (gv_mmean_stddev cx cd) mpstate mplevel (dense sh) lm [] x mask
      (fun xs k v => match k with O => (squares_in_reach xs -> xs <> [] -> zlen xs < 2 ^ 31 -> gpu_mean_of xs v) /\ (xs = [] -> is_nan v = true) | _ => squares_in_reach xs -> xs <> [] -> zlen xs < 2 ^ 31 -> gpu_dev_of xs v end) (mvar_joint cx _) Hok Hun (fun _ => Hm) N1 Rf)].
    - cbn beta. intros out Ho.
      assert (He : enumerates sh [] [0] (all_indices sh)). { split; [apply all_indices_nodup|]. intros idx. rewrite in_all_indices. cbn [out_index]. tauto. }
      assert (Hr : reads x (dense sh) (usable (gv_mmean_stddev cx cd) lm mask (all_indices sh)) xs).
      { rewrite UM. unfold xs, reads. assert (Hi : forall idx, In idx (unmasked lm mask (all_indices sh)) -> in_range sh idx) by (intros idx Hi; apply filter_In in Hi as (Hi & _); now apply in_all_indices).
        revert Hi. generalize (unmasked lm mask (all_indices sh)). intros us. clear - Hf. induction us as [|i l IH]; intros Hi; constructor; [apply Hf, Hi; now left|]. apply IH. intros; apply Hi; now right. }
      assert (Hl : zlen xs < 2 ^ 31).
      { assert (zlen xs <= zprod sh); [|lia]. unfold xs, zlen. rewrite map_length. assert (E : Z.of_nat (length (all_indices sh)) = zprod sh).
        { rewrite all_indices_digits by exact HP. rewrite map_length. pose proof (zrange_length (zprod sh)) as K. pose proof (zprod_posl sh HP). unfold zlen in K. lia. }
        assert (FL : forall (q : list Z -> bool) l, (length (filter q l) <= length l)%nat) by (clear; intros q l; induction l as [|a l IH]; cbn; [lia|destruct (q a); cbn; lia]).
        specialize (FL (fun idx => match elt mask lm idx with Some b => b =? 0 | None => false end) (all_indices sh)). fold (unmasked lm mask (all_indices sh)) in FL. lia. }
      destruct (Ho [0] (all_indices sh) xs 0%nat ltac:(repeat constructor; lia) ltac:(cbn; lia) He Hr) as (m & Em & (Fm & Nm)). destruct (Ho [0] (all_indices sh) xs 1%nat ltac:(repeat constructor; lia) ltac:(cbn; lia) He Hr) as (s & Es & Fs).
      exists m, s. split; [exact Em|]. split; [exact Es|]. split; [|exact Nm]. intros Sq Ne. split; [exact (Fm Sq Ne Hl)|exact (Fs Sq Ne Hl)].
    - intros oi es ys [|[|[|k]]] g s p Hoi He Hr Eg Hp T; try discriminate; injection Eg as <-.
      + split.
        * intros Sq Ne Hl. destruct T as (T1 & _ & T3). assert (1 <= zlen ys) by (destruct ys; [easy|unfold zlen; cbn [length]; lia]). apply (mmean_end p (fst (fst s), snd s)); auto; [split; assumption|]. apply squarable_addable; [exact Sq|lia].
        * intros ->. destruct T as (T1 & _ & T3). assert (A : addable []) by (split; [constructor|]; unfold vals; cbn [map]; rewrite rabs_nil; apply bpow_ge_0). destruct (T1 A Hp) as (Fs & Bs).
          unfold norm2. cbn [fst]. rewrite T3. change (cnt (zlen (@nil f32))) with 0. apply zero_over_zero; [exact Fs|]. unfold vals in Bs. cbn [map] in Bs. rewrite rsum_nil, rabs_nil, Rmult_0_r, Rminus_0_r in Bs.
          destruct (Req_dec (B2R (fst (fst s))) 0) as [E|E]; [exact E|]. apply Rabs_pos_lt in E. lra.
      + intros Sq Ne Hl. assert (1 <= zlen ys) by (destruct ys; [easy|unfold zlen; cbn [length]; lia]). apply dev_end; [exact Sq|lia|]. now apply (mplevel_means p).
  Qed.
  Lemma stats_exist : exists m s, gpu_stats cx cd (dense sh, x) (lm, mask) m s.
  Proof.
    destruct stats_yield as (gr & L & Y). specialize (Y (fun _ _ => ((f32_of_Z 0, f32_of_Z 0), 0)) (fun _ _ => f32_of_Z 0)). cbv zeta in Y. destruct Y as (E & Y).
    destruct (GkurtProofs.finishes _ _ _ E) as (c & R & D). { intros o Ho. destruct (Y o Ho) as (c' & -> & P & _). eauto. }
    destruct (Y _ R) as (c' & Ec & _ & P). injection Ec as <-. destruct (P D) as (m & s & Em & Es & _). cbn beta in Em, Es. change (cell (dense (out_shape [] (l_shape (dense sh)))) [0]) with 0 in Em, Es.
    exists m, s, gr. do 2 eexists. exists c. split; [exact L|]. split; [exact R|]. split; [exact D|]. split.
    - destruct (fst c (GOut 0 0)) as [[| | |]|]; try discriminate. now injection Em as ->.
    - destruct (fst c (GOut 1 0)) as [[| | |]|]; try discriminate. now injection Es as ->.
  Qed.
  Lemma stats_are m s : gpu_stats cx cd (dense sh, x) (lm, mask) m s -> stats_of xs m s.
  Proof.
    intros (gr & jS & jY & c & L & R & D & V1 & V2). cbv zeta in *. cbn [fst snd] in *. destruct stats_yield as (gr' & L' & Y). rewrite L in L'. injection L' as <-. specialize (Y jS jY). cbv zeta in Y. destruct Y as (_ & Y).
    destruct (Y _ R) as (c' & Ec & _ & P). injection Ec as <-. destruct (P D) as (m' & s' & Em & Es & K). cbn beta in Em, Es. change (cell (dense (out_shape [] (l_shape (dense sh)))) [0]) with 0 in Em, Es.
    rewrite V1 in Em. rewrite V2 in Es. injection Em as <-. injection Es as <-. exact K.
  Qed.
End Stats.

(** ** One round *)
Lemma one_scalar (op : f32 -> f32 -> f32) junk a b : array_scalar_op op junk (dense [1]) [a] b = Ok (dense [1], [op a b]).
Proof. reflexivity. Qed.
Lemma one_expand (op : f32 -> f32 -> f32) junk a b : expand_op op junk (dense [1]) (dense [1]) [a] [b] = Ok (dense [1], [op a b]).
Proof. reflexivity. Qed.
(** An array of one element is not compared with an array of two or more axes: its shape is read past its end. *)
Lemma compare_one (op : f32 -> f32 -> Z) jz sh x b : 2 <= zlen sh -> left_shape_op op jz (dense sh) (dense [1]) x [b] = UB.
Proof.
  intros H. destruct sh as [|d1 [|d2 sh]]; try (unfold zlen in H; cbn in H; lia). unfold left_shape_op, binary_op. change (l_shape (dense (d1 :: d2 :: sh))) with (d1 :: d2 :: sh).
  replace (ndim (dense (d1 :: d2 :: sh)) =? ndim (dense [1])) with false by (unfold ndim; cbn [l_shape dense]; unfold zlen; cbn [length]; lia). cbn [andb]. change (l_shape (dense [1])) with [1].
  change (l_shape (dense (d1 :: d2 :: sh))) with (d1 :: d2 :: sh). unfold bcast_strides. rewrite Nat.leb_refl. cbn [obind]. change (length [1] <=? length (d1 :: d2 :: sh))%nat with true. cbn iota. cbn [obind]. rewrite PropGel.bcast_same. cbn [obind].
  replace (bcast_shape [1] (d1 :: d2 :: sh)) with (@UB (list Z)); [reflexivity|]. cbn. now rewrite orb_true_r.
Qed.
Lemma rfi_grid junk jz sh x m s low high : 2 <= zlen sh -> clip_rfi junk jz (dense sh, x) m s low high = UB.
Proof. intros H. unfold clip_rfi. rewrite one_scalar. cbn [obind fst snd]. rewrite one_expand. cbn [obind fst snd]. now rewrite compare_one. Qed.
(** How often a sample lies outside of the bounds of a round: 0 or 1, or 2 when the bounds are crossed. *)
Definition outside (m s low high x : f32) : Z :=
  (if f32lt x (Bminus mode_NE m (Bmult mode_NE s low)) then 1 else 0) + (if f32gt x (Bplus mode_NE m (Bmult mode_NE s high)) then 1 else 0).
Lemma outside_range m s low high x : 0 <= outside m s low high x <= 2.
Proof. unfold outside. destruct (f32lt _ _), (f32gt _ _); lia. Qed.
Lemma line_cell n i : cell (dense [n]) [i] = i. Proof. unfold cell, dense. cbn -[Z.mul Z.add]. lia. Qed.
Section Line.
  Variables (cx cd : bool) (junk : Z -> f32) (jz : Z -> Z) (n : Z) (x : mem f32) (S : Z -> f32) (low high : f32).
  Hypothesis Hn : 1 <= n < 2 ^ 31.
  Hypothesis Hx : zlen x = n.
  Hypothesis HS : forall i, 0 <= i < n -> znth x i = Some (S i).
  Let f (idx : list Z) : f32 := S (nth 0 idx 0).
  Let Ez : zprod [n] = n. Proof. change (zprod [n]) with (n * 1). lia. Qed.
  Let Hp : posl [n]. Proof. repeat constructor; lia. Qed.
  Let Sm : small [n]. Proof. split; [repeat constructor; lia|rewrite Ez; lia]. Qed.
  Lemma line_is : arr_is (dense [n], x) [n] f.
  Proof. apply arr_is_dense; [now rewrite Ez|]. intros idx R. apply in_range1 in R as (i & -> & Hi). unfold elt, f. rewrite line_cell. now apply HS. Qed.
  Lemma compare_line (op : f32 -> f32 -> Z) b : exists r, left_shape_op op jz (dense [n]) (dense [1]) x [b] = Ok r /\ arr_is r [n] (fun i => op (f i) b).
  Proof.
    destruct line_is as (W & _ & I & E). cbn [fst snd] in *.
    destruct (NdProofs2.left_shape_op_correct op jz (dense [n]) (dense [1]) x [b] [] [n]) as (r & Er & Lr & V); auto using dense_wf.
    - discriminate.
    - constructor; [now right|constructor].
    - now left.
    - intros idx R. apply in_range1 in R as (i & -> & Hi). cbn. unfold zlen. cbn. lia.
    - exists (dense [n], r). split; [exact Er|]. apply arr_is_dense; [exact Lr|]. intros idx R. destruct (V idx R) as (u & v & Eu & Ev & Ew). rewrite E in Eu by exact R. injection Eu as <-. change (elt r (dense [n]) idx = Some (op (f idx) v)) in Ew. rewrite Ew. do 2 f_equal.
      apply in_range1 in R as (i & -> & Hi). cbn in Ev. now injection Ev.
  Qed.
  Lemma rfi_line m s : exists r, clip_rfi junk jz (dense [n], x) m s low high = Ok (dense [n], r) /\ zlen r = n /\ forall i, 0 <= i < n -> znth r i = Some (outside m s low high (S i)).
  Proof.
    unfold clip_rfi. rewrite one_scalar. cbn [obind fst snd]. rewrite one_expand. cbn [obind fst snd].
    destruct (compare_line (fun x y => u8_of_bool (f32lt x y)) (Bminus mode_NE m (Bmult mode_NE s low))) as (lo & E1 & A1). rewrite E1. cbn [obind]. rewrite one_scalar. cbn [obind fst snd]. rewrite one_expand. cbn [obind fst snd].
    destruct (compare_line (fun x y => u8_of_bool (f32gt x y)) (Bplus mode_NE m (Bmult mode_NE s high))) as (hi & E2 & A2). rewrite E2. cbn [obind]. unfold add_flags.
    destruct (same_shape_is u8_add jz lo hi [n] _ _ A1 A2) as ([lr r] & E3 & Ef & Lr & A3); [exact Hp|discriminate|rewrite Ez; lia|]. cbn [fst snd] in Ef, Lr. subst lr. exists r. split; [exact E3|]. split; [now rewrite Lr|].
    intros i Hi. destruct A3 as (_ & _ & _ & V). specialize (V [i] ltac:(apply in_range1; eauto)). unfold elt in V. cbn [fst snd] in V. rewrite line_cell in V. rewrite V. unfold f, u8_add, u8_of_bool, outside, to_uint8. cbn [nth]. destruct (f32lt _ _), (f32gt _ _); reflexivity.
  Qed.
  (** The samples left by flags. *)
  Definition left (F : Z -> Z) : list f32 := map S (filter (fun i => F i =? 0) (zrange n)).
  Lemma left_are mask F : (forall i, 0 <= i < n -> znth mask i = Some (F i)) -> map f (unmasked (dense [n]) mask (all_indices [n])) = left F.
  Proof.
    intros HM. unfold left. change (all_indices [n]) with (flat_map (fun i => map (cons i) (all_indices [])) (zrange n)). assert (E : flat_map (fun i => map (cons i) (all_indices [])) (zrange n) = map (fun i => [i]) (zrange n)).
    { induction (zrange n) as [|i l IH]; [reflexivity|]. cbn [flat_map map]. rewrite IH. reflexivity. }
    rewrite E. clear E. assert (H : forall i, In i (zrange n) -> znth mask i = Some (F i)) by (intros i Hi; apply HM, in_zrange, Hi).
    induction (zrange n) as [|i l IH]; [reflexivity|]. cbn [map unmasked filter]. unfold elt at 1. rewrite line_cell, (H i) by now left. unfold unmasked in IH. destruct (F i =? 0); cbn [map]; [f_equal|]; apply IH; intros; apply H; now right.
  Qed.
  Lemma line_mask mask : n <= zlen mask -> mask_ok (dense [n]) (dense [n]) mask.
  Proof. intros L. split; [apply dense_wf|]. split; [reflexivity|]. split; [repeat constructor|]. intros idx R. apply in_range1 in R as (i & -> & Hi). rewrite line_cell. lia. Qed.
  Lemma line_stats mask F : n <= zlen mask -> (forall i, 0 <= i < n -> znth mask i = Some (F i)) ->
    (exists m s, gpu_stats cx cd (dense [n], x) (dense [n], mask) m s) /\ forall m s, gpu_stats cx cd (dense [n], x) (dense [n], mask) m s -> stats_of (left F) m s.
  Proof.
    intros L HM. destruct line_is as (_ & _ & _ & E). cbn [fst snd] in E. assert (H4 : zlen [n] <= 4) by (unfold zlen; cbn; lia). split.
    - apply (stats_exist cx cd [n] x f (dense [n]) mask Hp H4 ltac:(rewrite Ez; lia) ltac:(now rewrite Ez) E (line_mask mask L)).
    - intros m s H. rewrite <- (left_are mask F HM). now apply (stats_are cx cd [n] x f (dense [n]) mask Hp H4 ltac:(rewrite Ez; lia) ltac:(now rewrite Ez) E (line_mask mask L)).
  Qed.
End Line.
