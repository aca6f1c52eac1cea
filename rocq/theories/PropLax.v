(** C111: what reads past the end of a shape do, if memory can be read there. *)
From Verif Require Import NdMemFacts NdProofs NdProofs2 RedProofs2 RedProofs3 FlagProofs FlagProofs3 PropRed PropNd PropFlag LaxModel.
From Coq Require Import ZifyBool ZifyNat Lia Reals Lra Psatz.
From Flocq Require Import Core BinarySingleNaN.
From Verif Require Import DriftFloatProofs PropResp PropEq.
Local Open Scope Z_scope.

Lemma lax_length xs sh out : forall s x, bcast_shape_lax xs sh out = s -> x = out -> length s = length x.
Proof. intros s x <- ->. revert xs sh. induction out as [|o out IH]; intros xs [|d sh]; cbn [bcast_shape_lax]; [reflexivity|reflexivity| |]; destruct (_ || _); cbn [length]; now rewrite IH. Qed.
Lemma lax_strict xs sh out : forall r, bcast_shape sh out = Ok r -> bcast_shape_lax xs sh out = r.
Proof.
  revert sh. induction out as [|o out IH]; intros sh r H; cbn in *; [now injection H|]. destruct sh as [|d sh]; [discriminate|].
  destruct ((d =? o) || (d =? 1)); [destruct (bcast_shape sh out) eqn:E|destruct (bcast_shape (d :: sh) out) eqn:E]; cbn in H; try discriminate; injection H as <-; f_equal; now apply IH.
Qed.
Lemma bcast_shape_throw sh out e : bcast_shape sh out <> Throw e.
Proof. revert sh. induction out as [|o out IH]; intros [|d sh]; cbn; try discriminate. destruct (_ || _); [specialize (IH sh); destruct (bcast_shape sh out)|specialize (IH (d :: sh)); destruct (bcast_shape (d :: sh) out)]; cbn; congruence. Qed.

(** C111: where no shape is read past its end, the words there do not matter. *)
Theorem C111_agrees : forall A B V xa xb (op : A -> B -> V) junk la lb (ma : mem A) (mb : mem B), expand_op op junk la lb ma mb <> UB -> expand_op_lax xa xb op junk la lb ma mb = expand_op op junk la lb ma mb.
Proof.
  intros A B V xa xb op junk la lb ma mb H. unfold expand_op_lax, expand_op in *. destruct (expand_shapes (l_shape la) (l_shape lb)) as [sh| |]; cbn [obind] in *; [|reflexivity|reflexivity]. set (lo := dense sh) in *. set (mo := fresh junk sh) in *. clearbody mo.
  assert (E : binary_op_lax xa xb op lo la lb mo ma mb = binary_op op lo la lb mo ma mb); [|now rewrite E]. unfold binary_op_lax, binary_op in *. destruct (_ && _); [reflexivity|].
  destruct (bcast_strides (l_shape la) (l_strides la) (l_shape lo)); cbn [obind] in *; [|reflexivity|reflexivity]. destruct (bcast_strides (l_shape lb) (l_strides lb) (l_shape lo)); cbn [obind] in *; [|reflexivity|reflexivity].
  pose proof (bcast_shape_throw (l_shape la) (l_shape lo)) as Ta. pose proof (bcast_shape_throw (l_shape lb) (l_shape lo)) as Tb.
  destruct (bcast_shape (l_shape la) (l_shape lo)) eqn:Ea; cbn [obind] in *; [|exfalso; eapply Ta; eauto|congruence]. destruct (bcast_shape (l_shape lb) (l_shape lo)) eqn:Eb; cbn [obind] in *; [|exfalso; eapply Tb; eauto|congruence].
  now rewrite (lax_strict xa _ _ _ Ea), (lax_strict xb _ _ _ Eb).
Qed.
Print Assumptions C111_agrees.
Example C111_agrees_case : expand_op Z.add (fun _ => 7) (dense [2; 3]) (dense [3]) [1; 2; 3; 4; 5; 6] [10; 20; 30] <> UB.
Proof. vm_compute. discriminate. Qed.

(** ** Operands of one element *)
Lemma expand_loop_ones r : posl r -> expand_loop r (repeat 1 (length r)) = Ok r.
Proof. induction 1 as [|d r Hd _ IH]; [reflexivity|]. cbn [length repeat expand_loop]. change (1 =? 1) with true. cbn [negb andb]. rewrite andb_false_r, IH. cbn [obind]. rewrite Z.max_l by lia. reflexivity. Qed.
Lemma expand_by_one sh : posl sh -> sh <> [] -> expand_shapes sh [1] = Ok sh.
Proof.
  intros P N. unfold expand_shapes. assert (L : (1 <= length sh)%nat) by (destruct sh; [congruence|cbn; lia]). replace (Nat.max (length sh) (length [1])) with (length (rev sh)) by (rewrite rev_length; cbn [length]; lia).
  replace (pad1 (rev [1]) (length (rev sh))) with (repeat 1 (length (rev sh))). 2:{ unfold pad1. cbn [rev app length]. rewrite rev_length. destruct (length sh) as [|k]; [lia|]. cbn [Nat.sub repeat]. now rewrite Nat.sub_0_r. }
  unfold pad1. rewrite Nat.sub_diag. cbn [repeat]. rewrite app_nil_r, expand_loop_ones by (apply posl_rev; exact P). cbn [obind]. now rewrite rev_involutive.
Qed.
Lemma follows_zero : forall osh bsh, length bsh = length osh -> follows osh bsh (repeat 0 (length osh)).
Proof. induction osh as [|d osh IH]; intros [|b bsh] H; try discriminate; cbn [length repeat]; constructor; auto. Qed.
Lemma dot_zero : forall idx n, dot idx (repeat 0 n) = 0.
Proof. induction idx as [|i idx IH]; intros [|n]; cbn; try reflexivity. rewrite IH. lia. Qed.

Lemma match_cons {X} (sh : list Z) (x : outcome X) : sh <> [] -> match sh with [] => UB | _ :: _ => x end = x.
Proof. destruct sh; congruence. Qed.

(** C111: an operation with an array of one element on the right - as in normalize - is right whatever lies behind that array's shape. *)
Theorem C111_one_element : forall A B V xa xb (op : A -> B -> V) junk a b sh f y, arr_is a sh f -> arr_is b [1] (fun _ => y) -> posl sh -> sh <> [] -> zprod sh < 2 ^ 31 ->
  exists r, expand_op_lax xa xb op junk (fst a) (fst b) (snd a) (snd b) = Ok r /\ fst r = dense sh /\ zlen (snd r) = zprod sh /\ arr_is r sh (fun i => op (f i) y).
Proof.
  intros A B V xa xb op junk (la & ma) (lb & mb) sh f y (W & S1 & I & E) (W2 & S2 & I2 & E2) P N Zb. cbn [fst snd] in *. unfold expand_op_lax. rewrite S1, S2, expand_by_one by assumption. cbn [obind]. unfold binary_op_lax. change (l_shape (dense sh)) with sh.
  set (one := Layout (map (fun _ => 1) sh) (map (fun _ => 0) sh) (map (fun _ => 0) sh)).
  assert (Nn : Forall (fun d => 0 <= d) sh) by (eapply Forall_impl; [|exact P]; cbn; intros; lia).
  assert (Hc : (ndim la =? ndim lb) && negb (compat_same_rank (l_shape la) (l_shape lb)) = false).
  { rewrite S1, S2. unfold ndim. rewrite S1, S2. destruct sh as [|d [|d2 sh]]; [congruence| |].
    - cbn. rewrite orb_true_r. reflexivity.
    - replace (zlen (d :: d2 :: sh) =? zlen [1]) with false; [reflexivity|]. symmetry. apply Z.eqb_neq. unfold zlen. cbn [length]. lia. }
  rewrite Hc. clear Hc. rewrite S1, S2.
  assert (Ls : length (l_strides lb) = 1%nat) by (rewrite (proj1 W2), S2; reflexivity). destruct (l_strides lb) as [|sb [|? ?]] eqn:Esb; try discriminate Ls.
  assert (Bs : bcast_strides [1] [sb] sh = Ok (repeat 0 (length sh))).
  { unfold bcast_strides. destruct sh as [|d sh']; [congruence|]. cbn [length Nat.leb zip_with]. change (1 =? 1) with true. cbv iota. cbn [Nat.sub]. rewrite Nat.sub_0_r. f_equal. clear. induction (length sh') as [|k IH]; [reflexivity|]. cbn [repeat app]. now rewrite IH. }
  rewrite Bs. assert (Ha : aligned sh sh). { exists [], sh. split; [reflexivity|]. split; [|now left]. clear. induction sh; constructor; auto. }
  destruct (aligned_bcast sh (l_strides la) sh Ha) as (ash & ast & Q1 & Q2 & F1 & D1); [rewrite (proj1 W); now rewrite S1|]. rewrite Q2. cbn [obind]. rewrite (lax_strict xa _ _ _ Q1).
  rewrite match_cons by exact N. assert (Esh : exists d0 sh0, sh = d0 :: sh0) by (destruct sh; [congruence|eauto]). destruct Esh as (d0 & sh0 & Esh).
  set (bsh := bcast_shape_lax xb [1] sh).
  pose proof (bin_loop_cells (dense sh) la lb ash bsh ast (repeat 0 (length sh)) (dense_wf sh) (conj Nn Zb) N F1 (follows_zero sh bsh (lax_length _ _ _ _ _ eq_refl eq_refl))) as T1. change (l_shape (dense sh)) with sh in T1. rewrite T1. clear T1.
  (* the same trace as against an operand of as many axes *)
  set (lb' := Layout (map (fun _ => 1) sh) (map (fun _ => 0) sh) (zsum (l_offsets lb) :: map (fun _ => 0) sh0)).
  assert (Lo : zsum (l_offsets lb') = zsum (l_offsets lb)). { unfold lb'. cbn [l_offsets]. unfold zsum. cbn [fold_right]. replace (fold_right Z.add 0 (map (fun _ : Z => 0) sh0)) with 0; [lia|]. clear. induction sh0 as [|x s IH]; [reflexivity|]. cbn [map fold_right]. lia. }
  assert (Wb : wf lb'). { split; unfold lb'; cbn [l_strides l_offsets l_shape length]; rewrite !map_length; [reflexivity|]. rewrite Esh. reflexivity. }
  assert (St : stretches (map (fun _ => 1) sh) sh) by (clear; induction sh; constructor; auto).
  assert (Zs : map (fun _ : Z => 0) sh = repeat 0 (length sh)) by (clear; induction sh as [|x s IH]; [reflexivity|cbn; now rewrite IH]).
  assert (Cb : forall idx, in_range (l_shape lb') idx -> cell lb' idx = cell lb [0]).
  { intros idx Hi. rewrite cell_dot by (try exact Wb; apply in_range_length; exact Hi). rewrite Lo. change (l_strides lb') with (map (fun _ : Z => 0) sh). rewrite Zs, dot_zero. rewrite cell_dot by (try exact W2; rewrite S2; reflexivity). rewrite Esb. cbn. lia. }
  pose proof (I2 [0] ltac:(rewrite S2; repeat constructor; lia)) as I0.
  destruct (binary_op_correct op (dense sh) la lb' (fresh junk sh) ma mb) as (m & Em & Lm & V1 & _); auto; try (apply dense_wf).
  - split; assumption.
  - rewrite S1. exact Ha.
  - exists [], sh. split; [reflexivity|]. split; [exact St|now left].
  - intros _. rewrite S1. unfold lb'. cbn [l_shape]. clear. unfold compat_same_rank. induction sh as [|x s IH]; [reflexivity|]. cbn [map combine forallb fst snd]. rewrite IH. change (1 =? 1) with true. now rewrite !orb_true_r.
  - rewrite fresh_length by exact Nn. apply dense_inside.
  - apply dense_separate.
  - intros idx Hi. rewrite Cb by exact Hi. exact I0.
  - unfold binary_op in Em. change (l_shape (dense sh)) with sh in Em. rewrite S1 in Em. change (l_shape lb') with (map (fun _ : Z => 1) sh) in Em.
    destruct ((ndim la =? ndim lb') && negb (compat_same_rank sh (map (fun _ : Z => 1) sh))); [discriminate|]. rewrite Q2 in Em. cbn [obind] in Em.
    replace (bcast_strides (map (fun _ : Z => 1) sh) (l_strides lb') sh) with (Ok (repeat 0 (length sh))) in Em.
    2:{ unfold bcast_strides. rewrite map_length, Nat.leb_refl, Nat.sub_diag. cbn [repeat app]. f_equal. unfold lb'. cbn [l_strides]. clear. induction sh as [|x s IH]; [reflexivity|]. cbn [length repeat map zip_with]. now rewrite <- IH. }
    cbn [obind] in Em. rewrite Q1 in Em. cbn [obind] in Em. rewrite bcast_shape_stretch in Em by exact St. cbn [obind] in Em. rewrite match_cons in Em by exact N.
    pose proof (bin_loop_cells (dense sh) la lb' ash sh ast (repeat 0 (length sh)) (dense_wf sh) (conj Nn Zb) N F1 (follows_zero sh sh eq_refl)) as T2. change (l_shape (dense sh)) with sh in T2. rewrite T2, Lo in Em. rewrite Em. cbn [obind].
    exists (dense sh, m). rewrite fresh_length in Lm by exact Nn. split; [reflexivity|]. split; [reflexivity|]. split; [exact Lm|]. apply arr_is_dense; [exact Lm|]. intros idx Hi. destruct (V1 idx Hi) as (x & y' & X & Y & R). rewrite R. rewrite S1 in X.
    rewrite bidx_same in X by exact Hi. rewrite (E idx Hi) in X. injection X as <-. unfold elt in Y. rewrite Cb in Y.
    2:{ unfold lb'. cbn [l_shape]. eapply bidx_in_range with (lead := []); [exact St|exact Hi]. }
    specialize (E2 [0] ltac:(repeat constructor; lia)). unfold elt in E2. rewrite E2 in Y. injection Y as <-. reflexivity.
Qed.
Print Assumptions C111_one_element.
Definition seven : arr Z := (dense [2; 3], [1; 2; 3; 4; 5; 6]).
Example C111_one_element_case : arr_is seven [2; 3] (lit 0 [2; 3] [1; 2; 3; 4; 5; 6]) /\ arr_is (dense [1], [5]) [1] (fun _ => 5) /\
  expand_op Z.sub (fun _ => 0) (fst seven) (dense [1]) (snd seven) [5] = UB /\
  expand_op_lax (fun _ => 9) (fun _ => 77) Z.sub (fun _ => 0) (fst seven) (dense [1]) (snd seven) [5] = Ok (dense [2; 3], [-4; -3; -2; -1; 0; 1]).
Proof.
  split; [exact (proj2 (lit_grid 0 [2; 3] [1; 2; 3; 4; 5; 6] eq_refl))|]. split; [|split; reflexivity]. apply arr_is_dense; [reflexivity|]. intros idx Hi. apply in_range_1 in Hi as (i & -> & Hi). replace i with 0 by lia. reflexivity.
Qed.

(** ** Scaling by the largest sample *)
(** [M]: the largest of the samples. *)
Definition largest_of (T C : Z) (f : list Z -> f32) (M : f32) : Prop := forall t c, 0 <= t < T -> 0 <= c < C -> (B2R (f [t; c]) <= B2R M)%R.
(** C111: the normalization every search starts with divides by the largest sample, whatever lies behind the shape of that array of one element: numbers from 0 to 1, with 1
    at the largest sample - and nothing but NaN if all samples are 0. *)
Theorem C111_normalize : forall xa xb lowest junk data T C f, arr_is data [T; C] f -> 1 <= T -> 1 <= C -> T * C < 2 ^ 31 -> is_finite lowest = true -> (B2R lowest <= 0)%R ->
  (forall t c, 0 <= t < T -> 0 <= c < C -> is_finite (f [t; c]) = true /\ (0 <= B2R (f [t; c]))%R) ->
  exists r q M, normalize_lax xa xb ops32 lowest junk data = Ok r /\ arr_is r [T; C] q /\ largest_of T C f M /\ (forall t c, 0 <= t < T -> 0 <= c < C -> q [t; c] = Bdiv mode_NE (f [t; c]) M) /\
    ((0 < B2R M)%R -> (forall t c, 0 <= t < T -> 0 <= c < C -> is_finite (q [t; c]) = true /\ (0 <= B2R (q [t; c]) <= 1)%R) /\ exists t c, 0 <= t < T /\ 0 <= c < C /\ f [t; c] = M /\ B2R (q [t; c]) = 1%R) /\
    ((forall t c, 0 <= t < T -> 0 <= c < C -> B2R (f [t; c]) = 0%R) -> forall t c, 0 <= t < T -> 0 <= c < C -> is_nan (q [t; c]) = true).
Proof.
  intros xa xb lowest junk data T C f A HT HC Hb Fl Ll Hf. pose proof A as (W & S1 & I & E).
  assert (RH : red_hyps (snd data) (fst data) []).
  { split; [exact W|]. split; [rewrite S1; repeat constructor; lia|]. split; [split; constructor|]. split; [|exact I]. change (zprod _) with 1. lia. }
  destruct (C09_sum f32 lowest larger junk (fst data) (snd data) [] RH) as (mx & Qm & Lmx & Vmx).
  assert (Q : normalize_lax xa xb ops32 lowest junk data = expand_op_lax xa xb (Bdiv mode_NE) junk (fst data) (dense [1]) (snd data) mx)
    by exact (eq_trans (f_equal (fun z => obind z (fun mx => expand_op_lax xa xb (o_div ops32) junk (fst data) (fst mx) (snd data) (snd mx))) Qm) eq_refl).
  rewrite Q. clear Q Qm. change (out_shape [] (l_shape (fst data))) with [1] in *.
  destruct (Vmx [0]) as (es & xs & (_ & He) & Rd & EM); [repeat constructor; lia|]. rewrite S1 in He. set (M := fold_left larger xs lowest) in *.
  assert (Hin : forall idx, In idx es -> in_range [T; C] idx) by (intros idx Hi; apply He in Hi; tauto).
  assert (Fx : Forall (fun x : f32 => is_finite x = true) xs).
  { clear He EM M. induction Rd as [|idx x es' xs' Ex Rd IH]; constructor; [|apply IH; intros; apply Hin; now right]. specialize (Hin idx ltac:(now left)). pose proof (eq_trans (eq_sym (E idx Hin)) Ex) as EE. injection EE as <-. apply in_range_2 in Hin as (t & c & -> & Ht & Hc). now apply Hf. }
  destruct (largest_ok xs Fx lowest Fl) as (FM & _ & UM & AM). cbv zeta in *. fold M in FM, UM, AM.
  assert (Rd1 : forall t c, 0 <= t < T -> 0 <= c < C -> In (f [t; c]) xs).
  { intros t c Ht Hc. assert (Hr : in_range [T; C] [t; c]) by (repeat constructor; lia). assert (Hi : In [t; c] es) by (apply He; split; [exact Hr|reflexivity]). pose proof (E _ Hr) as Ef. clear - Rd Hi Ef. induction Rd as [|idx x es' xs' Ex Rd IH]; [destruct Hi|]. destruct Hi as [-> |Hi]; [left; pose proof (eq_trans (eq_sym Ex) Ef) as EE; now injection EE|right; auto]. }
  assert (Rd2 : forall s, In s xs -> exists t c, 0 <= t < T /\ 0 <= c < C /\ f [t; c] = s).
  { intros s Hi. clear - Rd Hi Hin E. induction Rd as [|idx x es' xs' Ex Rd IH]; [destruct Hi|]. destruct Hi as [-> |Hi]; [|apply IH; [intros; apply Hin; now right|exact Hi]]. specialize (Hin idx ltac:(now left)). pose proof (eq_trans (eq_sym (E idx Hin)) Ex) as EE. injection EE as EE. apply in_range_2 in Hin as (t & c & -> & Ht & Hc). eauto 6. }
  assert (Zp : zprod [T; C] = T * C) by (change (zprod [T; C]) with (T * (C * 1)); lia).
  destruct (C111_one_element f32 f32 f32 xa xb (Bdiv mode_NE) junk data (dense [1], mx) [T; C] f M A) as (r & Er & _ & _ & Ir).
  - apply arr_is_dense; [exact Lmx|]. intros idx Hi. apply in_range_1 in Hi as (i & -> & Hi). replace i with 0 by lia. exact EM.
  - repeat constructor; lia.
  - discriminate.
  - lia.
  - cbn [fst snd] in Er. exists r, (fun i => Bdiv mode_NE (f i) M), M. split; [exact Er|]. split; [exact Ir|]. assert (Lm : largest_of T C f M) by (intros t c Ht Hc; now apply UM, Rd1). split; [exact Lm|]. split; [reflexivity|]. split.
    + intros P0. split; [intros t c Ht Hc; destruct (Hf t c Ht Hc) as (F & P); specialize (Lm t c Ht Hc); apply quotient_ok; auto|]. destruct AM as [AM|AM]; [rewrite AM in P0; lra|]. destruct (Rd2 M AM) as (t & c & Ht & Hc & Q). exists t, c. repeat (split; [assumption|]). apply quotient_one; [now apply Hf|now rewrite Q|exact P0].
    + intros Z0 t c Ht Hc. apply zero_by_zero; [now apply Hf|now apply Z0|exact FM|]. pose proof (Lm t c Ht Hc) as L1. rewrite (Z0 t c Ht Hc) in L1. apply Rle_antisym; [|exact L1]. destruct AM as [AM|AM]; [now rewrite AM|]. destruct (Rd2 M AM) as (t' & c' & Ht' & Hc' & Q). rewrite <- Q, Z0 by assumption. lra.
Qed.
Print Assumptions C111_normalize.
Example C111_normalize_case : let m := map f32_of_Z [3; 1; 4; 1; 5; 9] in arr_is (dense [2; 3], m) [2; 3] (lit (f32_of_Z 0) [2; 3] m) /\ is_finite (f32_of_Z (-1)) = true /\ (B2R (f32_of_Z (-1)) <= 0)%R /\
  forall t c, 0 <= t < 2 -> 0 <= c < 3 -> is_finite (lit (f32_of_Z 0) [2; 3] m [t; c]) = true /\ (0 <= B2R (lit (f32_of_Z 0) [2%Z; 3%Z] m [t; c]))%R.
Proof.
  assert (Q : forall z, (Z.abs z <= 2 ^ 24)%Z -> B2R (f32_of_Z z) = IZR z /\ is_finite (f32_of_Z z) = true) by (intros z Hz; apply f32_of_Z_ok; lia).
  intros m. split; [exact (proj2 (lit_grid (f32_of_Z 0) [2; 3] m eq_refl))|]. split; [apply Q; lia|]. split; [rewrite (proj1 (Q (-1) ltac:(lia))); lra|]. intros t c Ht Hc.
  assert (G : exists z, 0 <= z <= 9 /\ lit (f32_of_Z 0) [2; 3] m [t; c] = f32_of_Z z).
  { assert (Dt : t = 0 \/ t = 1) by lia. assert (Dc : c = 0 \/ c = 1 \/ c = 2) by lia. destruct Dt as [-> | ->], Dc as [-> | [-> | ->] ]; [exists 3|exists 1|exists 4|exists 1|exists 5|exists 9]; split; try lia; reflexivity. }
  destruct G as (z & Hz & ->). destruct (Q z ltac:(lia)) as (-> & F). split; [exact F|]. apply IZR_le. lia.
Qed.

(** ** Equalization *)
Lemma load_not_throw {V} (m : mem V) i e : load m i <> Throw e.
Proof. unfold load, zget. destruct (znth m i); intros Q; discriminate Q. Qed.
Lemma store_not_throw {V} (m : mem V) i v e : store m i v <> Throw e.
Proof. unfold store. destruct (_ && _); intros Q; discriminate Q. Qed.
Lemma run3_outside {A B V} (op : A -> B -> V) ma mb o i j tr : In (o, i, j) tr -> znth mb j = None -> forall mo, run3 op ma mb mo tr = UB.
Proof.
  intros Hi Hj. induction tr as [|((o', i'), j') tr IH]; [destruct Hi|]. intros mo. cbn [run3]. pose proof (load_not_throw ma i') as L1. destruct (load ma i'); cbn [obind]; [|exfalso; eapply L1; eauto|reflexivity].
  pose proof (load_not_throw mb j') as L2. destruct Hi as [Q|Hi]; [injection Q as -> -> ->; unfold load, zget; rewrite Hj; reflexivity|]. destruct (load mb j') as [y| |]; cbn [obind]; [|exfalso; eapply L2; eauto|reflexivity].
  pose proof (store_not_throw mo o' (op a y)) as L3. destruct (store mo o' (op a y)); cbn [obind]; [now apply IH|exfalso; eapply L3; eauto|reflexivity].
Qed.
(** A response whose channel axis is taken to have one element is never taken back to its start. *)
Lemma runs_off T C a0 a1 o0 o1 t' c' : 0 <= t' < T -> 0 <= c' < C -> forall fuel n t i ai bi oi tr, n = t * C + i -> 0 <= t < T -> 0 <= i < C -> (t < t' \/ t = t' /\ i <= c') ->
  bin_loop fuel n (T * C) [C; T] [C; T] [1; T] [a1; a0] [1; 0] [o1; o0] [i; t] ai bi oi = Some tr -> exists o a, In (o, a, bi + (t' - t) * (C - 1) + (c' - i)) tr.
Proof.
  intros Ht' Hc'. induction fuel as [|fuel IH]; intros n t i ai bi oi tr Hn Ht Hi Hl.
  - cbn [bin_loop]. replace (n <? T * C) with true by nia. discriminate.
  - cbn [bin_loop]. replace (n <? T * C) with true by nia. set (u := if 8 <=? C - 1 - i then 8 else 1 + (C - 1 - i)). assert (Hu : 1 <= u /\ (i + u < C \/ i + u = C)) by (unfold u; destruct (8 <=? C - 1 - i) eqn:E; lia). clearbody u.
    destruct (Z_lt_le_dec c' (i + u)) as [Hin|Hout]; [destruct (Z.eq_dec t t') as [Et|Nt]|].
    + destruct (bin_advance _ _ _ _ _ _ _ _ _ _ _ _) as (((idx', ai'), bi'), oi'). destruct (bin_loop _ _ _ _ _ _ _ _ _ _ _ _ _) as [rest|]; [|discriminate]. intros Q. injection Q as <-. exists (oi + (c' - i) * o1), (ai + (c' - i) * a1). apply in_or_app. left.
      unfold chunk. apply in_map_iff. exists (c' - i). split; [f_equal; lia|]. apply in_zrange. lia.
    + cbn [bin_advance]. destruct (i + u <? C) eqn:Eu.
      * destruct (bin_loop _ _ _ _ _ _ _ _ _ _ _ _ _) as [rest|] eqn:Er; [|discriminate]. intros Q. injection Q as <-. apply IH in Er; [|lia|lia|lia|lia]. destruct Er as (o & a & Er). exists o, a. apply in_or_app. right. replace (bi + (t' - t) * (C - 1) + (c' - i)) with (bi + u * 1 + (t' - t) * (C - 1) + (c' - (i + u))) by lia. exact Er.
      * replace (t + 1 <? T) with true by lia. destruct (bin_loop _ _ _ _ _ _ _ _ _ _ _ _ _) as [rest|] eqn:Er; [|discriminate]. intros Q. injection Q as <-. apply IH in Er; [|nia|lia|lia|lia]. destruct Er as (o & a & Er). exists o, a. apply in_or_app. right.
        replace (bi + (t' - t) * (C - 1) + (c' - i)) with (bi + u * 1 - 1 * 1 + 1 * 0 + (t' - (t + 1)) * (C - 1) + (c' - 0)) by nia. exact Er.
    + cbn [bin_advance]. destruct (i + u <? C) eqn:Eu; [|lia].
      destruct (bin_loop _ _ _ _ _ _ _ _ _ _ _ _ _) as [rest|] eqn:Er; [|discriminate]. intros Q. injection Q as <-. apply IH in Er; [|lia|lia|lia|lia]. destruct Er as (o & a & Er). exists o, a. apply in_or_app. right. replace (bi + (t' - t) * (C - 1) + (c' - i)) with (bi + u * 1 + (t' - t) * (C - 1) + (c' - (i + u))) by lia. exact Er.
Qed.
Lemma expand_two T C : 1 <= T -> 1 <= C -> expand_shapes [T; C] [C] = Ok [T; C].
Proof.
  intros. unfold expand_shapes. change (Nat.max _ _) with 2%nat. change (pad1 (rev [T; C]) 2) with [C; T]. change (pad1 (rev [C]) 2) with [C; 1]. cbn [expand_loop]. rewrite Z.eqb_refl. change (1 =? 1) with true. cbn [negb andb]. rewrite !andb_false_r. cbn [obind rev app]. rewrite !Z.max_l by lia. reflexivity.
Qed.
(** A response of as many channels as there are spectra, when the word behind its shape matches. *)
Lemma square_match {A B V} xa xb (op : A -> B -> V) junk a h C f g : arr_is a [C; C] f -> arr_is h [C] g -> 2 <= C -> C * C < 2 ^ 31 -> xb 0 = C \/ xb 0 = 1 ->
  exists r, expand_op_lax xa xb op junk (fst a) (fst h) (snd a) (snd h) = Ok r /\ arr_is r [C; C] (fun i => op (f i) (g [nth 1 i 0])).
Proof.
  destruct a as (la & ma), h as (lb & mb). intros (W & S1 & I & E) (W2 & S2 & I2 & E2) HC Hb Hx. cbn [fst snd] in *. unfold expand_op_lax. rewrite S1, S2, expand_two by lia. cbn [obind]. unfold binary_op_lax. change (l_shape (dense [C; C])) with [C; C].
  unfold ndim. rewrite S1, S2. change (zlen [C; C] =? zlen [C]) with false. cbn [andb].
  assert (Ls : length (l_strides lb) = 1%nat) by (rewrite (proj1 W2), S2; reflexivity). destruct (l_strides lb) as [|sb [|? ?]] eqn:Esb; try discriminate Ls.
  assert (Nn : Forall (fun d => 0 <= d) [C; C]) by (repeat constructor; lia). assert (Zb : zprod [C; C] < 2 ^ 31) by (change (zprod [C; C]) with (C * (C * 1)); lia).
  assert (Bs : bcast_strides [C] [sb] [C; C] = Ok [0; sb]) by (unfold bcast_strides; cbn [length Nat.leb zip_with Nat.sub repeat app]; replace (C =? 1) with false by lia; reflexivity). rewrite Bs.
  assert (Ha : aligned [C; C] [C; C]) by (exists [], [C; C]; split; [reflexivity|]; split; [repeat constructor; auto|now left]).
  destruct (aligned_bcast [C; C] (l_strides la) [C; C] Ha) as (ash & ast & Q1 & Q2 & F1 & D1); [rewrite (proj1 W); now rewrite S1|]. rewrite Q2. cbn [obind]. rewrite (lax_strict xa _ _ _ Q1).
  assert (Hs : bcast_shape_lax xb [C] [C; C] = [C; C]). { cbn [bcast_shape_lax]. rewrite Z.eqb_refl. cbn [orb]. replace ((xb 0 =? C) || (xb 0 =? 1)) with true by lia. reflexivity. } rewrite Hs.
  assert (Fb : follows [C; C] [C; C] [0; sb]) by (repeat constructor; auto).
  pose proof (bin_loop_cells (dense [C; C]) la lb ash [C; C] ast [0; sb] (dense_wf _) (conj Nn Zb) ltac:(discriminate) F1 Fb) as T1. change (l_shape (dense [C; C])) with [C; C] in T1. rewrite T1. clear T1.
  set (lb' := Layout [1; C] [0; sb] [zsum (l_offsets lb); 0]). assert (Lo : zsum (l_offsets lb') = zsum (l_offsets lb)) by (unfold lb'; cbn [l_offsets]; unfold zsum; cbn [fold_right]; lia).
  assert (Wb : wf lb') by (split; reflexivity). assert (St : stretches [1; C] [C; C]) by (repeat constructor; auto).
  assert (Cb : forall i c, cell lb' [i; c] = cell lb [c]). { intros i c. rewrite !cell_dot by (auto; rewrite S2; reflexivity). rewrite Lo, Esb. cbn [l_strides lb' dot]. lia. }
  destruct (binary_op_correct op (dense [C; C]) la lb' (fresh junk [C; C]) ma mb) as (m & Em & Lm & V1 & _); auto; try (apply dense_wf).
  - split; assumption.
  - discriminate.
  - rewrite S1. exact Ha.
  - exists [], [C; C]. split; [reflexivity|]. split; [exact St|now left].
  - intros _. rewrite S1. unfold compat_same_rank. cbn. rewrite Z.eqb_refl, !orb_true_r. reflexivity.
  - rewrite fresh_length by exact Nn. apply dense_inside.
  - apply dense_separate.
  - intros idx Hi. change (l_shape lb') with [1; C] in Hi. apply in_range_2 in Hi as (i & c & -> & Hi & Hc). rewrite Cb. apply I2. rewrite S2. repeat constructor; lia.
  - unfold binary_op in Em. change (l_shape (dense [C; C])) with [C; C] in Em. rewrite S1 in Em. change (l_shape lb') with [1; C] in Em.
    destruct ((ndim la =? ndim lb') && negb (compat_same_rank [C; C] [1; C])); [discriminate|]. rewrite Q2 in Em. cbn [obind] in Em.
    assert (Bs' : bcast_strides [1; C] (l_strides lb') [C; C] = Ok [0; sb]) by (unfold bcast_strides; cbn [l_strides lb' length Nat.leb zip_with Nat.sub repeat app]; replace (C =? 1) with false by lia; reflexivity). rewrite Bs' in Em.
    cbn [obind] in Em. rewrite Q1 in Em. cbn [obind] in Em. rewrite bcast_shape_stretch in Em by exact St. cbn [obind] in Em.
    pose proof (bin_loop_cells (dense [C; C]) la lb' ash [C; C] ast [0; sb] (dense_wf _) (conj Nn Zb) ltac:(discriminate) F1 Fb) as T2. change (l_shape (dense [C; C])) with [C; C] in T2. rewrite T2, Lo in Em. rewrite Em. cbn [obind].
    exists (dense [C; C], m). rewrite fresh_length in Lm by exact Nn. split; [reflexivity|]. apply arr_is_dense; [exact Lm|]. intros idx Hi. destruct (V1 idx Hi) as (x & y' & X & Y & R). rewrite R. rewrite S1 in X.
    rewrite bidx_same in X by exact Hi. rewrite (E idx Hi) in X. injection X as <-. apply in_range_2 in Hi as (t & c & -> & Ht & Hc). cbn [nth]. change (bidx (l_shape lb') [t; c]) with [0; if C =? 1 then 0 else c] in Y. replace (C =? 1) with false in Y by lia. unfold elt in Y. rewrite Cb in Y.
    specialize (E2 [c] ltac:(repeat constructor; lia)). unfold elt in E2. rewrite E2 in Y. injection Y as <-. reflexivity.
Qed.
(** What equalizing [T] x [C] samples should give. *)
Definition equalized {F} (O : numops F) T C (f g : list Z -> F) (r : arr F) : Prop :=
  exists q, arr_is r [T; C] q /\ forall t c, 0 <= t < T -> 0 <= c < C -> q [t; c] = o_div O (f [t; c]) (g [c]).
(** C111: equalization is right whatever lies behind the response's shape - unless there are as many channels as spectra and more than one; then it is right if that word
    is 1 or this number, and otherwise reads outside the response. *)
Theorem C111_equalize : forall F (O : numops F) xa xb junk data h T C f g, arr_is data [T; C] f -> arr_is h [C] g -> 1 <= T -> 1 <= C -> T * C < 2 ^ 31 ->
  (C <> T \/ C = 1 \/ xb 0 = C \/ xb 0 = 1 -> exists r, equalize_lax xa xb O junk data h = Ok r /\ equalized O T C f g r) /\
  (C = T -> 1 < C -> xb 0 <> C -> xb 0 <> 1 -> fst h = dense [C] -> zlen (snd h) = C -> equalize_lax xa xb O junk data h = UB).
Proof.
  intros F O xa xb junk data h T C f g A B HT HC Hb. split.
  - intros D. destruct (Z.eq_dec C 1) as [-> |N1].
    { destruct (C111_one_element F F F xa xb (o_div O) junk data h [T; 1] f (g [0]) A) as (r & Er & _ & _ & Ir).
      - destruct B as (W & S & I & E). split; [exact W|]. split; [exact S|]. split; [exact I|]. intros idx Hi. rewrite (E idx Hi). apply in_range_1 in Hi as (i & -> & Hi). do 3 f_equal. lia.
      - repeat constructor; lia.
      - discriminate.
      - change (zprod [T; 1]) with (T * (1 * 1)). lia.
      - exists r. split; [exact Er|]. eexists. split; [exact Ir|]. intros t c Ht Hc. cbn. replace c with 0 by lia. reflexivity. }
    destruct (Z.eq_dec C T) as [<- |N2].
    + destruct (square_match xa xb (o_div O) junk data h C f g A B) as (r & Er & Ir); try lia. exists r. split; [exact Er|]. eexists. split; [exact Ir|]. reflexivity.
    + destruct (proj1 (C69_equalize F O junk data h T C f g A B HT HC Hb) N1 N2) as (r & q & Er & Ir & V). exists r. split; [|exists q; split; assumption].
      unfold equalize_lax. unfold equalize in Er. rewrite C111_agrees; [exact Er|]. rewrite Er. discriminate.
  - intros <- HC1 X1 X2 Hh Lh. unfold equalize_lax, expand_op_lax. destruct data as (la & ma), h as (lb & mb). cbn [fst snd] in *. subst lb. destruct A as (W & S1 & I & E). cbn [fst snd] in *. rewrite S1. change (l_shape (dense [C])) with [C]. rewrite expand_two by lia. cbn [obind].
    unfold binary_op_lax, ndim. change (l_shape (dense [C; C])) with [C; C]. change (l_shape (dense [C])) with [C]. rewrite S1. change (zlen [C; C] =? zlen [C]) with false. cbn [andb].
    assert (La : length (l_strides la) = 2%nat) by (rewrite (proj1 W), S1; reflexivity). destruct (l_strides la) as [|a0 [|a1 [|? ?]]]; try discriminate La.
    change (l_strides (dense [C])) with [1]. assert (Bs : bcast_strides [C] [1] [C; C] = Ok [0; 1]) by (unfold bcast_strides; cbn [length Nat.leb zip_with Nat.sub repeat app]; replace (C =? 1) with false by lia; reflexivity). rewrite Bs.
    assert (Ba : bcast_strides [C; C] [a0; a1] [C; C] = Ok [a0; a1]) by (unfold bcast_strides; cbn [length Nat.leb zip_with Nat.sub repeat app]; replace (C =? 1) with false by lia; reflexivity). rewrite Ba. cbn [obind].
    assert (Ha : bcast_shape_lax xa [C; C] [C; C] = [C; C]) by (cbn [bcast_shape_lax]; rewrite Z.eqb_refl; reflexivity). rewrite Ha.
    assert (Hs : bcast_shape_lax xb [C] [C; C] = [C; 1]). { cbn [bcast_shape_lax]. rewrite Z.eqb_refl. cbn [orb]. replace ((xb 0 =? C) || (xb 0 =? 1)) with false by lia. reflexivity. } rewrite Hs.
    change (rev [C; C]) with [C; C]. change (rev [C; 1]) with [1; C]. change (rev [a0; a1]) with [a1; a0]. change (rev [0; 1]) with [1; 0]. change (rev (map (fun _ : Z => 0) [C; C])) with [0; 0].
    assert (Ld : exists o0 o1, rev (l_strides (dense [C; C])) = [o1; o0]) by (cbn; eauto). destruct Ld as (o0 & o1 & ->).
    assert (Nl : numel (dense [C; C]) = C * C). { assert (Sm : small [C; C]) by (split; [repeat constructor; lia|change (zprod [C; C]) with (C * (C * 1)); lia]). unfold numel. change (l_shape (dense [C; C])) with [C; C]. rewrite small_numel by exact Sm. change (zprod [C; C]) with (C * (C * 1)). lia. } rewrite Nl.
    destruct (bin_loop _ _ _ _ _ _ _ _ _ _ _ _ _) as [tr|] eqn:Er; [|reflexivity]. apply (runs_off C C a0 a1 o0 o1 1 1) in Er; [|lia|lia|lia|lia|lia|lia]. destruct Er as (o & a & Hi).
    cbn [obind]. erewrite run3_outside; [reflexivity|exact Hi|]. assert (Zo : zsum (l_offsets (dense [C])) = 0) by reflexivity. rewrite Zo. replace (0 + (1 - 0) * (C - 1) + (1 - 0)) with C by lia. unfold znth. replace (C <? 0) with false by lia. apply nth_error_None. unfold zlen in Lh. lia.
Qed.
Print Assumptions C111_equalize.
Example C111_equalize_case : let data := (dense [2; 2], [10; 20; 30; 40]) in let h := (dense [2], [5; 10]) in let eq x := equalize_lax (fun _ => 0) (fun _ => x) (Ops Z.add Z.sub Z.mul Z.div Z.abs Z.ltb (fun z => z) Ok) (fun _ => 0) data h in
  arr_is data [2; 2] (lit 0 [2; 2] [10; 20; 30; 40]) /\ arr_is h [2] (lit 0 [2] [5; 10]) /\ eq 2 = Ok (dense [2; 2], [2; 2; 6; 4]) /\ eq 1 = eq 2 /\ eq 0 = UB.
Proof. cbv zeta. split; [exact (proj2 (lit_grid 0 [2; 2] [10; 20; 30; 40] eq_refl))|]. split; [exact (proj2 (lit_grid 0 [2] [5; 10] eq_refl))|]. repeat split; reflexivity. Qed.
