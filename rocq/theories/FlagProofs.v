(** Proofs about the flaggers and estimators. *)
From Coq Require Import Reals Lra.
From Verif Require Import RedProofs3 NdProofs2.
From Verif Require Export FlagModel.
From Coq Require Import ZifyBool.
Local Open Scope Z_scope.
Local Open Scope list_scope.

(** [a] is an array of shape [sh] whose element at [idx] is [f idx]. *)
Definition arr_is {A} (a : arr A) (sh : list Z) (f : list Z -> A) : Prop :=
  wf (fst a) /\ l_shape (fst a) = sh /\ inside (fst a) (zlen (snd a)) /\
  forall idx, in_range sh idx -> elt (snd a) (fst a) idx = Some (f idx).

Lemma arr_is_dense {A} sh (m : mem A) f : zlen m = zprod sh ->
  (forall idx, in_range sh idx -> elt m (dense sh) idx = Some (f idx)) -> arr_is (dense sh, m) sh f.
Proof.
  intros L E. split; [apply dense_wf|]. split; [reflexivity|]. split; [|exact E]. cbn [fst snd]. rewrite L. apply dense_inside.
Qed.

Lemma arr_is_ext {A} (a : arr A) sh f g : (forall idx, in_range sh idx -> f idx = g idx) -> arr_is a sh f -> arr_is a sh g.
Proof. intros H (W & S & I & E). do 3 (split; [assumption|]). intros idx R. rewrite <- H by exact R. apply E, R. Qed.

Lemma arr_is_fun {A} (a : arr A) sh f g : arr_is a sh f -> arr_is a sh g -> forall idx, in_range sh idx -> f idx = g idx.
Proof. intros (_ & _ & _ & E) (_ & _ & _ & E') idx R. specialize (E idx R). rewrite E' in E by exact R. congruence. Qed.

Lemma scalar_is {A S V} (op : A -> S -> V) junk a sh f b : arr_is a sh f -> small sh ->
  exists r, array_scalar_op op junk (fst a) (snd a) b = Ok r /\ fst r = dense sh /\ zlen (snd r) = zprod sh /\
    arr_is r sh (fun i => op (f i) b).
Proof.
  intros (W & S1 & I & E) Sm. destruct (array_scalar_op_correct op junk (fst a) (snd a) b W) as (m & R & L & V'); [now rewrite S1|exact I|].
  rewrite S1 in R, L, V'. exists (dense sh, m). split; [exact R|]. split; [reflexivity|]. split; [exact L|]. apply arr_is_dense; [exact L|].
  intros idx H. destruct (V' idx H) as (x & X & Y). rewrite E in X by exact H. injection X as <-. exact Y.
Qed.

Lemma expand_is {A B V} (op : A -> B -> V) junk a b sa sb s f g : arr_is a sa f -> arr_is b sb g ->
  posl sa -> posl sb -> expand_shapes sa sb = Ok s -> s <> [] -> zprod s < 2 ^ 31 -> walkable sa s -> walkable sb s ->
  exists r, expand_op op junk (fst a) (fst b) (snd a) (snd b) = Ok r /\ fst r = dense s /\ zlen (snd r) = zprod s /\
    arr_is r s (fun i => op (f (bidx sa i)) (g (bidx sb i))).
Proof.
  intros (W1 & S1 & I1 & E1) (W2 & S2 & I2 & E2) P1 P2 EX N Z1 K1 K2. subst sa sb.
  destruct (expand_op_correct op junk (fst a) (fst b) (snd a) (snd b) s W1 W2 P1 P2 EX N Z1 K1 K2 I1 I2) as (m & R & L & V').
  exists (dense s, m). split; [exact R|]. split; [reflexivity|]. split; [exact L|]. apply arr_is_dense; [exact L|].
  destruct (expand_stretches _ _ _ P1 P2 EX) as (l1 & t1 & Q1 & T1).
  rewrite expand_shapes_comm in EX. destruct (expand_stretches _ _ _ P2 P1 EX) as (l2 & t2 & Q2 & T2).
  intros idx H. destruct (V' idx H) as (x & y & X & Y & Z2). rewrite Z2.
  rewrite E1 in X by (rewrite Q1 in H; exact (bidx_in_range _ _ _ _ T1 H)).
  rewrite E2 in Y by (rewrite Q2 in H; exact (bidx_in_range _ _ _ _ T2 H)). congruence.
Qed.

Lemma bidx_same s idx : in_range s idx -> bidx s idx = idx.
Proof.
  intros H. unfold bidx. rewrite (in_range_length _ _ H), Nat.sub_diag. cbn [skipn].
  induction H as [|d i s idx H R IH]; [reflexivity|]. cbn. rewrite IH. f_equal. destruct (Z.eqb_spec d 1); lia.
Qed.

Lemma same_shape_is {A B V} (op : A -> B -> V) junk a b s f g : arr_is a s f -> arr_is b s g ->
  posl s -> s <> [] -> zprod s < 2 ^ 31 ->
  exists r, expand_op op junk (fst a) (fst b) (snd a) (snd b) = Ok r /\ fst r = dense s /\ zlen (snd r) = zprod s /\
    arr_is r s (fun i => op (f i) (g i)).
Proof.
  intros Ha Hb P N Z1. destruct (expand_is op junk a b s s s f g Ha Hb P P) as (r & R & D & L & I); auto.
  - apply expand_shapes_self.
  - now left.
  - now left.
  - exists r. repeat (split; [assumption|]). eapply arr_is_ext; [|exact I]. intros idx H. cbn. now rewrite bidx_same by exact H.
Qed.

Lemma posl_small s : posl s -> zprod s < 2 ^ 31 -> small s.
Proof. intros P H. split; [apply posl_nonneg, P|exact H]. Qed.

(** ** Flag bits *)
Definition byte (v : Z) : Prop := 0 <= v < 256.
Lemma u8_add_disjoint v w : byte v -> byte w -> Z.land v w = 0 -> u8_add v w = Z.lor v w.
Proof.
  intros Hv Hw H. unfold u8_add, to_uint8. rewrite Z.add_nocarry_lxor, Z.lxor_lor by exact H. apply Z.mod_small.
  assert (0 <= Z.lor v w) by (apply Z.lor_nonneg; split; unfold byte in *; lia). split; [assumption|].
  destruct (Z.eq_dec (Z.lor v w) 0) as [->|N]; [lia|]. change 256 with (2 ^ 8). apply Z.log2_lt_pow2; [lia|].
  rewrite Z.log2_lor by (unfold byte in *; lia).
  apply Z.max_lub_lt; [destruct (Z.eq_dec v 0) as [->|]|destruct (Z.eq_dec w 0) as [->|]]; try (cbn; lia);
    apply Z.log2_lt_pow2; unfold byte in *; lia.
Qed.

(** ** Magnitude flagging *)
Section Mag.
Context {A : Type} (gt : A -> A -> bool).

Definition mag_bit (x t : A) : Z := if gt x t then MAGNITUDE else 0.

Lemma magnitude_spec junk data mask sh d m t : arr_is data sh d -> arr_is mask sh m ->
  posl sh -> sh <> [] -> zprod sh < 2 ^ 31 ->
  exists r, flag_magnitude gt junk data mask t = Ok r /\ arr_is r sh (fun i => (m i + mag_bit (d i) t) mod 256).
Proof.
  intros Hd Hm P N Z1. pose proof (posl_small _ P Z1) as Sm. unfold flag_magnitude, flag_magnitude_array, compare_scalar, scale_flags, add_flags.
  destruct (scalar_is (fun x t => u8_of_bool (gt x t)) junk data sh d t Hd Sm) as (c & E1 & _ & _ & H1). rewrite E1. cbn [obind].
  destruct (scalar_is u8_mul junk c sh _ MAGNITUDE H1 Sm) as (c2 & E2 & _ & _ & H2). rewrite E2. cbn [obind].
  destruct (same_shape_is u8_add junk mask c2 sh m _ Hm H2 P N Z1) as (r & E3 & _ & _ & H3). exists r. split; [exact E3|].
  eapply arr_is_ext; [|exact H3]. intros i _. cbn beta. unfold u8_add, to_uint8, mag_bit, u8_mul, u8_of_bool. now destruct (gt _ _).
Qed.

Fixpoint flag_magnitude_times junk k data mask t : outcome (arr Z) :=
  match k with O => Ok mask | S k' => let! m := flag_magnitude_times junk k' data mask t in flag_magnitude gt junk data m t end.

Lemma magnitude_times junk data mask sh d m t : arr_is data sh d -> arr_is mask sh m -> (forall i, in_range sh i -> byte (m i)) ->
  posl sh -> sh <> [] -> zprod sh < 2 ^ 31 -> forall k,
  exists r, flag_magnitude_times junk k data mask t = Ok r /\
    arr_is r sh (fun i => (m i + Z.of_nat k * mag_bit (d i) t) mod 256).
Proof.
  intros Hd Hm B P N Z1. induction k as [|k (r & E & H)].
  - exists mask. split; [reflexivity|]. eapply arr_is_ext; [|exact Hm]. intros i R. rewrite Z.mul_0_l, Z.add_0_r.
    symmetry. apply Z.mod_small, B, R.
  - cbn [flag_magnitude_times]. rewrite E. cbn [obind].
    destruct (magnitude_spec junk data r sh d _ t Hd H P N Z1) as (r' & E' & H'). exists r'. split; [exact E'|].
    eapply arr_is_ext; [|exact H']. intros i R. cbn beta. rewrite Z.add_mod_idemp_l by lia. f_equal. lia.
Qed.
End Mag.

(** ** Filter rolloff *)
Lemma add_to_slice_spec junk l (m : mem Z) k : wf l -> small (l_shape l) -> inside l (zlen m) -> separate l ->
  exists m', add_to_slice junk l m k = Ok m' /\ zlen m' = zlen m /\
    (forall idx, in_range (l_shape l) idx -> exists x, elt m l idx = Some x /\ elt m' l idx = Some (u8_add x k)) /\
    (forall c, outside_view l c -> znth m' c = znth m c).
Proof.
  intros W Sm I Sp. unfold add_to_slice.
  destruct (array_scalar_op_correct u8_add junk l m k W Sm I) as (t & E & L & H). rewrite E. cbn [obind fst snd].
  destruct (assign_slice_correct (fun x : Z => x) l (dense (l_shape l)) m t W (dense_wf _) Sm eq_refl I Sp) as (m' & E' & L' & H' & O').
  { rewrite L. apply dense_inside. }
  exists m'. split; [exact E'|]. split; [exact L'|]. split; [|exact O'].
  intros idx R. destruct (H idx R) as (x & X & Y). destruct (H' idx R) as (y & Y' & Z'). exists x. split; [exact X|]. congruence.
Qed.

Lemma in_range2 T C idx : in_range [T; C] idx <-> exists t c, idx = [t; c] /\ 0 <= t < T /\ 0 <= c < C.
Proof.
  split.
  - intros H. inversion H as [|? ? ? ? H1 H2]; subst. inversion H2 as [|? ? ? ? H3 H4]; subst. inversion H4; subst. eauto 6.
  - intros (t & c & -> & H1 & H2). repeat constructor; lia.
Qed.

Lemma in_range2i T C t c : 0 <= t < T -> 0 <= c < C -> in_range [T; C] [t; c].
Proof. intros. repeat constructor; lia. Qed.

Lemma cell_dense2 T C t c : cell (dense [T; C]) [t; c] = t * C + c.
Proof. unfold cell, dense. cbn -[Z.mul Z.add]. lia. Qed.

(** A window of columns [lo, lo+n) of a 2-D array. *)
Definition column_window (v : layout) (T C lo n : Z) : Prop :=
  wf v /\ l_shape v = [T; n] /\ forall t c, 0 <= t < T -> 0 <= c < n -> cell v [t; c] = cell (dense [T; C]) [t; lo + c].

Lemma window_add junk v T C lo n m f k : column_window v T C lo n -> 0 <= lo -> 0 <= n -> lo + n <= C -> 0 <= T -> T * C < 2 ^ 31 ->
  zlen m = zprod [T; C] -> arr_is (dense [T; C], m) [T; C] f ->
  exists m', add_to_slice junk v m k = Ok m' /\ zlen m' = zprod [T; C] /\
    arr_is (dense [T; C], m') [T; C] (fun i => if (lo <=? nth 1 i 0) && (nth 1 i 0 <? lo + n) then u8_add (f i) k else f i).
Proof.
  intros (W & S1 & Cl) Hlo Hn HC HT Hb L (_ & _ & _ & E). cbn [fst snd] in E.
  assert (I : inside v (zlen m)).
  { rewrite L. intros idx R. rewrite S1 in R. apply in_range2 in R. destruct R as (t & c & -> & Ht & Hc). rewrite Cl by lia.
    apply (dense_inside [T; C]). apply in_range2. exists t, (lo + c). repeat split; lia. }
  destruct (add_to_slice_spec junk v m k) as (m' & E' & L' & H & O); auto.
  - rewrite S1. split; [repeat constructor; lia|]. change (zprod [T; n]) with (T * (n * 1)). assert (T * n <= T * C) by (apply Z.mul_le_mono_nonneg_l; lia). lia.
  - intros i j Ri Rj. rewrite S1 in Ri, Rj. apply in_range2 in Ri, Rj. destruct Ri as (t & c & -> & Ht & Hc), Rj as (t' & c' & -> & Ht' & Hc').
    rewrite !Cl by lia. intros Q. apply (dense_separate [T; C] [t; lo + c] [t'; lo + c']) in Q; [|apply (in_range2i T C); lia|apply (in_range2i T C); lia].
    injection Q as -> Q. f_equal. f_equal. lia.
  - exists m'. split; [exact E'|]. split; [lia|]. apply arr_is_dense; [lia|]. intros idx R. pose proof R as R0.
    apply in_range2 in R. destruct R as (t & c & -> & Ht & Hc). cbn [nth].
    destruct (Z.leb_spec lo c); cbn [andb]; [destruct (Z.ltb_spec c (lo + n))|].
    + destruct (H [t; c - lo]) as (x & X & Y). { rewrite S1. apply in_range2. exists t, (c - lo). repeat split; lia. }
      unfold elt in X, Y. rewrite Cl in X, Y by lia. replace (lo + (c - lo)) with c in X, Y by lia.
      specialize (E _ R0). unfold elt in E |- *. rewrite E in X. injection X as <-. exact Y.
    + unfold elt. rewrite O; [apply E; exact R0|]. intros idx R Q. rewrite S1 in R. apply in_range2 in R. destruct R as (t' & c' & -> & Ht' & Hc').
      rewrite Cl in Q by lia. apply (dense_separate [T; C] [t'; lo + c'] [t; c]) in Q; [|apply (in_range2i T C); lia|exact R0].
      injection Q as -> Q. lia.
    + unfold elt. rewrite O; [apply E; exact R0|]. intros idx R Q. rewrite S1 in R. apply in_range2 in R. destruct R as (t' & c' & -> & Ht' & Hc').
      rewrite Cl in Q by lia. apply (dense_separate [T; C] [t'; lo + c'] [t; c]) in Q; [|apply (in_range2i T C); lia|exact R0].
      injection Q as -> Q. lia.
Qed.

Lemma window_left T C n : 0 <= T -> 0 <= n <= C -> exists v, slice1 (dense [T; C]) 1 0 n 1 = Ok v /\ column_window v T C 0 n.
Proof.
  intros HT Hn. unfold slice1. rewrite (size_axis_ok (dense [T; C]) 1 C eq_refl). cbn [obind]. change (znth (l_strides (dense [T; C])) 1) with (Some 1). change (1 =? 0) with false. cbv iota. replace (0 <? 0) with false by lia. cbn [negb andb].
  replace (C <? 0) with false by lia. replace (n <? 0) with false by lia. replace (C <? n) with false by lia.
  replace (n <? 0) with false by lia. rewrite Z.quot_1_r, Z.sub_0_r.
  eexists. split; [reflexivity|]. split; [split; reflexivity|]. split; [reflexivity|]. intros t c _ _. unfold cell, dense. change (Z.to_nat 1) with 1%nat. cbn -[Z.mul Z.add Z.opp]. lia.
Qed.

Lemma window_right T C n : 0 <= T -> 1 <= n < C -> exists v, slice1 (dense [T; C]) 1 (- n) C 1 = Ok v /\ column_window v T C (C - n - 1) (n + 1).
Proof.
  intros HT Hn. unfold slice1. rewrite (size_axis_ok (dense [T; C]) 1 C eq_refl). cbn [obind]. change (znth (l_strides (dense [T; C])) 1) with (Some 1). change (1 =? 0) with false. cbv iota. replace (- n <? 0) with true by lia. cbn [negb andb].
  replace (C <? 0) with false by lia. replace (C <? C) with false by lia. replace (C <? C + - n - 1) with false by lia.
  rewrite Z.quot_1_r. replace (C - (C + - n - 1)) with (n + 1) by lia.
  eexists. split; [reflexivity|]. split; [split; reflexivity|]. split; [reflexivity|]. intros t c _ _. unfold cell, dense. change (Z.to_nat 1) with 1%nat. cbn -[Z.mul Z.add Z.sub Z.opp]. lia.
Qed.

(** How often one read adds the rolloff flag to column [c] when [n] columns at each edge are asked for. *)
Definition rolloff_hits (C n c : Z) : Z :=
  if n =? 0 then 1 else u8_of_bool (c <? n) + u8_of_bool (C - n - 1 <=? c).

Lemma rolloff_spec junk T C n m f : 0 <= T -> 1 <= C -> 0 <= n < C -> T * C < 2 ^ 31 ->
  zlen m = zprod [T; C] -> arr_is (dense [T; C], m) [T; C] f -> (forall i, in_range [T; C] i -> byte (f i)) ->
  exists m', rolloff_once junk n (dense [T; C], m) = Ok (dense [T; C], m') /\ zlen m' = zprod [T; C] /\
    arr_is (dense [T; C], m') [T; C] (fun i => (f i + rolloff_hits C n (nth 1 i 0)) mod 256).
Proof.
  intros HT HC Hn Hb L A B. unfold rolloff_once. cbn [fst snd].
  change (zget (l_shape (dense [T; C])) 1) with (@Ok Z C). cbn [obind].
  destruct (window_left T C n HT ltac:(lia)) as (v & E & W). rewrite E. cbn [obind].
  destruct (window_add junk v T C 0 n m f FILTER_ROLLOFF W) as (m1 & E1 & L1 & H1); try lia; auto. rewrite E1. cbn [obind].
  assert (R : exists w, slice1 (dense [T; C]) 1 (- n) C 1 = Ok w /\
    column_window w T C (if n =? 0 then 0 else C - n - 1) (if n =? 0 then C else n + 1)).
  { destruct (Z.eqb_spec n 0) as [->|]; [apply (window_left T C C); lia|apply window_right; lia]. }
  destruct R as (w & E2 & W2). rewrite E2. cbn [obind].
  destruct (window_add junk w T C _ _ m1 _ FILTER_ROLLOFF W2 ltac:(destruct (Z.eqb_spec n 0); lia) ltac:(destruct (Z.eqb_spec n 0); lia)
     ltac:(destruct (Z.eqb_spec n 0); lia) HT Hb L1 H1) as (m2 & E3 & L3 & H3).
  rewrite E3. cbn [obind]. exists m2. split; [reflexivity|]. split; [exact L3|]. eapply arr_is_ext; [|exact H3].
  intros i Hi. specialize (B i Hi). unfold byte in B. apply in_range2 in Hi. destruct Hi as (t & c & -> & Ht & Hc). cbn [nth].
  unfold rolloff_hits, u8_add, to_uint8, u8_of_bool, FILTER_ROLLOFF. destruct (Z.eqb_spec n 0) as [->|Hn0].
  - replace (0 <=? c) with true by lia. replace (c <? 0 + 0) with false by lia. replace (c <? 0 + C) with true by lia. cbn [andb]. reflexivity.
  - replace (0 <=? c) with true by lia. replace (0 + n) with n by lia. replace (C - n - 1 + (n + 1)) with C by lia.
    replace (c <? C) with true by lia. cbn [andb]. rewrite andb_true_r.
    destruct (Z.ltb_spec c n), (Z.leb_spec (C - n - 1) c); cbn [Z.add]; rewrite ?Z.add_mod_idemp_l by lia; try (f_equal; lia).
Qed.

Lemma rolloff_reads_spec junk T C n m f : 0 <= T -> 1 <= C -> 0 <= n < C -> T * C < 2 ^ 31 ->
  zlen m = zprod [T; C] -> arr_is (dense [T; C], m) [T; C] f -> (forall i, in_range [T; C] i -> byte (f i)) -> forall k,
  exists m', rolloff_reads junk n k (dense [T; C], m) = Ok (dense [T; C], m') /\ zlen m' = zprod [T; C] /\
    arr_is (dense [T; C], m') [T; C] (fun i => (f i + Z.of_nat k * rolloff_hits C n (nth 1 i 0)) mod 256).
Proof.
  intros HT HC Hn Hb L A B. induction k as [|k (m' & E & L' & H)].
  - exists m. split; [reflexivity|]. split; [exact L|]. eapply arr_is_ext; [|exact A]. intros i R. rewrite Z.mul_0_l, Z.add_0_r. symmetry.
    apply Z.mod_small, B, R.
  - cbn [rolloff_reads]. rewrite E. cbn [obind].
    destruct (rolloff_spec junk T C n m' _ HT HC Hn Hb L' H) as (m2 & E2 & L2 & H2).
    { intros i _. unfold byte. apply Z.mod_pos_bound. lia. }
    exists m2. split; [exact E2|]. split; [exact L2|]. eapply arr_is_ext; [|exact H2]. intros i _. cbn beta.
    rewrite Z.add_mod_idemp_l by lia. f_equal. lia.
Qed.

(** Asking for at least the whole band reads before the array. *)
Lemma rolloff_too_wide junk T C n m f : 1 <= T -> 1 <= C <= n -> T * (n + 1) < 2 ^ 31 -> zlen m = zprod [T; C] ->
  arr_is (dense [T; C], m) [T; C] f -> rolloff_once junk n (dense [T; C], m) = UB.
Proof.
  intros HT Hn Hb L A. unfold rolloff_once. cbn [fst snd].
  change (zget (l_shape (dense [T; C])) 1) with (@Ok Z C). cbn [obind].
  assert (E : slice1 (dense [T; C]) 1 0 n 1 = slice1 (dense [T; C]) 1 0 C 1).
  { unfold slice1. rewrite (size_axis_ok (dense [T; C]) 1 C eq_refl). cbn [obind]. change (znth (l_strides (dense [T; C])) 1) with (Some 1). change (1 =? 0) with false. cbv iota. replace (0 <? 0) with false by lia. cbn [negb andb].
    replace (C <? 0) with false by lia. replace (n <? 0) with false by lia. replace (C <? C) with false by lia.
    destruct (Z.ltb_spec C n); [reflexivity|]. now replace n with C by lia. }
  rewrite E. destruct (window_left T C C ltac:(lia) ltac:(lia)) as (v & E0 & W). rewrite E0. cbn [obind].
  destruct (window_add junk v T C 0 C m f FILTER_ROLLOFF W) as (m1 & E1 & L1 & H1); try lia; auto. { assert (T * C <= T * (n + 1)) by (apply Z.mul_le_mono_nonneg_l; lia). lia. }
  rewrite E1. cbn [obind]. unfold slice1 at 1. rewrite (size_axis_ok (dense [T; C]) 1 C eq_refl). cbn [obind]. change (znth (l_strides (dense [T; C])) 1) with (Some 1). change (1 =? 0) with false. cbv iota.
  replace (- n <? 0) with true by lia. cbn [negb andb].
  replace (C <? 0) with false by lia. replace (C <? C) with false by lia. replace (C <? C + - n - 1) with false by lia.
  rewrite Z.quot_1_r. replace (C - (C + - n - 1)) with (n + 1) by lia. cbn [obind].
  match goal with |- context [add_to_slice _ ?l _ _] => set (w := l) end.
  assert (Q : add_to_slice junk w m1 FILTER_ROLLOFF = UB); [|rewrite Q; reflexivity].
  unfold add_to_slice, array_scalar_op, scalar_op. change (l_shape (dense (l_shape w))) with (l_shape w). rewrite Nat.ltb_irrefl.
  replace (numel (dense (l_shape w))) with (T * (n + 1)).
  2:{ unfold numel. rewrite small_numel; [change (zprod _) with (T * ((n + 1) * 1)); lia|]. split; [repeat constructor; lia|]. change (zprod _) with (T * ((n + 1) * 1)). lia. }
  destruct (Z.to_nat (T * (n + 1))) as [|k] eqn:Ek; [assert (T * 1 <= T * (n + 1)) by (apply Z.mul_le_mono_nonneg_l; lia); lia|].
  cbn [loop2]. cbn [run2]. replace (load m1 (zsum (l_offsets w))) with (@UB Z); [reflexivity|].
  unfold load, zget, znth. replace (zsum (l_offsets w) <? 0) with true; [reflexivity|]. unfold w, dense, zsum. change (Z.to_nat 1) with 1%nat. cbn -[Z.opp Z.mul Z.add Z.ltb Z.sub]. lia.
Qed.
