(** Proofs about spectral kurtosis, noise estimates, sigma clipping and preprocessing. *)
From Coq Require Import Reals Lra Permutation.
From Verif Require Import RedProofs3 NdProofs2.
From Verif Require Export FlagProofs.
From Coq Require Import ZifyBool.
Local Open Scope Z_scope.
Local Open Scope list_scope.

Lemma in_range1 C idx : in_range [C] idx <-> exists c, idx = [c] /\ 0 <= c < C.
Proof.
  split.
  - intros H. inversion H as [|? ? ? ? H1 H2]; subst. inversion H2; subst. eauto.
  - intros (c & -> & H). repeat constructor; lia.
Qed.

Lemma all_indices1 n : all_indices [n] = map (fun i => [i]) (zrange n).
Proof. cbn. induction (zrange n) as [|x l IH]; cbn; [reflexivity|]. now rewrite IH. Qed.

Lemma fibre_column T C c : fibre [T; C] [0] [c] = map (fun t => [t; c]) (zrange T).
Proof. unfold fibre. change (all_if_nil (zlen [T; C]) [0]) with [0]. unfold fibre_at. change (map (getz [T; C]) [0]) with [T].
  rewrite all_indices1, map_map. apply map_ext. intros t. reflexivity.
Qed.

Lemma reads_map {V} (m : mem V) l es xs f : reads m l es xs -> (forall i, In i es -> elt m l i = Some (f i)) -> xs = map f es.
Proof.
  intros H. induction H as [|i x es xs Hi H IH]; intros E; [reflexivity|]. cbn. f_equal.
  - specialize (E i (or_introl eq_refl)). congruence.
  - apply IH. intros j Hj. apply E. now right.
Qed.

Section SK.
Context {F : Type} (O : numops F).

(** Column sums in time order. *)
Definition colsum (T : Z) (f : list Z -> F) (c : Z) : F := fold_left (o_add O) (map (fun t => f [t; c]) (zrange T)) (o_of O 0).

Lemma column_sum_is junk a T C f : arr_is a [T; C] f -> 0 <= T -> 0 <= C < 2 ^ 31 ->
  exists r, column_sum O junk a = Ok r /\ fst r = dense [C] /\ zlen (snd r) = zprod [C] /\ arr_is r [C] (fun i => colsum T f (nth 0 i 0)).
Proof.
  intros (W & S1 & I & E) HT HC. unfold column_sum, nd_sum.
  assert (RH : red_hyps (snd a) (fst a) [0]).
  { split; [exact W|]. split; [rewrite S1; repeat constructor; lia|]. split; [split; [repeat constructor; cbn; tauto|]|].
    - constructor; [|constructor]. unfold ndim. rewrite S1. change (zlen [T; C]) with 2. lia.
    - split; [|exact I]. rewrite S1. change (out_shape [0] [T; C]) with [C]. change (zprod [C]) with (C * 1). lia. }
  destruct (reduce_total (fun _ => o_of O 0) (o_add O) (fun s => s) junk (snd a) (fst a) [0] (fun _ => Ok (o_of O 0)) RH ltac:(reflexivity))
    as (vs & R & L & V'). rewrite S1 in R, L, V'. change (out_shape [0] [T; C]) with [C] in R, L, V'.
  exists (dense [C], vs). split; [exact R|]. split; [reflexivity|]. split; [exact L|]. apply arr_is_dense; [exact L|].
  intros idx H. pose proof H as H0. apply in_range1 in H. destruct H as (c & -> & Hc). destruct (V' [c] H0) as (es & xs & _ & Ees & Rd & ->). f_equal.
  unfold colsum. cbn [nth]. f_equal. subst es. rewrite fibre_column in Rd. rewrite (reads_map _ _ _ _ f Rd); [now rewrite map_map|].
  intros i Hi. apply in_map_iff in Hi. destruct Hi as (t & <- & Ht). apply E. apply in_range2i; [apply in_zrange in Ht|]; lia.
Qed.

Lemma square_is junk a sh f : arr_is a sh f -> small sh ->
  exists r, nd_square O junk a = Ok r /\ fst r = dense sh /\ zlen (snd r) = zprod sh /\ arr_is r sh (fun i => o_mul O (f i) (f i)).
Proof.
  intros (W & S1 & I & E) Sm. unfold nd_square.
  pose proof (assign_slice_correct (fun x => o_mul O x x) (dense (l_shape (fst a))) (fst a) (fresh junk (l_shape (fst a))) (snd a)) as H.
  unfold assign_slice in H. rewrite S1 in H |- *.
  destruct H as (m & R & L & V' & _); auto.
  - apply dense_wf.
  - rewrite fresh_length by apply Sm. apply dense_inside.
  - apply dense_separate.
  - rewrite R. cbn [obind]. rewrite fresh_length in L by apply Sm. exists (dense sh, m).
    split; [reflexivity|]. split; [reflexivity|]. split; [exact L|]. apply arr_is_dense; [exact L|].
    intros idx Hi. destruct (V' idx Hi) as (x & X & Y). rewrite E in X by exact Hi. injection X as <-. exact Y.
Qed.

(** The estimate of one column from its sum and its sum of squares. *)
Definition sk_value (N M : Z) (d s1 s2 : F) : F :=
  o_mul O (o_sub O (o_mul O (o_div O s2 (o_mul O s1 s1)) (o_of O M)) (o_of O 1))
          (o_div O (o_add O (o_mul O (o_of O (M * N)) d) (o_of O 1)) (o_of O (M - 1))).
Definition sk_column (N M : Z) (d : F) (T : Z) (f : list Z -> F) (c : Z) : F :=
  sk_value N M d (colsum T f c) (colsum T (fun i => o_mul O (f i) (f i)) c).

Lemma sk_is junk data T C f N M d : arr_is data [T; C] f -> 0 <= T -> 1 <= C -> T * C < 2 ^ 31 -> C < 2 ^ 31 -> - 2 ^ 31 <= M * N < 2 ^ 31 ->
  exists r, spectral_kurtosis O junk data N M d = Ok r /\ fst r = dense [C] /\ zlen (snd r) = zprod [C] /\
    arr_is r [C] (fun i => sk_column N M d T f (nth 0 i 0)).
Proof.
  intros A HT HC Hb HC2 HMN. unfold spectral_kurtosis.
  assert (SmC : small [C]). { split; [repeat constructor; lia|]. change (zprod [C]) with (C * 1). lia. }
  assert (SmTC : small [T; C]). { split; [repeat constructor; lia|]. change (zprod [T; C]) with (T * (C * 1)). lia. }
  destruct (column_sum_is junk data T C f A HT ltac:(lia)) as (s & E1 & _ & _ & H1). rewrite E1. cbn [obind].
  destruct (square_is junk s [C] _ H1 SmC) as (s1 & E2 & _ & _ & H2). rewrite E2. cbn [obind].
  destruct (square_is junk data [T; C] _ A SmTC) as (q & E3 & _ & _ & H3). rewrite E3. cbn [obind].
  destruct (column_sum_is junk q T C _ H3 HT ltac:(lia)) as (s2 & E4 & _ & _ & H4). rewrite E4. cbn [obind].
  destruct (same_shape_is (o_div O) junk s2 s1 [C] _ _ H4 H2) as (r & E5 & _ & _ & H5);
    [repeat constructor; lia|discriminate|change (zprod [C]) with (C * 1); lia|]. rewrite E5. cbn [obind].
  unfold sk_factor. replace ((- 2 ^ 31 <=? M * N) && (M * N <? 2 ^ 31)) with true by lia. cbn [obind].
  destruct (scalar_is (o_mul O) junk r [C] _ (o_of O M) H5 SmC) as (a & E6 & _ & _ & H6). rewrite E6. cbn [obind].
  destruct (scalar_is (o_sub O) junk a [C] _ (o_of O 1) H6 SmC) as (b & E7 & _ & _ & H7). rewrite E7. cbn [obind].
  destruct (scalar_is (o_mul O) junk b [C] _ (o_div O (o_add O (o_mul O (o_of O (M * N)) d) (o_of O 1)) (o_of O (M - 1))) H7 SmC)
    as (z & E8 & D8 & L8 & H8). exists z. split; [exact E8|]. split; [exact D8|]. split; [exact L8|]. exact H8.
Qed.

(** The flags one column gets. *)
Definition sk_bits (x lower upper : F) : Z := (if o_lt O x lower then LOW_SK else 0) + (if o_lt O upper x then HIGH_SK else 0).

Lemma flag_sk_is junk jz data mask T C f m N M d lower upper : arr_is data [T; C] f -> arr_is mask [T; C] m ->
  1 <= T -> 1 <= C -> T * C < 2 ^ 31 -> - 2 ^ 31 <= M * N < 2 ^ 31 ->
  exists r, flag_sk O junk jz data mask N M d lower upper = Ok r /\
    arr_is r [T; C] (fun i => (m i + sk_bits (sk_column N M d T f (nth 1 i 0)) lower upper) mod 256).
Proof.
  intros A Am HT HC Hb HMN. unfold flag_sk, flag_sk_array.
  assert (HC2 : C < 2 ^ 31) by nia.
  assert (SmC : small [C]). { split; [repeat constructor; lia|]. change (zprod [C]) with (C * 1). lia. }
  destruct (sk_is junk data T C f N M d A ltac:(lia) HC Hb HC2 HMN) as (sk & E1 & _ & _ & H1). rewrite E1. cbn [obind]. unfold compare_scalar, scale_flags, add_flags.
  destruct (scalar_is (fun x t => u8_of_bool (o_lt O x t)) jz sk [C] _ lower H1 SmC) as (lo & E2 & _ & _ & H2). rewrite E2. cbn [obind].
  destruct (scalar_is u8_mul jz lo [C] _ LOW_SK H2 SmC) as (lo2 & E3 & _ & _ & H3). rewrite E3. cbn [obind].
  destruct (scalar_is (fun x t => u8_of_bool (o_lt O t x)) jz sk [C] _ upper H1 SmC) as (hi & E4 & _ & _ & H4). rewrite E4. cbn [obind].
  destruct (scalar_is u8_mul jz hi [C] _ HIGH_SK H4 SmC) as (hi2 & E5 & _ & _ & H5). rewrite E5. cbn [obind].
  destruct (same_shape_is u8_add jz lo2 hi2 [C] _ _ H3 H5) as (rfi & E6 & D6 & L6 & H6);
    [repeat constructor; lia|discriminate|change (zprod [C]) with (C * 1); lia|]. rewrite E6. cbn [obind].
  destruct rfi as [lr mr]. cbn [fst snd] in D6, L6, E6 |- *. subst lr.
  assert (U : exists l, unsqueeze (dense [C]) 0 = Ok l /\ arr_is (l, mr) [1; C] (fun i => sk_bits (sk_column N M d T f (nth 1 i 0)) lower upper)).
  { exists (Layout [1; C] [0; 1] [0; 0]). split; [reflexivity|]. destruct H6 as (W & S1 & I & E). cbn [fst snd] in *.
    assert (K : forall c, 0 <= c < C -> cell (dense [C]) [c] = c) by (intros; unfold cell, dense; cbn -[Z.mul Z.add]; lia).
    split; [split; reflexivity|]. split; [reflexivity|].
    assert (K2 : forall c, cell (Layout [1; C] [0; 1] [0; 0]) [0; c] = c) by (intros; unfold cell; cbn -[Z.mul Z.add]; lia).
    cbn [fst snd]. split.
    - intros idx R. change (in_range [1; C] idx) in R. apply in_range2 in R. destruct R as (t & c & -> & Ht & Hc).
      assert (t = 0) by lia. subst t. rewrite L6. change (zprod [C]) with (C * 1).
      rewrite K2. lia.
    - intros idx R. apply in_range2 in R. destruct R as (t & c & -> & Ht & Hc). assert (t = 0) by lia. subst t. cbn [nth].
      specialize (E [c] ltac:(apply in_range1; eauto)). unfold elt in E |- *. rewrite K in E by lia.
      rewrite K2, E. f_equal. cbn [nth]. unfold sk_bits, u8_add, u8_mul, u8_of_bool, to_uint8.
      destruct (o_lt O _ lower), (o_lt O upper _); reflexivity. }
  destruct U as (l & EU & HU). rewrite EU. cbn [obind].
  destruct (expand_is u8_add jz mask (l, mr) [T; C] [1; C] [T; C] m _ Am HU) as (r & E7 & _ & _ & H7).
  - repeat constructor; lia.
  - repeat constructor; lia.
  - unfold expand_shapes. change (Nat.max _ _) with 2%nat. change (pad1 (rev [T; C]) 2) with [C; T]. change (pad1 (rev [1; C]) 2) with [C; 1].
    cbn [expand_loop]. rewrite Z.eqb_refl. change (1 =? 1) with true. cbn [negb andb]. rewrite andb_false_r. cbn [obind rev app].
    rewrite Z.max_id, Z.max_l by lia. reflexivity.
  - discriminate.
  - change (zprod [T; C]) with (T * (C * 1)). lia.
  - now left.
  - now left.
  - exists r. split; [exact E7|]. eapply arr_is_ext; [|exact H7]. intros i R. cbn beta. pose proof R as R0. apply in_range2 in R. destruct R as (t & c & -> & Ht & Hc).
    rewrite bidx_same by exact R0. unfold u8_add, to_uint8. do 3 f_equal. unfold bidx. cbn -[Z.eqb]. destruct (Z.eqb_spec C 1); cbn [nth]; [f_equal; lia|reflexivity].
Qed.
End SK.
