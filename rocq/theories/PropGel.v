(** Property theorems of the GPU element-wise operations (C79). *)
From Verif Require Import GelFill NdProofs2.
From Coq Require Import ZifyBool Lia.
Local Open Scope Z_scope.

(** The output buffer of a finished launch. *)
Definition output_is {A B V} (mo : mem V) (m : gpumem (A := eaddr) (V := evalue A B V)) : Prop :=
  forall c, m (EO c) = option_map XO (znth mo c).
Definition inputs_kept {A B V} (ma : mem A) (mb : mem B) (m : gpumem (A := eaddr) (V := evalue A B V)) : Prop :=
  (forall i, m (EA i) = option_map XA (znth ma i)) /\ (forall i, m (EB i) = option_map XB (znth mb i)).

Lemma view_or_outside lo c : (exists idx, in_range (l_shape lo) idx /\ cell lo idx = c) \/ outside_view lo c.
Proof.
  destruct (in_dec Z.eq_dec c (map (cell lo) (all_indices (l_shape lo)))) as [H|H].
  - left. apply in_map_iff in H as (i & E & Hi). exists i. split; [now apply in_all_indices|exact E].
  - right. intros i Hi E. apply H. apply in_map_iff. exists i. split; [exact E|now apply in_all_indices].
Qed.
Lemma output_of {A B V} (ma : mem A) (mb : mem B) (mo mo' : mem V) lo f m :
  el_result ma mb mo lo f m ->
  (forall idx v, in_range (l_shape lo) idx -> f idx v -> elt mo' lo idx = Some v) ->
  (forall c, outside_view lo c -> znth mo' c = znth mo c) -> output_is mo' m /\ inputs_kept ma mb m.
Proof.
  intros (H1 & H2 & H3 & H4) Hf Ho. split; [|split; auto]. intros c. destruct (view_or_outside lo c) as [(idx & Hr & <-)|Hc].
  - destruct (H1 idx Hr) as (v & Hv & ->). specialize (Hf idx v Hr Hv). unfold elt in Hf. now rewrite Hf.
  - rewrite H2, Ho by exact Hc. reflexivity.
Qed.

Lemma znth_out {X} (l : list X) c : c < 0 \/ zlen l <= c -> znth l c = None.
Proof. intros H. unfold znth. destruct (c <? 0) eqn:E; [reflexivity|]. apply nth_error_None. unfold zlen in H. lia. Qed.
Lemma near2 d e s t o p : 0 <= s -> 0 <= t -> (d - 1) * s + (e - 1) * t < 2 ^ 32 -> near (Layout [d; e] [s; t] [o; p]).
Proof.
  intros Hs Ht H idx Hr. cbn [l_shape] in Hr. inversion Hr as [|? i ? l' Hi Hr']; subst. inversion Hr' as [|? j ? l'' Hj Hr'']; subst.
  inversion Hr''; subst. unfold cell, zsum. cbn. nia.
Qed.

Lemma dense_offsets dims : zsum (l_offsets (dense dims)) = 0.
Proof. apply zsum_zeros. Qed.
Lemma dense_near dims : zprod dims < 2 ^ 32 -> near (dense dims).
Proof. intros H idx Hr. rewrite dense_offsets. pose proof (dense_inside dims idx Hr). lia. Qed.
Lemma dense_int_offsets dims : int_offsets (dense dims).
Proof.
  intros k. cbn. assert (E : zsum (firstn k (map (fun _ => 0) dims)) = 0); [|lia].
  revert k. induction dims as [|d l IH]; intros [|k]; cbn; auto. rewrite zsum_cons, IH. reflexivity.
Qed.

(** C79: the binary kernel gives the element-wise result of the CPU kernel under every schedule. *)
Theorem C79_gpu_binary_kernel : forall A B V (op : A -> B -> V) addV lo la lb (mo : mem V) (ma : mem A) (mb : mem B) blocks shared junk,
  wf lo -> wf la -> wf lb ->
  Forall (fun d => 0 <= d) (l_shape lo) -> zprod (l_shape lo) < 2 ^ 31 -> l_shape lo <> [] -> zlen (l_shape lo) <= 4 ->
  aligned (l_shape la) (l_shape lo) -> aligned (l_shape lb) (l_shape lo) ->
  (length (l_shape la) = length (l_shape lb) -> compat_same_rank (l_shape la) (l_shape lb) = true) ->
  inside lo (zlen mo) -> separate lo -> inside la (zlen ma) -> inside lb (zlen mb) ->
  near lo -> near la -> near lb -> int_offsets lo -> int_offsets la -> int_offsets lb ->
  exists g mo', binary_gpu op lo la lb = Ok g /\ binary_op op lo la lb mo ma mb = Ok mo' /\
    (forall idx, in_range (l_shape lo) idx ->
       exists x y, elt ma la (bidx (l_shape la) idx) = Some x /\ elt mb lb (bidx (l_shape lb) idx) = Some y /\
                   elt mo' lo idx = Some (op x y)) /\
    gpu_final eaddr_eqb addV (emem0 ma mb mo blocks shared junk) g (fun m => output_is mo' m /\ inputs_kept ma mb m).
Proof.
  intros A B V op addV lo la lb mo ma mb blocks shared junk W1 W2 W3 H1 H2 Hne H4 A1 A2 Hc I1 S1 I2 I3 N1 N2 N3 O1 O2 O3.
  destruct (aligned_bcast _ (l_strides la) _ A1 (proj1 W2)) as (ash & q1 & E1 & _).
  destruct (aligned_bcast _ (l_strides lb) _ A2 (proj1 W3)) as (bsh & q2 & E2 & _).
  destruct (binary_gpu_correct addV ma mb mo blocks shared junk op lo la lb) as (g & Eg & Hg); auto using aligned_repeats; eauto.
  { split; auto. }
  destruct (binary_op_correct op lo la lb mo ma mb W1 W2 W3 (conj H1 H2) Hne A1 A2 Hc I1 S1 I2 I3) as (mo' & Em & _ & Hm & Ho).
  exists g, mo'. split; [exact Eg|]. split; [exact Em|]. split; [exact Hm|]. eapply gpu_final_weaken; [|exact Hg].
  intros m Hres. eapply output_of; [exact Hres| |exact Ho]. intros idx v Hr (x & y & Ex & Ey & ->).
  destruct (Hm idx Hr) as (x' & y' & Ex' & Ey' & E). congruence.
Qed.
Print Assumptions C79_gpu_binary_kernel.

Example C79_binary_case : aligned [3; 1] [3; 17] /\ aligned [17] [3; 17] /\ near (dense [3; 17]) /\ int_offsets (dense [3; 17]) /\
  exists g, binary_gpu Z.add (dense [3; 17]) (dense [3; 1]) (dense [17]) = Ok g /\ map (@length _) g = [512%nat].
Proof.
  split; [exists [], [3; 17]; split; [reflexivity|]; split; [repeat (constructor; auto)|auto]|].
  split; [exists [3], [17]; split; [reflexivity|]; split; [repeat (constructor; auto)|right; exists 17, []; cbn; intuition lia]|].
  split; [apply dense_near; reflexivity|]. split; [apply dense_int_offsets|]. eexists. split; reflexivity.
Qed.

(** C79: a + b, a - b, a * b and a / b of two arrays. *)
Theorem C79_gpu_arithmetic : forall A B V (op : A -> B -> V) addV junkv la lb (ma : mem A) (mb : mem B) s (mo : mem V) blocks shared junk,
  wf la -> wf lb -> Forall (fun d => 0 < d) (l_shape la) -> Forall (fun d => 0 < d) (l_shape lb) ->
  expand_shapes (l_shape la) (l_shape lb) = Ok s -> s <> [] -> zlen s <= 4 -> zprod s < 2 ^ 31 ->
  walkable (l_shape la) s -> walkable (l_shape lb) s ->
  inside la (zlen ma) -> inside lb (zlen mb) -> near la -> near lb -> int_offsets la -> int_offsets lb -> zlen mo = zprod s ->
  exists g m, expand_gpu op la lb = Ok (dense s, g) /\ expand_op op junkv la lb ma mb = Ok (dense s, m) /\
    (forall idx, in_range s idx ->
       exists x y, elt ma la (bidx (l_shape la) idx) = Some x /\ elt mb lb (bidx (l_shape lb) idx) = Some y /\
                   elt m (dense s) idx = Some (op x y)) /\
    gpu_final eaddr_eqb addV (emem0 ma mb mo blocks shared junk) g (fun k => output_is m k /\ inputs_kept ma mb k).
Proof.
  intros A B V op addV junkv la lb ma mb s mo blocks shared junk W1 W2 P1 P2 E Hne H4 Hsm K1 K2 I1 I2 N1 N2 O1 O2 Hmo.
  pose proof (expand_posl _ _ _ P1 P2 E) as Hps. pose proof (posl_nonneg _ Hps) as Hnn.
  destruct (expand_stretches _ _ _ P1 P2 E) as (lda & tla & Ea & Sa).
  assert (E' := E). rewrite expand_shapes_comm in E'. destruct (expand_stretches _ _ _ P2 P1 E') as (ldb & tlb & Eb & Sb).
  destruct (C79_gpu_binary_kernel A B V op addV (dense s) la lb mo ma mb blocks shared junk) as (g & mo' & Eg & Em & Hm & Hg);
    auto using dense_wf, dense_separate, dense_near, dense_int_offsets.
  - apply (aligned_of_walkable _ _ lda tla); assumption.
  - apply (aligned_of_walkable _ _ ldb tlb); assumption.
  - intros Hl. apply compat_of_broadcastable; auto. eapply expand_broadcastable; eauto.
  - rewrite Hmo. apply dense_inside.
  - apply dense_near. lia.
  - destruct (expand_op_correct op junkv la lb ma mb s W1 W2 P1 P2 E Hne Hsm K1 K2 I1 I2) as (m & Ex & Lm & Hx).
    exists g, m. unfold expand_gpu. rewrite E. cbn [obind]. rewrite Eg. cbn [obind]. split; [reflexivity|]. split; [exact Ex|]. split; [exact Hx|].
    eapply gpu_final_weaken; [|exact Hg]. intros k (Hk & Hi). split; [|exact Hi]. intros c. rewrite Hk. f_equal.
    destruct (view_or_outside (dense s) c) as [(idx & Hr & <-)|Hc].
    + destruct (Hm idx Hr) as (x & y & E1 & E2 & E3), (Hx idx Hr) as (x' & y' & E1' & E2' & E3'). unfold elt in E3, E3'. congruence.
    + assert (Ho : c < 0 \/ zprod s <= c).
      { destruct (Z_lt_dec c 0); [auto|]. destruct (Z_le_dec (zprod s) c); [auto|]. exfalso.
        assert (Hi' : In c (zrange (zprod s))) by (apply in_zrange; lia). rewrite <- dense_cells in Hi' by exact Hnn.
        apply in_map_iff in Hi' as (i & Ei & Hi'). apply (Hc i); [now apply in_all_indices|exact Ei]. }
      rewrite (znth_out m c) by lia.
      destruct (binary_op_correct op (dense s) la lb mo ma mb) as (m3 & E3 & L3 & _); auto using dense_wf, dense_separate.
      * split; auto.
      * apply (aligned_of_walkable _ _ lda tla); assumption.
      * apply (aligned_of_walkable _ _ ldb tlb); assumption.
      * intros Hl. apply compat_of_broadcastable; auto. eapply expand_broadcastable; eauto.
      * rewrite Hmo. apply dense_inside.
      * assert (m3 = mo') by congruence. subst. apply znth_out. lia.
Qed.
Print Assumptions C79_gpu_arithmetic.
Example C79_arithmetic_case : expand_shapes [4; 1] [1; 900] = Ok [4; 900] /\ walkable [4; 1] [4; 900] /\ walkable [1; 900] [4; 900] /\
  exists g, expand_gpu Z.sub (dense [4; 1]) (dense [1; 900]) = Ok (dense [4; 900], g) /\ length g = 8%nat.
Proof. split; [reflexivity|]. split; [left; reflexivity|]. split; [left; reflexivity|]. eexists. split; reflexivity. Qed.

(** C79: array with scalar. *)
Lemma same_repeats s : repeats_to s s.
Proof. exists [], s. split; [reflexivity|]. induction s; constructor; auto. Qed.
Lemma bcast_same s : bcast_shape s s = Ok s.
Proof. induction s as [|d s IH]; cbn; [reflexivity|]. rewrite Z.eqb_refl. cbn. rewrite IH. reflexivity. Qed.
Lemma bidx_same s idx : in_range s idx -> bidx s idx = idx.
Proof.
  intros H. unfold bidx. pose proof (in_range_length _ _ H) as L. replace (length idx - length s)%nat with O by lia. cbn [skipn].
  clear L. induction H as [|d i l l' Hd H IH]; cbn; [reflexivity|]. rewrite IH. destruct (Z.eqb_spec d 1); [f_equal; lia|reflexivity].
Qed.

Theorem C79_gpu_array_scalar : forall A S V (op : A -> S -> V) addV junkv la (ma : mem A) (b : S) (mo : mem V) blocks shared junk,
  wf la -> Forall (fun d => 0 <= d) (l_shape la) -> zprod (l_shape la) < 2 ^ 31 -> zlen (l_shape la) <= 4 ->
  inside la (zlen ma) -> near la -> zlen mo = zprod (l_shape la) ->
  exists g m, array_scalar_gpu op la b = Ok (dense (l_shape la), g) /\ array_scalar_op op junkv la ma b = Ok (dense (l_shape la), m) /\
    (forall idx, in_range (l_shape la) idx -> exists x, elt ma la idx = Some x /\ elt m (dense (l_shape la)) idx = Some (op x b)) /\
    gpu_final eaddr_eqb addV (emem0 ma [] mo blocks shared junk) g (fun k => output_is m k /\ inputs_kept ma [] k).
Proof.
  intros A S V op addV junkv la ma b mo blocks shared junk W P Hs H4 I N Hmo.
  destruct (unary_gpu_correct (B := unit) addV ma [] mo blocks shared junk (fun x => op x b) (dense (l_shape la)) la) as (g & Eg & Hg);
    auto using dense_wf, dense_separate, same_repeats.
  - split; auto.
  - exists (l_shape la). apply bcast_same.
  - rewrite Hmo. apply dense_inside.
  - apply dense_near. lia.
  - destruct (array_scalar_op_correct op junkv la ma b W (conj P Hs) I) as (m & Em & Lm & Hm).
    exists g, m. unfold array_scalar_gpu. rewrite Eg. cbn [obind]. split; [reflexivity|]. split; [exact Em|]. split; [exact Hm|].
    eapply gpu_final_weaken; [|exact Hg]. intros k Hk. eapply output_of; [exact Hk| |].
    + intros idx v Hr (x & Ex & ->). cbn in Hr. rewrite bidx_same in Ex by exact Hr. destruct (Hm idx Hr) as (x' & Ex' & E'). congruence.
    + intros c Hc. assert (Ho : c < 0 \/ zprod (l_shape la) <= c).
      { destruct (Z_lt_dec c 0); [auto|]. destruct (Z_le_dec (zprod (l_shape la)) c); [auto|]. exfalso.
        assert (Hi' : In c (zrange (zprod (l_shape la)))) by (apply in_zrange; lia). rewrite <- dense_cells in Hi' by exact P.
        apply in_map_iff in Hi' as (i & Ei & Hi'). apply (Hc i); [now apply in_all_indices|exact Ei]. }
      rewrite !znth_out by lia. reflexivity.
Qed.
Print Assumptions C79_gpu_array_scalar.
Example C79_array_scalar_case : exists v g, slice1 (dense [3; 4000]) 1 1 3999 2 = Ok v /\ wf v /\ inside v 12000 /\ near v /\
  array_scalar_gpu Z.mul v 2 = Ok (dense [3; 1999], g) /\ length g = 12%nat.
Proof.
  assert (E : slice1 (dense [3; 4000]) 1 1 3999 2 = Ok (Layout [3; 1999] [4000; 2] [0; 1])) by reflexivity.
  assert (G : good_view 12000 (Layout [3; 1999] [4000; 2] [0; 1])).
  { change 12000 with (zprod [3; 4000]). apply (slice_many_good [SliceSpec 1 1 3999 2] (dense [3; 4000])).
    - repeat constructor; cbn; lia.
    - apply dense_good. repeat constructor; lia.
    - cbn. rewrite E. reflexivity. }
  exists (Layout [3; 1999] [4000; 2] [0; 1]). eexists. split; [exact E|]. split; [apply G|]. split; [apply G|]. split.
  - apply near2; lia.
  - split; reflexivity.
Qed.

(** C79: copying into a view of the same shape. *)
Theorem C79_gpu_copy : forall A V (cast : A -> V) addV dst src (md : mem V) (ms : mem A) blocks shared junk,
  wf dst -> wf src -> Forall (fun d => 0 <= d) (l_shape dst) -> zprod (l_shape dst) < 2 ^ 31 -> zlen (l_shape dst) <= 4 ->
  l_shape src = l_shape dst -> inside dst (zlen md) -> separate dst -> inside src (zlen ms) -> near dst -> near src ->
  exists g md', copy_gpu cast dst src = Ok g /\ assign_slice cast dst src md ms = Ok md' /\
    (forall idx, in_range (l_shape dst) idx -> exists x, elt ms src idx = Some x /\ elt md' dst idx = Some (cast x)) /\
    (forall c, outside_view dst c -> znth md' c = znth md c) /\
    gpu_final eaddr_eqb addV (emem0 ms [] md blocks shared junk) g (fun k => output_is md' k /\ inputs_kept ms [] k).
Proof.
  intros A V cast addV dst src md ms blocks shared junk W1 W2 P Hs H4 E I1 S1 I2 N1 N2.
  destruct (unary_gpu_correct (B := unit) addV ms [] md blocks shared junk cast dst src) as (g & Eg & Hg); auto.
  - split; auto.
  - rewrite E. apply same_repeats.
  - rewrite E. exists (l_shape dst). apply bcast_same.
  - destruct (assign_slice_correct cast dst src md ms W1 W2 (conj P Hs) E I1 S1 I2) as (md' & Em & Lm & Hm & Ho).
    exists g, md'. split; [exact Eg|]. split; [exact Em|]. split; [exact Hm|]. split; [exact Ho|].
    eapply gpu_final_weaken; [|exact Hg]. intros k Hk. eapply output_of; [exact Hk| |exact Ho].
    intros idx v Hr (x & Ex & ->). rewrite E, bidx_same in Ex by exact Hr. destruct (Hm idx Hr) as (x' & Ex' & E'). congruence.
Qed.
Print Assumptions C79_gpu_copy.
Example C79_copy_case : exists g, copy_gpu (fun x : Z => x) (Layout [3; 1999] [4000; 2] [0; 1]) (dense [3; 1999]) = Ok g /\ length g = 12%nat.
Proof. eexists. split; reflexivity. Qed.

(** C79: fill. *)
Theorem C79_gpu_fill : forall A B V addV lo (mo : mem V) (ma : mem A) (mb : mem B) (v : V) shared junk,
  wf lo -> Forall (fun d => 0 <= d) (l_shape lo) -> zprod (l_shape lo) < 2 ^ 31 -> zlen (l_shape lo) <= 4 ->
  2 * zlen (l_shape lo) <= shared -> inside lo (zlen mo) -> separate lo ->
  exists g mo', fill_gpu lo v = Ok g /\ fill lo mo v = Ok mo' /\
    (forall idx, in_range (l_shape lo) idx -> elt mo' lo idx = Some v) /\
    (forall c, outside_view lo c -> znth mo' c = znth mo c) /\
    gpu_final eaddr_eqb addV (emem0 ma mb mo (fill_blocks (zprod (l_shape lo))) shared junk) g (fun k => output_is mo' k /\ inputs_kept ma mb k).
Proof.
  intros A B V addV lo mo ma mb v shared junk W P Hs H4 Hsh I S.
  destruct (fill_correct lo mo v W (conj P Hs) I S) as (mo' & Em & Lm & Hm & Ho).
  unfold fill_gpu. replace (4 <? ndim lo) with false by (unfold ndim; lia). rewrite andb_false_r. unfold numel. rewrite small_numel by (split; auto).
  do 2 eexists. split; [reflexivity|]. split; [exact Em|]. split; [exact Hm|]. split; [exact Ho|].
  destruct (all_pos_or_empty _ P) as [HP|H0].
  - eapply gpu_final_weaken; [|apply fill_grid; auto]. intros k (K1 & K2 & K3 & K4). split; [|split; auto]. intros c.
    destruct (view_or_outside lo c) as [(idx & Hr & <-)|Hc].
    + rewrite K1 by exact Hr. specialize (Hm idx Hr). unfold elt in Hm. now rewrite Hm.
    + rewrite K2, Ho by exact Hc. reflexivity.
  - rewrite H0. change (fill_blocks 0) with 0. cbn [zrange map]. split; [apply grid_always_ends|]. intros o Hst. rewrite (no_blocks _ _ _ _ Hst).
    eexists. split; [reflexivity|]. split; [left; constructor|]. intros _. split; [|split; reflexivity]. intros c. cbn. f_equal. symmetry. apply Ho.
    intros idx Hr _. exact (empty_range _ _ H0 Hr).
Qed.
Print Assumptions C79_gpu_fill.
Example C79_fill_case : exists g, fill_gpu (A := Z) (B := Z) (Layout [3; 1999] [4000; 2] [0; 1]) 7 = Ok g /\ length g = 24%nat.
Proof. eexists. split; reflexivity. Qed.

(** C79 is false for views that span 2^32 cells or more: the second element of this view is read from the first one's cell. *)
Theorem C79_far_cells_refuted : forall A V (cast : A -> V) addV (ms : mem A) (md : mem V) blocks shared junk,
  zlen ms = 2 ^ 32 + 1 -> zlen md = 2 ->
  let src := Layout [2] [2 ^ 32] [0] in
  wf src /\ inside src (zlen ms) /\ elt ms src [1] = znth ms (2 ^ 32) /\
  exists g x, copy_gpu cast (dense [2]) src = Ok g /\ elt ms src [0] = Some x /\
    gpu_final eaddr_eqb addV (emem0 ms [] md blocks shared junk) g (fun k => k (EO 1) = Some (XO (cast x))).
Proof.
  intros A V cast addV ms md blocks shared junk Hms Hmd src.
  assert (HI : inside src (zlen ms)).
  { intros idx Hr. cbn in Hr. inversion Hr as [|? i ? l' Hi Hr']; subst. inversion Hr'; subst. unfold cell. cbn. rewrite Hms. nia. }
  split; [split; reflexivity|]. split; [exact HI|]. split; [reflexivity|].
  destruct (elt_some ms src [0]) as (x & Ex); [exact HI|repeat constructor; lia|].
  eexists. exists x. split; [reflexivity|]. split; [exact Ex|].
  eapply gpu_final_weaken; [|apply (el_correct (A := A) (B := unit) (V := V) addV [2] (emem0 ms [] md blocks shared junk) is_input
    (un_items cast (zsum [0]) (zsum [0]) [1] [2 ^ 32]) (fun i => EO (cell (dense [2]) i)) (fun _ => XO (cast x)))].
  - intros k (Hk & _). apply (Hk [1]). repeat constructor; lia.
  - induction is as [|i is IH]; intros His; cbn [un_items map]; [constructor|].
    assert (Hi : in_range [2] i) by (apply His; now left). inversion Hi as [|? j ? l' Hj Hr']; subst. inversion Hr'; subst.
    rewrite !lin32_mod. unfold lin, to_uint32. replace ((j * 2 ^ 32 + 0) mod 2 ^ 32) with 0 by (rewrite Z.add_0_r; symmetry; apply Z.mod_mul; lia).
    rewrite Z.mod_small by lia. replace (zsum [0] + 0) with 0 by reflexivity.
    eapply (wr_rd _ _ _ _ _ (XA x)); [exact I|apply emem_ea; exact Ex|]. cbn beta iota.
    replace (EO (zsum [0] + (j * 1 + 0))) with (EO (cell (dense [2]) [j])) by (unfold cell, zsum; cbn; f_equal; lia). constructor.
    + assert (B : 0 <= cell (dense [2]) [j] < zlen md) by (rewrite Hmd; exact (dense_inside [2] [j] Hi)).
      destruct (znth_some md _ B) as (y & Ey). cbn [emem0]. rewrite Ey. discriminate.
    + apply IH. intros k Hk. apply His. now right.
  - intros i j Hi Hj E. injection E as E. exact (dense_separate [2] i j Hi Hj E).
  - intros i Hi. cbn. auto.
  - split; [repeat constructor; lia|reflexivity].
Qed.
Print Assumptions C79_far_cells_refuted.

(** C79: a copy from a shorter array is not refused and reads past its end. *)
Theorem C79_short_source_refuted : forall A V (cast : A -> V) addV n k (ms : mem A) (md : mem V) blocks shared junk,
  1 < n < 512 -> n < k < 2 ^ 31 -> zlen ms = n -> zlen md = k ->
  exists g, copy_gpu cast (dense [k]) (dense [n]) = Ok g /\ bgsteps eaddr_eqb addV (emem0 ms [] md blocks shared junk, g) UB.
Proof.
  intros A V cast addV n k ms md blocks shared junk Hn Hk Hms Hmd. unfold copy_gpu, unary_gpu.
  replace (bcast_strides (l_shape (dense [n])) (l_strides (dense [n])) (l_shape (dense [k]))) with (Ok [1])
    by (cbn; destruct (Z.eqb_spec n 1); [lia|reflexivity]).
  replace (bcast_shape (l_shape (dense [n])) (l_shape (dense [k]))) with (Ok [1])
    by (cbn; destruct (Z.eqb_spec n k); [lia|]; destruct (Z.eqb_spec n 1); [lia|reflexivity]).
  cbn [obind]. change (4 <? ndim (dense [k])) with false. rewrite andb_false_r. eexists. split; [reflexivity|].
  pose proof (el_blocks_range k ltac:(lia)) as HB. assert (Ek : numel (dense [k]) = k) by (unfold numel; rewrite small_numel; [unfold zprod; cbn; lia|split; [repeat constructor; lia|unfold zprod; cbn; lia]]).
  rewrite Ek. unfold el_grid.
  set (th := fun b t => un_items (B := unit) cast (zsum [0]) (zsum [0]) [1] [1] (my_visits [k] k (el_blocks k) b t)).
  assert (E0 : exists rest, th 0 n = BRd (EA n) rest).
  { unfold th, my_visits. assert (Hit : exists q, iterations (0 * 512 + n) k (el_blocks k * 512) = S q).
    { exists (pred (iterations (0 * 512 + n) k (el_blocks k * 512))). unfold iterations. rewrite Z.quot_div_nonneg by lia.
      assert (1 <= (k - (0 * 512 + n) + el_blocks k * 512 - 1) / (el_blocks k * 512)) by (apply Z.div_le_lower_bound; lia). lia. }
    destruct Hit as (q & ->). cbn [visits un_items]. rewrite unflat_oix by (try (repeat constructor); lia).
    rewrite lin32_mod. pose proof (oix_cell [k] n ltac:(repeat constructor; lia) ltac:(unfold zprod; cbn; lia)) as Eo.
    change (l_strides (dense [k])) with [1] in Eo. replace (0 * 512 + n) with n by lia. rewrite Eo. rewrite to_uint32_small by lia.
    change (zsum [0]) with 0. rewrite Z.add_0_l. eexists. reflexivity. }
  destruct E0 as (rest & E0).
  apply bgs_ub.
  assert (In (th 0 n) (map (th 0) (zrange 512))) as Hin by (apply in_map; apply in_zrange; lia).
  apply in_split in Hin as (p1 & p2 & Ep).
  assert (EB : map (fun b => map (th b) (zrange 512)) (zrange (el_blocks k)) = [] ++ (p1 ++ th 0 n :: p2) :: map (fun b => map (th b) (zrange 512)) (map (fun i => i + 1) (zrange (el_blocks k - 1)))).
  { replace (el_blocks k) with (1 + (el_blocks k - 1)) at 1 by lia. rewrite zrange_app by lia. rewrite map_app. change (zrange 1) with [0]. cbn [map app]. rewrite Ep. f_equal. f_equal.
    apply map_ext. intros; lia. }
  change (bgstep eaddr_eqb addV (emem0 ms [] md blocks shared junk, map (fun b => map (th b) (zrange 512)) (zrange (el_blocks k))) UB). rewrite EB. apply bg_ub. rewrite E0. constructor. cbn. rewrite znth_out by lia. reflexivity.
Qed.
Print Assumptions C79_short_source_refuted.
Example C79_short_source_case : 1 < 3 < 512 /\ 3 < 5 < 2 ^ 31 /\ zlen [1; 2; 3] = 3 /\ zlen [0; 0; 0; 0; 0] = 5.
Proof. repeat split; try reflexivity; lia. Qed.
Example C79_far_cells_case : zlen (repeat 0 (Z.to_nat (2 ^ 32 + 1))) = 2 ^ 32 + 1.
Proof. unfold zlen. rewrite repeat_length. apply Z2Nat.id. lia. Qed.

(** C79: with the scalar on the left the device, too, compares the element with the scalar. *)
Theorem C79_scalar_left_refuted : forall A S V (cmp : A -> S -> V) addV la (ma : mem A) (s : S) (mo : mem V) blocks shared junk,
  wf la -> Forall (fun d => 0 <= d) (l_shape la) -> zprod (l_shape la) < 2 ^ 31 -> zlen (l_shape la) <= 4 ->
  inside la (zlen ma) -> near la -> zlen mo = zprod (l_shape la) ->
  exists g, scalar_cmp_array_gpu cmp s la = Ok (dense (l_shape la), g) /\
    gpu_final eaddr_eqb addV (emem0 ma [] mo blocks shared junk) g
      (fun k => forall idx, in_range (l_shape la) idx -> exists x, elt ma la idx = Some x /\ k (EO (cell (dense (l_shape la)) idx)) = Some (XO (cmp x s))).
Proof.
  intros A S V cmp addV la ma s mo blocks shared junk W P Hs H4 I N Hmo.
  destruct (unary_gpu_correct (B := unit) addV ma [] mo blocks shared junk (fun x => cmp x s) (dense (l_shape la)) la) as (g & Eg & Hg);
    auto using dense_wf, dense_separate, same_repeats.
  - split; auto.
  - exists (l_shape la). apply bcast_same.
  - rewrite Hmo. apply dense_inside.
  - apply dense_near. lia.
  - exists g. unfold scalar_cmp_array_gpu, array_scalar_gpu. rewrite Eg. cbn [obind]. split; [reflexivity|].
    eapply gpu_final_weaken; [|exact Hg]. intros k (K & _) idx Hr. destruct (K idx Hr) as (v & (x & Ex & ->) & Ek).
    cbn in Hr. rewrite bidx_same in Ex by exact Hr. eauto.
Qed.
Print Assumptions C79_scalar_left_refuted.
Example C79_scalar_left_case : near (dense [3]) /\ exists g, scalar_cmp_array_gpu Z.gtb 2 (dense [3]) = Ok (dense [3], g) /\ length g = 1%nat.
Proof. split; [apply dense_near; reflexivity|]. eexists. split; reflexivity. Qed.
