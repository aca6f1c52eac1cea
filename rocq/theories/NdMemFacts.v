(** Buffers: loads, stores and sequences of writes. *)
From Verif Require Export NdIndexFacts.
From Coq Require Import ZifyBool ZifyNat.
Ltac Zify.zify_post_hook ::= Z.div_mod_to_equations.
Local Open Scope Z_scope.

Lemma znth_some {A} (l : list A) i : 0 <= i < zlen l -> exists x, znth l i = Some x.
Proof.
  intros H. unfold znth. replace (i <? 0) with false by lia.
  destruct (nth_error l (Z.to_nat i)) as [x|] eqn:E; [eauto|].
  apply nth_error_None in E. unfold zlen in H. lia.
Qed.

Lemma znth_bounds {A} (l : list A) i x : znth l i = Some x -> 0 <= i < zlen l.
Proof.
  unfold znth. destruct (Z.ltb_spec i 0); [discriminate|]. intros H1.
  assert (nth_error l (Z.to_nat i) <> None) as H2 by congruence.
  apply nth_error_Some in H2. unfold zlen. lia.
Qed.

Lemma load_some {V} (m : mem V) i x : znth m i = Some x -> load m i = Ok x.
Proof. unfold load, zget. intros ->. reflexivity. Qed.

Lemma store_ok {V} (m : mem V) i v : 0 <= i < zlen m ->
  exists m', store m i v = Ok m' /\ zlen m' = zlen m /\ znth m' i = Some v /\
             (forall c, c <> i -> znth m' c = znth m c).
Proof.
  intros H. unfold store. replace ((0 <=? i) && (i <? zlen m)) with true by lia.
  eexists; split; [reflexivity|]. split; [|split].
  - unfold zlen. rewrite upd_length. reflexivity.
  - destruct (znth_some m i H) as [x Hx]. unfold znth in *.
    destruct (i <? 0); [discriminate|]. erewrite nth_error_upd_same; eauto.
  - intros c Hc. unfold znth. destruct (Z.ltb_spec c 0); [reflexivity|].
    apply nth_error_upd_other. lia.
Qed.

Fixpoint writes {V} (m : mem V) (ws : list (Z * V)) : outcome (mem V) :=
  match ws with
  | [] => Ok m
  | (o, v) :: rest => let! m' := store m o v in writes m' rest
  end.

Lemma writes_spec {V} (ws : list (Z * V)) (m : mem V) :
  NoDup (map fst ws) -> (forall o v, In (o, v) ws -> 0 <= o < zlen m) ->
  exists m', writes m ws = Ok m' /\ zlen m' = zlen m /\
             (forall o v, In (o, v) ws -> znth m' o = Some v) /\
             (forall c, ~ In c (map fst ws) -> znth m' c = znth m c).
Proof.
  revert m; induction ws as [|[o v] ws IH]; intros m Hnd Hb; cbn.
  - exists m. repeat split; auto. intros ? ? [].
  - cbn in Hnd. inversion Hnd as [|? ? Hni Hnd']; subst.
    destruct (store_ok m o v) as (m1 & E1 & L1 & S1 & O1); [eapply Hb; left; reflexivity|].
    rewrite E1. cbn.
    destruct (IH m1 Hnd') as (m2 & E2 & L2 & S2 & O2).
    { intros o' v' Hin. rewrite L1. eapply Hb. right. exact Hin. }
    exists m2. split; [exact E2|]. split; [lia|]. split.
    + intros o' v' [Heq|Hin].
      * inversion Heq; subst. rewrite O2 by exact Hni. exact S1.
      * eapply S2; eauto.
    + intros c Hc. rewrite O2 by tauto. apply O1. intros ->. tauto.
Qed.

(** Reading a list of cells. *)
Fixpoint gets {V} (m : mem V) (cs : list Z) : option (list V) :=
  match cs with
  | [] => Some []
  | c :: cs' => match znth m c, gets m cs' with Some x, Some r => Some (x :: r) | _, _ => None end
  end.

Lemma run2_writes {A V} (f : A -> V) (ma : mem A) (mo : mem V) trace (val : Z * Z -> A) :
  (forall p, In p trace -> znth ma (snd p) = Some (val p)) ->
  run2 f ma mo trace = writes mo (map (fun p => (fst p, f (val p))) trace).
Proof.
  revert mo; induction trace as [|[o i] trace IH]; intros mo H; cbn; [reflexivity|].
  rewrite (load_some ma i (val (o, i))) by exact (H (o, i) (or_introl eq_refl)). cbn.
  destruct (store mo o (f (val (o, i)))) as [m'| |]; cbn; auto.
  apply IH. intros p Hp. apply H. right. exact Hp.
Qed.

Lemma run3_writes {A B V} (op : A -> B -> V) (ma : mem A) (mb : mem B) (mo : mem V) trace
      (va : Z * Z * Z -> A) (vb : Z * Z * Z -> B) :
  (forall p, In p trace -> znth ma (snd (fst p)) = Some (va p)) ->
  (forall p, In p trace -> znth mb (snd p) = Some (vb p)) ->
  run3 op ma mb mo trace = writes mo (map (fun p => (fst (fst p), op (va p) (vb p))) trace).
Proof.
  revert mo; induction trace as [|[[o i] j] trace IH]; intros mo Ha Hb; cbn; [reflexivity|].
  rewrite (load_some ma i (va (o, i, j))) by exact (Ha (o, i, j) (or_introl eq_refl)). cbn.
  rewrite (load_some mb j (vb (o, i, j))) by exact (Hb (o, i, j) (or_introl eq_refl)). cbn.
  destruct (store mo o _) as [m'| |]; cbn; auto.
  apply IH; intros p Hp; [apply Ha|apply Hb]; right; exact Hp.
Qed.

Lemma run_fill_writes {V} (v : V) mo trace : run_fill v mo trace = writes mo (map (fun o => (o, v)) trace).
Proof.
  revert mo; induction trace as [|o trace IH]; intros mo; cbn; [reflexivity|].
  destruct (store mo o v) as [m'| |]; cbn; auto.
Qed.

Lemma to_int32_mul a b : to_int32 (to_int32 a * b) = to_int32 (a * b).
Proof.
  unfold to_int32. f_equal.
  rewrite Z.add_mod, (Z.add_mod (a * b)) by lia. f_equal. f_equal.
  rewrite Z.mul_mod by lia. rewrite (Z.mul_mod a b) by lia. f_equal. f_equal.
  replace ((a + 2 ^ 31) mod 2 ^ 32 - 2 ^ 31) with ((a + 2 ^ 31) mod 2 ^ 32 + (- 2 ^ 31)) by lia.
  rewrite Z.add_mod_idemp_l by lia. f_equal. lia.
Qed.

Lemma numel_of_int32 sh : sh <> [] -> numel_of sh = to_int32 (zprod sh).
Proof.
  intros Hne. unfold numel_of.
  assert (G : forall sh acc, fold_left (fun acc d => to_int32 (acc * d)) sh (to_int32 acc)
                             = to_int32 (acc * zprod sh)).
  { clear. induction sh as [|d sh IH]; intros acc; cbn [fold_left].
    - rewrite zprod_nil, Z.mul_1_r. reflexivity.
    - rewrite to_int32_mul, IH, zprod_cons. f_equal. ring. }
  change 1 with (to_int32 1). rewrite G. f_equal. ring.
Qed.

Lemma numel_of_prod sh : 0 <= zprod sh < 2 ^ 31 -> numel_of sh = zprod sh.
Proof.
  intros H. destruct sh as [|d sh]; [reflexivity|].
  rewrite numel_of_int32 by discriminate. apply to_int32_small. lia.
Qed.

Lemma alloc_elems_prod dims : alloc_elems dims = zprod dims.
Proof.
  unfold alloc_elems.
  assert (G : forall dims acc, fold_left Z.mul dims acc = acc * zprod dims).
  { clear. induction dims as [|d dims IH]; intros acc; cbn [fold_left].
    - rewrite zprod_nil. ring.
    - rewrite IH, zprod_cons. ring. }
  rewrite G. ring.
Qed.

Lemma zprod_zero sh : Forall (fun d => 0 <= d) sh -> ~ posl sh -> zprod sh = 0.
Proof.
  induction 1 as [|d t Hd Ht IH]; intros H; [elim H; constructor|].
  rewrite zprod_cons. destruct (Z.eq_dec d 0) as [->|Hd0]; [ring|].
  rewrite IH; [ring|]. intros C. apply H. constructor; [lia|exact C].
Qed.

Lemma fresh_length {V} (junk : Z -> V) dims : Forall (fun d => 0 <= d) dims -> zlen (fresh junk dims) = zprod dims.
Proof.
  intros H. unfold zlen, fresh. rewrite map_length.
  pose proof (zrange_length (alloc_elems dims)) as E. unfold zlen in E. rewrite E, alloc_elems_prod.
  pose proof (zprod_nonneg _ H). lia.
Qed.

(** ** Cells visited by the kernels *)

Lemma cells_digits l n : wf l -> length (l_shape l) = length (digits (rev (l_shape l)) n) ->
  cell l (rev (digits (rev (l_shape l)) n))
  = zsum (l_offsets l) + dot (digits (rev (l_shape l)) n) (rev (l_strides l)).
Proof.
  intros Hw Hl. destruct Hw as [H1 H2].
  rewrite cell_dot by (try split; auto; rewrite rev_length; lia).
  f_equal. rewrite <- dot_rev by (rewrite rev_length; lia). rewrite rev_involutive. reflexivity.
Qed.

Lemma rev_zeros (sh : list Z) : posl sh -> rev (map (fun _ => 0) sh) = digits (rev sh) 0.
Proof. intros H. rewrite digits_zero by (apply posl_rev; auto). rewrite map_rev. reflexivity. Qed.

Lemma nonneg_pos_cases sh : Forall (fun d => 0 <= d) sh ->
  posl sh \/ (zprod sh = 0 /\ all_indices sh = []).
Proof.
  intros H. destruct (posl_dec sh) as [Hp|Hp]; [left; auto|right].
  split; [apply zprod_zero|apply all_indices_empty]; auto.
Qed.

Definition small (sh : list Z) : Prop := Forall (fun d => 0 <= d) sh /\ zprod sh < 2 ^ 31.

Lemma small_numel sh : small sh -> numel_of sh = zprod sh.
Proof. intros [H1 H2]. apply numel_of_prod. pose proof (zprod_nonneg _ H1). lia. Qed.

Lemma view_trace_cells l : wf l -> small (l_shape l) ->
  view_trace l = map (cell l) (all_indices (l_shape l)).
Proof.
  intros Hw Hs. unfold view_trace, numel. rewrite small_numel by auto.
  destruct Hs as [Hnn Hlt].
  destruct (nonneg_pos_cases _ Hnn) as [Hp|[Hz He]].
  2:{ rewrite Hz, He. reflexivity. }
  pose proof (zprod_posl _ Hp) as HP.
  rewrite rev_zeros by auto.
  pose proof (loop1_digits (Z.to_nat (zprod (l_shape l))) (rev (l_shape l)) (rev (l_strides l)) 0
                (zsum (l_offsets l))) as E.
  rewrite digits_zero in E by (apply posl_rev; auto). rewrite dot_zeros, Z.add_0_r in E.
  rewrite digits_zero by (apply posl_rev; auto).
  rewrite E; [|apply posl_rev; auto|rewrite !rev_length; apply Hw|lia]. clear E.
  rewrite all_indices_digits by auto. rewrite map_map, Z2Nat.id by lia.
  apply map_ext_in. intros j Hj. rewrite Z.add_0_l.
  rewrite cells_digits; auto. rewrite digits_length, rev_length. reflexivity.
Qed.

(** Trace of the two-pointer loop when the input pointer follows the output odometer. *)
Lemma loop2_cells lo la ash ast :
  wf lo -> small (l_shape lo) -> follows (l_shape lo) ash ast ->
  loop2 (Z.to_nat (numel lo)) (rev (l_shape lo)) (rev ash) (rev ast) (rev (l_strides lo))
        (rev (map (fun _ => 0) (l_shape lo))) (zsum (l_offsets la)) (zsum (l_offsets lo))
  = map (fun idx => (cell lo idx, zsum (l_offsets la) + dot idx ast)) (all_indices (l_shape lo)).
Proof.
  intros Hw Hs Hf. unfold numel. rewrite small_numel by auto.
  destruct Hs as [Hnn Hlt].
  destruct (nonneg_pos_cases _ Hnn) as [Hp|[Hz He]].
  2:{ rewrite Hz, He. reflexivity. }
  pose proof (zprod_posl _ Hp) as HP.
  rewrite rev_zeros by auto.
  destruct (follows_lengths _ _ _ Hf) as [Hl1 Hl2].
  pose proof (loop2_digits (Z.to_nat (zprod (l_shape lo))) (rev (l_shape lo)) (rev ash) (rev ast)
                (rev (l_strides lo)) 0 (zsum (l_offsets la)) (zsum (l_offsets lo))) as E.
  rewrite digits_zero in E by (apply posl_rev; auto). rewrite !dot_zeros, !Z.add_0_r in E.
  rewrite digits_zero by (apply posl_rev; auto).
  rewrite E; [|apply posl_rev; auto|apply follows_rev; auto|rewrite !rev_length; apply Hw|lia].
  clear E.
  rewrite all_indices_digits by auto. rewrite map_map, Z2Nat.id by lia.
  apply map_ext_in. intros j Hj. rewrite Z.add_0_l.
  rewrite cells_digits by (auto; rewrite digits_length, rev_length; reflexivity).
  f_equal. f_equal.
  rewrite <- dot_rev by (rewrite digits_length, !rev_length; lia). rewrite rev_involutive. reflexivity.
Qed.

Lemma bin_loop_cells lo la lb ash bsh ast bst :
  wf lo -> small (l_shape lo) -> l_shape lo <> [] ->
  follows (l_shape lo) ash ast -> follows (l_shape lo) bsh bst ->
  bin_loop (Z.to_nat (numel lo)) 0 (numel lo) (rev (l_shape lo)) (rev ash) (rev bsh)
           (rev ast) (rev bst) (rev (l_strides lo)) (rev (map (fun _ => 0) (l_shape lo)))
           (zsum (l_offsets la)) (zsum (l_offsets lb)) (zsum (l_offsets lo))
  = Some (map (fun idx => (cell lo idx, zsum (l_offsets la) + dot idx ast, zsum (l_offsets lb) + dot idx bst))
              (all_indices (l_shape lo))).
Proof.
  intros Hw Hs Hne Hfa Hfb. unfold numel. rewrite small_numel by auto.
  destruct Hs as [Hnn Hlt].
  destruct (nonneg_pos_cases _ Hnn) as [Hp|[Hz He]].
  2:{ rewrite Hz, He. reflexivity. }
  pose proof (zprod_posl _ Hp) as HP.
  destruct (follows_lengths _ _ _ Hfa) as [Hl1 Hl2].
  destruct (follows_lengths _ _ _ Hfb) as [Hl3 Hl4].
  rewrite rev_zeros by auto.
  pose proof (bin_loop_digits (Z.to_nat (zprod (l_shape lo))) (rev (l_shape lo)) (rev ash) (rev bsh) (rev ast)
                (rev bst) (rev (l_strides lo)) 0 (zsum (l_offsets la)) (zsum (l_offsets lb)) (zsum (l_offsets lo))) as E.
  rewrite digits_zero in E by (apply posl_rev; auto). rewrite !dot_zeros, !Z.add_0_r, zprod_rev in E.
  rewrite digits_zero by (apply posl_rev; auto).
  rewrite E; [|apply posl_rev; auto| |apply follows_rev; auto|apply follows_rev; auto
              |rewrite !rev_length; apply Hw|lia|lia|lia].
  2:{ intros C. apply Hne. apply (f_equal (@rev Z)) in C. rewrite rev_involutive in C. exact C. }
  clear E. f_equal. rewrite Z.sub_0_r.
  rewrite all_indices_digits by auto. rewrite map_map.
  apply map_ext_in. intros j Hj. rewrite Z.add_0_l.
  rewrite cells_digits by (auto; rewrite digits_length, rev_length; reflexivity).
  rewrite <- (dot_rev (digits _ j) (rev ast)) by (rewrite digits_length, !rev_length; lia).
  rewrite <- (dot_rev (digits _ j) (rev bst)) by (rewrite digits_length, !rev_length; lia).
  rewrite !rev_involutive. reflexivity.
Qed.

Lemma separate_nodup l : separate l -> NoDup (map (cell l) (all_indices (l_shape l))).
Proof.
  intros Hs. pose proof (all_indices_nodup (l_shape l)) as Hnd.
  assert (Hall : forall i, In i (all_indices (l_shape l)) -> in_range (l_shape l) i)
    by (intros i Hi; apply in_all_indices; exact Hi).
  induction Hnd as [|i is Hi Hnd IH]; cbn; [constructor|].
  constructor.
  - intros Hin. apply in_map_iff in Hin. destruct Hin as (j & Hc & Hj).
    assert (j = i) by (apply Hs; auto using in_cons, in_eq). subst. auto.
  - apply IH. intros j Hj. apply Hall. right. exact Hj.
Qed.
