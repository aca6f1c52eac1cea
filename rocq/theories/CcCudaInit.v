(** Initial labelling on the GPU under every schedule. *)
From Verif Require Export CcCudaClass.
From Coq Require Import ZifyBool ZifyNat Permutation.
Ltac Zify.zify_post_hook ::= Z.div_mod_to_equations.
Local Open Scope Z_scope.

Lemma znth_app_l {A} (l m : list A) i x : znth l i = Some x -> znth (l ++ m) i = Some x.
Proof.
  unfold znth. destruct (i <? 0); [auto|]. intros H. rewrite nth_error_app1; [auto|]. apply nth_error_Some. congruence.
Qed.
Lemma znth_snoc {A} (l : list A) x : znth (l ++ [x]) (zlen l) = Some x.
Proof.
  unfold znth, zlen. replace (Z.of_nat (length l) <? 0) with false by lia.
  rewrite nth_error_app2 by lia. replace (Z.to_nat (Z.of_nat (length l)) - length l)%nat with 0%nat by lia. reflexivity.
Qed.
Lemma znth_in {A} (l : list A) i x : znth l i = Some x -> In x l.
Proof. unfold znth. destruct (i <? 0); [discriminate|]. apply nth_error_In. Qed.
Lemma in_znth {A} (l : list A) x : In x l -> exists i, znth l i = Some x.
Proof.
  intros H. apply In_nth_error in H as (i & E). exists (Z.of_nat i). unfold znth. replace (Z.of_nat i <? 0) with false by lia.
  now rewrite Nat2Z.id.
Qed.
Lemma znth_const {A B} (l : list A) (v : B) i : 0 <= i < zlen l -> znth (map (fun _ => v) l) i = Some v.
Proof.
  intros H. destruct (znth_some l i H) as (x & E). unfold znth in *. destruct (i <? 0); [discriminate|]. now rewrite nth_error_map, E.
Qed.
Lemma zlen_map {A B} (f : A -> B) l : zlen (map f l) = zlen l.
Proof. unfold zlen. now rewrite map_length. Qed.
Lemma nodup_znth {A} (l : list A) i j x : NoDup l -> znth l i = Some x -> znth l j = Some x -> i = j.
Proof.
  intros Hn Hi Hj. pose proof (znth_bounds _ _ _ Hi) as Bi. pose proof (znth_bounds _ _ _ Hj) as Bj.
  unfold znth in *. destruct (Z.ltb_spec i 0); [discriminate|]. destruct (Z.ltb_spec j 0); [discriminate|].
  assert (E : Z.to_nat i = Z.to_nat j); [|lia].
  eapply NoDup_nth_error; [exact Hn|unfold zlen in Bi; lia|congruence].
Qed.

Section Init.
  Context {F : Type}.
  Variables (snr : F -> F -> F) (gt : F -> F -> bool) (thr half : F) (D N L : Z) (spec noise : list F) (nmax : Z).
  Notation stp := (init_step snr gt thr half D N L spec noise nmax).
  Variable kind : Z -> cls.
  Hypothesis Hkind : forall n, 0 <= n < D * N -> classify snr gt thr half D N L spec noise n = Ok (kind n).
  Definition is_peak n := match kind n with Peak => true | _ => false end.
  Definition peaks := filter is_peak (zrange (D * N)).
  Hypothesis Hnn : 0 <= nmax.

  Inductive itask := TTodo (n : Z) | TFill (n id : Z) | TLab (n id : Z).
  Definition pend_i (s : istate) : list itask :=
    match s with
    | IIdle t => map TTodo t
    | IFill n id t => TFill n id :: map TTodo t
    | ILabel n id t => TLab n id :: map TTodo t
    end.
  Definition todo_part (p : list itask) : list Z := flat_map (fun x => match x with TTodo n => [n] | _ => [] end) p.
  Definition J_i (m : gmem) (pend : list itask) : Prop :=
    zlen (g_labels m) = D * N /\ zlen (g_max m) = nmax /\ zlen (g_inv m) = nmax /\
    NoDup (g_claims m ++ todo_part pend) /\
    (forall n, In n (g_claims m) -> 0 <= n < D * N /\ kind n = Peak) /\
    forall n, 0 <= n < D * N ->
      match kind n with
      | Skip => znth (g_labels m) n = Some 0
      | Under j => znth (g_labels m) n = Some (nmax + j) \/ In (TTodo n) pend /\ znth (g_labels m) n = Some 0
      | Peak => In (TTodo n) pend \/
                exists i, znth (g_claims m) i = Some n /\
                  (In (TFill n (8 + i)) pend \/
                   znth (g_max m) (8 + i) = Some (Some n) /\ znth (g_inv m) (8 + i) = Some 0 /\
                   (In (TLab n (8 + i)) pend \/ znth (g_labels m) n = Some (8 + i)))
      end.
  Definition Lo_i (m : gmem) (s : istate) : Prop :=
    match s with
    | IIdle t => forall n, In n t -> 0 <= n < D * N
    | IFill n id t | ILabel n id t => (forall n, In n t -> 0 <= n < D * N) /\ 0 <= n < D * N /\ kind n = Peak /\
                                      exists i, id = 8 + i /\ znth (g_claims m) i = Some n
    end.

  Lemma Jperm_i : forall m l l', Permutation l l' -> J_i m l -> J_i m l'.
  Proof.
    intros m l l' Hp (H1 & H2 & H3 & H4 & H5 & H6). split; [auto|]. split; [auto|]. split; [auto|]. split; [|split; [auto|]].
    - eapply Permutation_NoDup; [|exact H4]. apply Permutation_app_head. unfold todo_part. now apply Permutation_flat_map.
    - assert (Hin : forall x, In x l -> In x l') by (intros x; now apply Permutation_in).
      intros n Hn. specialize (H6 n Hn). destruct (kind n); [auto| |].
      + destruct H6 as [H|(i & Hi & H)]; [auto|right]. exists i. split; [auto|].
        destruct H as [H|(A & B & [H|H])]; [auto|right; auto|right; auto].
      + destruct H6 as [H|(A & B)]; auto.
  Qed.
  Lemma claims_room m pend : J_i m pend -> zlen (g_claims m) <= zlen peaks.
  Proof.
    intros (_ & _ & _ & H4 & H5 & _). assert (Hn : NoDup (g_claims m)).
    { clear -H4. induction (g_claims m) as [|a l IH]; [constructor|]. cbn in H4. inversion H4 as [|? ? A B]; subst.
      constructor; [|auto]. intros Hi. apply A, in_app_iff. auto. }
    unfold zlen. apply inj_le. apply NoDup_incl_length; [auto|]. intros n Hi. destruct (H5 n Hi) as (A & B).
    apply filter_In. split; [now apply in_zrange|]. unfold is_peak. now rewrite B.
  Qed.
  Lemma todo_map t : todo_part (map TTodo t) = t.
  Proof. unfold todo_part. rewrite flat_map_concat_map, map_map, <- flat_map_concat_map. induction t; cbn; congruence. Qed.
  Lemma todo_app a b : todo_part (a ++ b) = todo_part a ++ todo_part b.
  Proof. apply flat_map_app. Qed.

  (** Either the table is full or the step succeeds; a successful step keeps the invariant. *)
  Lemma step_i : forall m s o rest, stp m s = Some o -> Lo_i m s -> J_i m (pend_i s ++ rest) ->
    nmax < 8 + zlen peaks /\ o = UB \/
    exists m' s', o = Ok (m', s') /\ Lo_i m' s' /\ J_i m' (pend_i s' ++ rest) /\ (forall s2, Lo_i m s2 -> Lo_i m' s2).
  Proof.
    intros m s o rest Hs Hl HJ. assert (HJ0 := HJ). destruct HJ0 as (H1 & H2 & H3 & H4 & H5 & H6).
    destruct s as [[|n t]|n id t|n id t]; cbn [init_step] in Hs; try discriminate; injection Hs as <-; cbn [Lo_i pend_i] in *.
    - assert (Hn : 0 <= n < D * N) by (apply Hl; now left). assert (Ht : forall n, In n t -> 0 <= n < D * N) by (intros; apply Hl; now right).
      rewrite (Hkind n Hn). cbn [obind]. cbn [map app] in HJ, H4, H6. pose proof (H6 n Hn) as H6n.
      unfold todo_part in H4. cbn [flat_map] in H4. fold (todo_part (map TTodo t ++ rest)) in H4. cbn [app] in H4.
      destruct (kind n) as [| |j] eqn:Ek.
      + right. exists m, (IIdle t). split; [reflexivity|]. split; [exact Ht|]. split; [|auto].
        split; [auto|]. split; [auto|]. split; [auto|]. split; [now apply NoDup_remove_1 in H4|]. split; [auto|].
        intros k Hk. specialize (H6 k Hk). cbn [pend_i]. destruct (kind k) eqn:Ekk; [auto| |].
        * destruct H6 as [[E|H]|(i & Hi & [[E|H]|(A & B & [[E|H]|H])])]; try congruence; eauto 10.
        * destruct H6 as [H|([E|H] & A)]; try congruence; eauto.
      + right. exists (Gmem (g_labels m) (g_claims m ++ [n]) (g_max m) (g_inv m)), (IFill n (8 + zlen (g_claims m)) t).
        split; [reflexivity|]. cbn [g_claims g_labels g_max g_inv]. split.
        { split; [exact Ht|]. split; [auto|]. split; [auto|]. exists (zlen (g_claims m)). split; [auto|]. apply znth_snoc. }
        split.
        * split; [auto|]. split; [auto|]. split; [auto|]. cbn [g_claims g_labels g_max g_inv pend_i]. split; [|split].
          -- unfold todo_part. cbn [app flat_map]. fold (todo_part (map TTodo t ++ rest)). rewrite <- app_assoc. exact H4.
          -- intros k Hk. apply in_app_iff in Hk as [Hk|[<-|[]]]; auto.
          -- intros k Hk. specialize (H6 k Hk). destruct (kind k) eqn:Ekk; [auto| |].
             ++ destruct H6 as [[E|H]|(i & Hi & H)].
                ** injection E as <-. right. exists (zlen (g_claims m)). split; [apply znth_snoc|]. left. now left.
                ** left. now right.
                ** right. exists i. split; [now apply znth_app_l|].
                   destruct H as [[E|H]|(A & B & [[E|H]|H])]; try congruence; [left; now right|right; repeat split; auto; left; now right|right; auto].
             ++ destruct H6 as [H|([E|H] & A)]; try congruence; [left; auto|right; split; [now right|auto]].
        * intros [t2|n2 id2 t2|n2 id2 t2]; cbn [Lo_i g_claims]; [auto| |]; intros (A & B & C & i & -> & E);
            (split; [auto|]; split; [auto|]; split; [auto|]; exists i; split; [auto|now apply znth_app_l]).
      + assert (Hbd : 0 <= n < zlen (g_labels m)) by lia.
        destruct (NdMemFacts.store_ok (g_labels m) n (nmax + j) Hbd) as (l' & Es & E1 & E2 & E3). rewrite Es. cbn [obind].
        right. exists (Gmem l' (g_claims m) (g_max m) (g_inv m)), (IIdle t). split; [reflexivity|]. split; [exact Ht|]. split; [|auto].
        split; [cbn; lia|]. split; [auto|]. split; [auto|]. cbn [g_claims g_labels g_max g_inv pend_i].
        split; [now apply NoDup_remove_1 in H4|]. split; [auto|].
        intros k Hk. specialize (H6 k Hk). destruct (Z.eq_dec k n) as [->|Hne].
        * rewrite Ek. left. exact E2.
        * rewrite !E3 by auto. destruct (kind k) eqn:Ekk; [auto| |].
          -- destruct H6 as [[E|H]|(i & Hi & [[E|H]|(A & B & [[E|H]|H])])]; try congruence; eauto 10.
          -- destruct H6 as [H|([E|H] & A)]; try congruence; eauto.
    - destruct Hl as (Ht & Hn & Hp & i & -> & Hi). pose proof (claims_room _ _ HJ) as Hr. pose proof (znth_bounds _ _ _ Hi) as Bi.
      destruct (Z_lt_le_dec (8 + i) nmax) as [Hfit|Hfull].
      2:{ left. split; [lia|]. unfold store. replace ((0 <=? 8 + i) && (8 + i <? zlen (g_max m))) with false by lia. reflexivity. }
      assert (Hb1 : 0 <= 8 + i < zlen (g_max m)) by lia. assert (Hb2 : 0 <= 8 + i < zlen (g_inv m)) by lia.
      destruct (NdMemFacts.store_ok (g_max m) (8 + i) (Some n) Hb1) as (a & Ea & A1 & A2 & A3).
      destruct (NdMemFacts.store_ok (g_inv m) (8 + i) 0 Hb2) as (b & Eb & B1 & B2 & B3). rewrite Ea. cbn [obind]. rewrite Eb. cbn [obind].
      right. exists (Gmem (g_labels m) (g_claims m) a b), (ILabel n (8 + i) t). split; [reflexivity|]. split; [split; [auto|]; split; [auto|]; split; [auto|]; exists i; auto|].
      split; [|auto]. split; [auto|]. split; [cbn; lia|]. split; [cbn; lia|]. cbn [g_claims g_labels g_max g_inv pend_i].
      split; [exact H4|]. split; [auto|]. intros k Hk. specialize (H6 k Hk). cbn [app] in H6 |- *. destruct (kind k) eqn:Ekk; [auto| |].
      + destruct H6 as [[E|H]|(i' & Hi' & H)]; try congruence; [left; now right|]. right. exists i'. split; [auto|].
        destruct (Z.eq_dec i' i) as [->|Hne].
        * right. assert (k = n) by congruence. subst k. split; [auto|]. split; [auto|]. left. now left.
        * rewrite A3, B3 by lia. destruct H as [[E|H]|(A & B & [[E|H]|H])]; try (injection E; intros; lia); try congruence; [left; now right|right; repeat split; auto; left; now right|right; auto].
      + destruct H6 as [H|([E|H] & A)]; try congruence; [left; auto|right; split; [now right|auto]].
    - destruct Hl as (Ht & Hn & Hp & i & -> & Hi).
      assert (Hbd : 0 <= n < zlen (g_labels m)) by lia.
      destruct (NdMemFacts.store_ok (g_labels m) n (8 + i) Hbd) as (l' & Es & E1 & E2 & E3). rewrite Es. cbn [obind].
      right. exists (Gmem l' (g_claims m) (g_max m) (g_inv m)), (IIdle t). split; [reflexivity|]. split; [exact Ht|]. split; [|auto].
      split; [cbn; lia|]. split; [auto|]. split; [auto|]. cbn [g_claims g_labels g_max g_inv pend_i].
      split; [exact H4|]. split; [auto|].
      assert (Hnc : NoDup (g_claims m)). { clear -H4. induction (g_claims m) as [|a l IH]; [constructor|]. cbn in H4. inversion H4 as [|? ? A B]; subst.
        constructor; [|auto]. intros Hi. apply A, in_app_iff. auto. }
      intros k Hk. specialize (H6 k Hk). cbn [app] in H6. destruct (Z.eq_dec k n) as [->|Hne].
      + rewrite Hp in *. rewrite E2. destruct H6 as [[E|H]|(i' & Hi' & H)]; try congruence; [left; auto|].
        assert (i' = i) by (eapply nodup_znth; eauto). subst i'. right. exists i. split; [auto|].
        destruct H as [[E|H]|(A & B & _)]; [congruence|left; auto|right; auto].
      + rewrite !E3 by auto. destruct (kind k) eqn:Ekk; [auto| |].
        * destruct H6 as [[E|H]|(i' & Hi' & [[E|H]|(A & B & [[E|H]|H])])]; try congruence; eauto 10.
        * destruct H6 as [H|([E|H] & A)]; try congruence; eauto.
  Qed.

  Definition mu_i (s : istate) : nat :=
    match s with IIdle t => 3 * length t | IFill _ _ t => 3 * length t + 2 | ILabel _ _ t => 3 * length t + 1 end%nat.
  Lemma down_i : forall m s m' s', stp m s = Some (Ok (m', s')) -> (mu_i s' < mu_i s)%nat.
  Proof.
    intros m s m' s' Hs. destruct s as [[|n t]|n id t|n id t]; cbn [init_step] in Hs; try discriminate.
    - destruct (classify snr gt thr half D N L spec noise n) as [[| |j]| |]; cbn [obind] in Hs; try discriminate.
      + injection Hs as <- <-. cbn. lia.
      + injection Hs as <- <-. cbn. lia.
      + destruct (store _ _ _); cbn [obind] in Hs; try discriminate. injection Hs as <- <-. cbn. lia.
    - destruct (store _ _ _); cbn [obind] in Hs; try discriminate. destruct (store _ _ _); cbn [obind] in Hs; try discriminate.
      injection Hs as <- <-. cbn. lia.
    - destruct (store _ _ _); cbn [obind] in Hs; try discriminate. injection Hs as <- <-. cbn. lia.
  Qed.

  Variable todos : list (list Z).
  Hypothesis Htodo : Permutation (concat todos) (zrange (D * N)).
  Hypothesis HDN : 0 <= D * N.
  Lemma start_i : minv pend_i J_i Lo_i (fresh_mem D N nmax, map IIdle todos).
  Proof.
    assert (E : flat_map pend_i (map IIdle todos) = map TTodo (concat todos)).
    { rewrite flat_map_concat_map, map_map, concat_map. reflexivity. }
    split; cbn [fst snd].
    - rewrite E. unfold J_i, fresh_mem. cbn [g_labels g_claims g_max g_inv]. rewrite !zlen_map, !zrange_length, todo_map.
      split; [lia|]. split; [lia|]. split; [lia|]. cbn [app].
      split; [eapply Permutation_NoDup; [symmetry; exact Htodo|apply zrange_nodup]|]. split; [intros n []|].
      intros n Hn. assert (Hz : znth (map (fun _ => 0) (zrange (D * N))) n = Some 0) by (apply znth_const; rewrite zrange_length; lia).
      assert (Ht : In (TTodo n) (map TTodo (concat todos))).
      { apply in_map. eapply Permutation_in; [symmetry; exact Htodo|now apply in_zrange]. }
      destruct (kind n); auto.
    - apply Forall_forall. intros s Hs. apply in_map_iff in Hs as (t & <- & Ht). cbn. intros n Hn.
      apply in_zrange. eapply Permutation_in; [exact Htodo|]. apply in_concat. eauto.
  Qed.

  Definition initialised (m : gmem) : Prop :=
    zlen (g_labels m) = D * N /\ zlen (g_max m) = nmax /\ zlen (g_inv m) = nmax /\
    NoDup (g_claims m) /\ zlen (g_claims m) <= zlen peaks /\
    (forall n, In n (g_claims m) <-> 0 <= n < D * N /\ kind n = Peak) /\
    (forall n, 0 <= n < D * N ->
       match kind n with
       | Skip => znth (g_labels m) n = Some 0
       | Under j => znth (g_labels m) n = Some (nmax + j)
       | Peak => exists i, znth (g_claims m) i = Some n /\ znth (g_max m) (8 + i) = Some (Some n) /\
                           znth (g_inv m) (8 + i) = Some 0 /\ znth (g_labels m) n = Some (8 + i)
       end).
  Lemma step_part : forall m s m' s' rest, stp m s = Some (Ok (m', s')) -> Lo_i m s -> J_i m (pend_i s ++ rest) ->
    Lo_i m' s' /\ J_i m' (pend_i s' ++ rest) /\ (forall s2, Lo_i m s2 -> Lo_i m' s2).
  Proof.
    intros m s m' s' rest Hs Hl HJ. destruct (step_i _ _ _ _ Hs Hl HJ) as [(_ & E)|(m2 & s2 & E & H)]; [discriminate|].
    injection E as -> ->. auto.
  Qed.
  Lemma init_halted m ss : msteps stp (fresh_mem D N nmax, map IIdle todos) (Ok (m, ss)) -> halted stp (m, ss) -> initialised m.
  Proof.
    intros Ho Hh. pose proof (minv_partial _ pend_i J_i Lo_i Jperm_i step_part _ _ start_i Ho _ eq_refl) as (HJ & _).
    assert (Hp : flat_map pend_i ss = []).
    { unfold halted in Hh. cbn [snd fst] in Hh. clear -Hh. induction Hh as [|s ss Hs _ IH]; [reflexivity|]. cbn. rewrite IH.
      destruct s as [[|]| |]; try discriminate; reflexivity. }
    cbn [fst snd] in HJ. rewrite Hp in HJ. pose proof (claims_room _ _ HJ) as Hr. destruct HJ as (H1 & H2 & H3 & H4 & H5 & H6). cbn in H4. rewrite app_nil_r in H4.
    split; [auto|]. split; [auto|]. split; [auto|]. split; [auto|]. split; [auto|]. split.
    - intros n. split; [apply H5|]. intros (Hn & Hk). specialize (H6 n Hn). rewrite Hk in H6.
      destruct H6 as [[]|(i & Hi & _)]. eapply znth_in; eauto.
    - intros n Hn. specialize (H6 n Hn). destruct (kind n); [auto| |].
      + destruct H6 as [[]|(i & Hi & [[]|(A & B & [[]|C])])]. eauto 10.
      + destruct H6 as [H|([] & _)]; auto.
  Qed.
  Lemma init_ends : always_ends stp (fresh_mem D N nmax, map IIdle todos).
  Proof. apply (ends_by_measure _ mu_i down_i). Qed.
  Theorem init_all : 8 + zlen peaks <= nmax ->
    always_ends stp (fresh_mem D N nmax, map IIdle todos) /\
    forall o, msteps stp (fresh_mem D N nmax, map IIdle todos) o ->
      exists m ss, o = Ok (m, ss) /\ (halted stp (m, ss) -> initialised m).
  Proof.
    intros Hroom. split; [apply init_ends|]. intros o Ho.
    assert (Hst : forall m s o rest, stp m s = Some o -> Lo_i m s -> J_i m (pend_i s ++ rest) ->
      exists m' s', o = Ok (m', s') /\ Lo_i m' s' /\ J_i m' (pend_i s' ++ rest) /\ (forall s2, Lo_i m s2 -> Lo_i m' s2)).
    { intros m s o' rest Hs Hl HJ. destruct (step_i _ _ _ _ Hs Hl HJ) as [(Hx & _)|H]; [lia|exact H]. }
    destruct (minv_steps _ pend_i J_i Lo_i Jperm_i Hst _ _ start_i Ho) as ((m & ss) & -> & _).
    exists m, ss. split; [reflexivity|]. now apply init_halted.
  Qed.
  (** A run that completes had room for every peak. *)
  Theorem init_fits m ss : msteps stp (fresh_mem D N nmax, map IIdle todos) (Ok (m, ss)) -> halted stp (m, ss) ->
    peaks = [] \/ 8 + zlen peaks <= nmax.
  Proof.
    intros Ho Hh. pose proof (init_halted m ss Ho Hh) as (H1 & H2 & H3 & H4 & H5 & H6 & H7).
    destruct peaks as [|p ps] eqn:E; [auto|right].
    assert (Hlen : zlen (g_claims m) = zlen peaks).
    { unfold zlen. apply f_equal. apply Permutation_length. apply NoDup_Permutation; [auto|apply NoDup_filter, zrange_nodup|].
      intros n. unfold peaks. rewrite H6, filter_In, in_zrange. unfold is_peak. destruct (kind n); intuition congruence. }
    rewrite <- E. destruct (znth_some (g_claims m) (zlen (g_claims m) - 1)) as (n & En).
    { rewrite Hlen, E. unfold zlen. cbn [length]. lia. }
    pose proof (proj1 (H6 n) (znth_in _ _ _ En)) as (Hn & Hk). specialize (H7 n Hn). rewrite Hk in H7. destruct H7 as (i & Ei & A & _).
    pose proof (nodup_znth _ _ _ _ H4 En Ei) as <-. apply znth_bounds in A. lia.
  Qed.
  Lemma init_fails : nmax < 8 + zlen peaks -> peaks <> [] -> msteps stp (fresh_mem D N nmax, map IIdle todos) UB.
  Proof.
    intros Hx Hne. assert (G : forall c, always_ends stp c -> minv pend_i J_i Lo_i c ->
      (forall m ss, msteps stp c (Ok (m, ss)) -> halted stp (m, ss) -> False) -> msteps stp c UB).
    { intros c Ha. induction Ha as [c _ IH]. intros Hi Hno. destruct (not_halted_moves stp c) as [Hh|(o & Ho)].
      - exfalso. destruct c as (m & ss). eapply Hno; [constructor|exact Hh].
      - destruct o as [c1|e|].
        + eapply mss_step; [exact Ho|]. apply IH; [auto| |].
          * eapply (minv_partial _ pend_i J_i Lo_i Jperm_i step_part c); [exact Hi|eapply mss_step; [exact Ho|constructor]|reflexivity].
          * intros m ss R. apply (Hno m ss). eapply mss_step; eauto.
        + exfalso. destruct Hi as (HJ & HL). inversion Ho; subst. cbn in *. apply Forall_app in HL as (_ & HL). inversion HL; subst.
          rewrite flat_map_app in HJ. cbn in HJ.
          destruct (step_i m s (Throw e) (flat_map pend_i ss1 ++ flat_map pend_i ss2) H1) as [(_ & E)|(m' & s' & E & _)]; try discriminate; auto.
          eapply Jperm_i; [|exact HJ]. rewrite !app_assoc. apply Permutation_app_tail, Permutation_app_comm.
        + apply mss_bad; [exact Ho|discriminate]. }
    apply G; [apply init_ends|apply start_i|]. intros m ss R Hh. destruct (init_fits m ss R Hh) as [E|E]; [auto|lia].
  Qed.
End Init.
