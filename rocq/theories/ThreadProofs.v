(** Threads that only read shared data nobody writes, and write disjoint addresses: every
    interleaving gives the same memory, never goes wrong and ends. *)
From Verif Require Export DriftModel BaseFacts.
From Coq Require Import ZifyBool ZifyNat.
Local Open Scope Z_scope.

Lemma Forall2_len {X Y} (R : X -> Y -> Prop) l m : Forall2 R l m -> length l = length m.
Proof. induction 1; cbn; auto. Qed.

Lemma app_split_len {X} (a b c d : list X) : a ++ b = c ++ d -> length a = length c -> a = c /\ b = d.
Proof.
  revert c; induction a as [|x a IH]; destruct c as [|y c]; cbn; intros E L; try discriminate; [auto|].
  injection E as -> E. injection L as L. destruct (IH c E L) as (-> & ->). auto.
Qed.

Section T.
  Context {A V : Type} (eqA : A -> A -> bool) (eqA_spec : forall x y, eqA x y = true <-> x = y).

  (** A thread run alone on memory [m]: its writes in order and its number of operations. *)
  Inductive solo (ro : A -> Prop) (m : smem (A := A) (V := V)) : prog A V -> list (A * V) -> nat -> Prop :=
  | solo_ret : solo ro m Ret [] 0
  | solo_rd a k v ws n : ro a -> m a = Some v -> solo ro m (k v) ws n -> solo ro m (Rd a k) ws (S n)
  | solo_wr a v p ws n : ~ ro a -> m a <> None -> solo ro m p ws n -> solo ro m (Wr a v p) ((a, v) :: ws) (S n).

  Definition apply_writes (ws : list (A * V)) (m : smem (A := A) (V := V)) : smem :=
    fold_left (fun m w => sset eqA m (fst w) (snd w)) ws m.

  Definition disjoint_writes (wss : list (list (A * V))) : Prop :=
    forall l1 w1 l2 w2 l3, wss = l1 ++ w1 :: l2 ++ w2 :: l3 ->
      forall a v v', In (a, v) w1 -> In (a, v') w2 -> False.

  Lemma eqA_refl a : eqA a a = true. Proof. now apply eqA_spec. Qed.

  Lemma apply_ext ws : forall m m', (forall a, m a = m' a) -> forall a, apply_writes ws m a = apply_writes ws m' a.
  Proof.
    induction ws as [|w ws IH]; intros m m' H a; cbn; [auto|]. apply IH.
    intros b. unfold sset. destruct (eqA (fst w) b); auto.
  Qed.

  Lemma apply_app ws ws' m : apply_writes (ws ++ ws') m = apply_writes ws' (apply_writes ws m).
  Proof. apply fold_left_app. Qed.

  Lemma apply_other ws : forall m a v, (forall v', ~ In (a, v') ws) ->
    forall b, apply_writes ws (sset eqA m a v) b = sset eqA (apply_writes ws m) a v b.
  Proof.
    induction ws as [|(a0 & v0) ws IH]; intros m a v H b; cbn; [reflexivity|].
    rewrite <- IH by (intros v' Hin; apply (H v'); cbn; auto). apply apply_ext. intros c. unfold sset.
    destruct (eqA a0 c) eqn:E1; [|reflexivity]. destruct (eqA a c) eqn:E2; [|reflexivity].
    apply eqA_spec in E1, E2. subst. exfalso. apply (H v0). cbn. auto.
  Qed.

  (** Lookup after a batch of writes whose values are determined by the address. *)
  Lemma apply_det ws : forall m a v, (forall v', In (a, v') ws -> v' = v) ->
    apply_writes ws m a = if existsb (fun w => eqA (fst w) a) ws then Some v else m a.
  Proof.
    induction ws as [|(a0 & v0) ws IH]; intros m a v H; cbn; [reflexivity|].
    rewrite (IH _ a v) by (intros v' Hin; apply H; cbn; auto).
    destruct (existsb _ ws); [now rewrite orb_true_r|]. rewrite orb_false_r. unfold sset.
    destruct (eqA a0 a) eqn:E; [|reflexivity]. apply eqA_spec in E. subst. f_equal. apply H. cbn. auto.
  Qed.

  Variables (ro : A -> Prop) (m0 : smem (A := A) (V := V)).

  Definition inv (wss0 : list (list (A * V))) (c : smem * list (prog A V)) : Prop :=
    let '(m, ps) := c in
    exists wss ns, Forall2 (fun p wn => solo ro m0 p (fst wn) (snd wn)) ps (combine wss ns) /\
      length wss = length ps /\ length ns = length ps /\
      disjoint_writes wss /\ (forall a, ro a -> m a = m0 a) /\ (forall a, m a = None <-> m0 a = None) /\
      (forall a, apply_writes (concat wss) m a = apply_writes (concat wss0) m0 a).

  Lemma combine_split {X Y} (l1 l2 : list X) x (m1 m2 : list Y) y : length l1 = length m1 ->
    combine (l1 ++ x :: l2) (m1 ++ y :: m2) = combine l1 m1 ++ (x, y) :: combine l2 m2.
  Proof. revert m1; induction l1; destruct m1; cbn; intros; try discriminate; [reflexivity|]. f_equal. auto. Qed.

  Lemma inv_split wss0 m ps1 p ps2 : inv wss0 (m, ps1 ++ p :: ps2) ->
    exists w1 ws w2 n1 n n2, solo ro m0 p ws n /\
      Forall2 (fun p wn => solo ro m0 p (fst wn) (snd wn)) ps1 (combine w1 n1) /\
      Forall2 (fun p wn => solo ro m0 p (fst wn) (snd wn)) ps2 (combine w2 n2) /\
      length w1 = length ps1 /\ length n1 = length ps1 /\ length w2 = length ps2 /\ length n2 = length ps2 /\
      disjoint_writes (w1 ++ ws :: w2) /\ (forall a, ro a -> m a = m0 a) /\ (forall a, m a = None <-> m0 a = None) /\
      (forall a, apply_writes (concat (w1 ++ ws :: w2)) m a = apply_writes (concat wss0) m0 a).
  Proof.
    intros (wss & ns & H & L1 & L2 & D & R1 & R2 & R3).
    rewrite app_length in L1, L2. cbn in L1, L2.
    assert (exists w1 ws w2, wss = w1 ++ ws :: w2 /\ length w1 = length ps1) as (w1 & ws & w2 & -> & E1).
    { exists (firstn (length ps1) wss). destruct (skipn (length ps1) wss) as [|ws w2] eqn:E.
      - apply (f_equal (@length _)) in E. rewrite skipn_length in E. cbn in E. lia.
      - exists ws, w2. rewrite <- E, firstn_skipn. split; [reflexivity|]. rewrite firstn_length. lia. }
    assert (exists n1 n n2, ns = n1 ++ n :: n2 /\ length n1 = length ps1) as (n1 & n & n2 & -> & E2).
    { exists (firstn (length ps1) ns). destruct (skipn (length ps1) ns) as [|n n2] eqn:E.
      - apply (f_equal (@length _)) in E. rewrite skipn_length in E. cbn in E. lia.
      - exists n, n2. rewrite <- E, firstn_skipn. split; [reflexivity|]. rewrite firstn_length. lia. }
    rewrite app_length in L1, L2. cbn in L1, L2. rewrite combine_split in H by lia.
    apply Forall2_app_inv_l in H as (c1 & c2 & F1 & F2 & E).
    assert (Hl : length c1 = length (combine w1 n1)).
    { rewrite combine_length. apply Forall2_len in F1. lia. }
    inversion F2 as [|? (ws' & n') ? c2' F3 F4]; subst.
    destruct (app_split_len _ _ _ _ (eq_sym E) Hl) as (-> & E3).
    injection E3 as -> -> ->. exists w1, ws, w2, n1, n, n2.
    cbn in F3. repeat (split; [first [assumption|lia]|]). assumption.
  Qed.

  Lemma disjoint_tail w1 a v ws w2 : disjoint_writes (w1 ++ ((a, v) :: ws) :: w2) -> disjoint_writes (w1 ++ ws :: w2).
  Proof.
    intros D l1 x1 l2 x2 l3 E b v1 v2 I1 I2.
    (* locate the shortened list among x1, x2 *)
    assert (G : exists l1' x1' l2' x2' l3', w1 ++ ((a, v) :: ws) :: w2 = l1' ++ x1' :: l2' ++ x2' :: l3' /\
               incl x1 x1' /\ incl x2 x2').
    { clear D I1 I2. revert l1 E. induction w1 as [|y w1 IH]; intros l1 E; cbn in E |- *.
      - destruct l1 as [|z l1]; cbn in E.
        + injection E as -> E. exists [], ((a, v) :: x1), l2, x2, l3. cbn. rewrite E.
          split; [reflexivity|]. split; [intros ? ?; cbn; auto|intros ? ?; auto].
        + injection E as -> E. exists (((a, v) :: z) :: l1), x1, l2, x2, l3. cbn. rewrite E.
          split; [reflexivity|]. split; intros ? ?; auto.
      - destruct l1 as [|z l1]; cbn in E.
        + injection E as -> E. clear IH. exists [], x1. cbn. 
          assert (G2 : exists l2' x2' l3', w1 ++ ((a, v) :: ws) :: w2 = l2' ++ x2' :: l3' /\ incl x2 x2').
          { revert l2 E. induction w1 as [|y' w1 IH]; intros l2 E; cbn in E |- *.
            - destruct l2 as [|z l2]; cbn in E.
              + injection E as -> ->. exists [], ((a, v) :: x2), l3. split; [reflexivity|intros ? ?; cbn; auto].
              + injection E as -> ->. exists (((a, v) :: z) :: l2), x2, l3. split; [reflexivity|intros ? ?; auto].
            - destruct l2 as [|z l2]; cbn in E.
              + injection E as -> <-. exists [], x2, (w1 ++ ((a, v) :: ws) :: w2). split; [reflexivity|intros ? ?; auto].
              + injection E as -> E. destruct (IH l2 E) as (p1 & p2 & p3 & Ep & Hi). exists (z :: p1), p2, p3. cbn. rewrite Ep. auto. }
          destruct G2 as (l2' & x2' & l3' & E2 & Hi). exists l2', x2', l3'. rewrite E2. split; [reflexivity|].
          split; [intros ? ?; auto|exact Hi].
        + injection E as -> E. destruct (IH l1 E) as (p1 & p2 & p3 & p4 & p5 & Ep & H1 & H2).
          exists (z :: p1), p2, p3, p4, p5. cbn. rewrite Ep. auto. }
    destruct G as (l1' & x1' & l2' & x2' & l3' & Eq & H1 & H2). eapply (D l1' x1' l2' x2' l3' Eq b v1 v2); auto.
  Qed.

  Lemma disjoint_before w1 a v ws w2 : disjoint_writes (w1 ++ ((a, v) :: ws) :: w2) ->
    forall v', ~ In (a, v') (concat w1).
  Proof.
    intros D v' Hin. apply in_concat in Hin as (x & Hx & Hin). apply in_split in Hx as (l1 & l2 & ->).
    rewrite <- app_assoc in D. cbn in D. apply (D l1 x l2 ((a, v) :: ws) w2 eq_refl a v' v Hin). cbn. auto.
  Qed.

  Lemma inv_step wss0 c o : inv wss0 c -> gstep eqA c o -> exists c', o = Ok c' /\ inv wss0 c'.
  Proof.
    intros Hi Hg. inversion Hg as [m ps1 p ps2 m' p' Ht|m ps1 p ps2 Ht]; subst.
    - destruct (inv_split _ _ _ _ _ Hi) as (w1 & ws & w2 & n1 & n & n2 & Hs & F1 & F2 & L1 & L2 & L3 & L4 & D & R1 & R2 & R3).
      exists (m', ps1 ++ p' :: ps2). split; [reflexivity|].
      inversion Ht; subst.
      + inversion Hs as [|? ? v' ? n' Hro Hm Hk|]; subst.
        assert (v' = v) by (rewrite R1 in * by auto; congruence). subst v'.
        exists (w1 ++ ws :: w2), (n1 ++ n' :: n2). rewrite combine_split by lia.
        split; [apply Forall2_app; [auto|constructor; auto]|]. rewrite !app_length. cbn. repeat (split; [first [assumption|lia]|]). assumption.
      + inversion Hs as [| |? ? ? ws' n' Hro Hm Hk]; subst.
        exists (w1 ++ ws' :: w2), (n1 ++ n' :: n2). rewrite combine_split by lia.
        split; [apply Forall2_app; [auto|constructor; auto]|]. rewrite !app_length. cbn.
        split; [lia|]. split; [lia|]. split; [eapply disjoint_tail; eauto|].
        assert (Hne : forall b, eqA a b = true -> a = b) by (intros b; apply eqA_spec).
        split. { intros b Hb. unfold sset. destruct (eqA a b) eqn:E; [apply Hne in E; subst; contradiction|auto]. }
        split. { intros b. unfold sset. destruct (eqA a b) eqn:E; [apply Hne in E; subst|auto]. split; [discriminate|contradiction]. }
        intros b. rewrite <- R3. rewrite !concat_app. cbn [concat app]. rewrite 2!(apply_app (concat w1)).
        transitivity (apply_writes (ws' ++ concat w2) (sset eqA (apply_writes (concat w1) m) a v) b); [|reflexivity].
        apply apply_ext. intros c. apply apply_other. intros v' Hin. eapply disjoint_before; eauto.
    - exfalso. destruct (inv_split _ _ _ _ _ Hi) as (w1 & ws & w2 & n1 & n & n2 & Hs & F1 & F2 & L1 & L2 & L3 & L4 & D & R1 & R2 & R3).
      inversion Ht; subst; inversion Hs; subst; [rewrite R1 in * by auto; congruence|].
      match goal with H : m0 a <> None |- _ => apply H, R2; auto end.
  Qed.

  Lemma inv_init ps wss ns : Forall2 (fun p wn => solo ro m0 p (fst wn) (snd wn)) ps (combine wss ns) ->
    length wss = length ps -> length ns = length ps -> disjoint_writes wss -> inv wss (m0, ps).
  Proof. intros. exists wss, ns. repeat split; auto. Qed.

  Lemma inv_steps wss0 c o : inv wss0 c -> gsteps eqA c o -> exists c', o = Ok c' /\ inv wss0 c'.
  Proof.
    intros Hi Hg. induction Hg as [c|c c1 o H1 H2 IH|c H].
    - eauto.
    - destruct (inv_step _ _ _ Hi H1) as (c' & E & Hi'). injection E as <-. auto.
    - destruct (inv_step _ _ _ Hi H) as (c' & E & _). discriminate.
  Qed.

  Lemma inv_final wss0 m ps : inv wss0 (m, ps) -> finished ps -> forall a, m a = apply_writes (concat wss0) m0 a.
  Proof.
    intros (wss & ns & H & L1 & L2 & D & R1 & R2 & R3) Hf a. rewrite <- R3.
    replace (concat wss) with (@nil (A * V)); [reflexivity|]. symmetry.
    clear -H L1 L2 Hf. revert wss ns H L1 L2. induction Hf as [|p ps Hp Hf IH]; intros wss ns H L1 L2.
    - destruct wss; [reflexivity|discriminate].
    - destruct wss as [|ws wss]; [discriminate|]. destruct ns as [|n ns]; [discriminate|].
      cbn in H. inversion H; subst. cbn in *. rewrite (IH wss ns); auto.
      match goal with H : solo _ _ Ret _ _ |- _ => inversion H; subst end. reflexivity.
  Qed.

  (** A configuration that is not finished can move. *)
  Lemma inv_progress wss0 c : inv wss0 c -> finished (snd c) \/ exists o, gstep eqA c o.
  Proof.
    destruct c as (m & ps). cbn [snd]. intros _. clear.
    induction ps as [|p ps IH]; [left; constructor|].
    destruct p as [|a k|a v p].
    - destruct IH as [IH|(o & IH)]; [left; constructor; auto|right].
      inversion IH; subst.
      + exists (Ok (m', (Ret :: ps1) ++ p' :: ps2)). apply (gs_ok eqA m (Ret :: ps1) p ps2 m' p'). auto.
      + exists UB. apply (gs_ub eqA m (Ret :: ps1) p ps2). auto.
    - right. destruct (m a) as [v|] eqn:E.
      + exists (Ok (m, [] ++ k v :: ps)). apply (gs_ok eqA m [] _ ps). now constructor.
      + exists UB. apply (gs_ub eqA m [] _ ps). now constructor.
    - right. destruct (m a) as [v'|] eqn:E.
      + exists (Ok (sset eqA m a v, [] ++ p :: ps)). apply (gs_ok eqA m [] _ ps). constructor. congruence.
      + exists UB. apply (gs_ub eqA m [] _ ps). now constructor.
  Qed.

  (** No infinite execution. *)
  Lemma inv_terminates wss0 c : inv wss0 c -> Acc (fun c' c => gstep eqA c (Ok c')) c.
  Proof.
    intros Hi.
    assert (G : forall b c, inv wss0 c -> 
      (exists wss ns, Forall2 (fun p wn => solo ro m0 p (fst wn) (snd wn)) (snd c) (combine wss ns) /\
        length wss = length (snd c) /\ length ns = length (snd c) /\ (list_sum ns <= b)%nat) ->
      Acc (fun c' c => gstep eqA c (Ok c')) c).
    { clear Hi c. induction b as [b IH] using lt_wf_ind. intros c Hi (wss & ns & H & L1 & L2 & Hb).
      constructor. intros c' Hg. destruct (inv_step _ _ _ Hi Hg) as (c2 & E & Hi'). injection E as <-.
      inversion Hg as [m ps1 p ps2 m' p' Ht|]; subst. cbn [snd] in *.
      (* split the witnesses *)
      rewrite app_length in L1, L2. cbn in L1, L2.
      assert (exists w1 ws w2, wss = w1 ++ ws :: w2 /\ length w1 = length ps1) as (w1 & ws & w2 & -> & E1).
      { exists (firstn (length ps1) wss). destruct (skipn (length ps1) wss) as [|ws w2] eqn:E.
        - apply (f_equal (@length _)) in E. rewrite skipn_length in E. cbn in E. lia.
        - exists ws, w2. rewrite <- E, firstn_skipn. split; [reflexivity|]. rewrite firstn_length. lia. }
      assert (exists n1 n n2, ns = n1 ++ n :: n2 /\ length n1 = length ps1) as (n1 & n & n2 & -> & E2).
      { exists (firstn (length ps1) ns). destruct (skipn (length ps1) ns) as [|n n2] eqn:E.
        - apply (f_equal (@length _)) in E. rewrite skipn_length in E. cbn in E. lia.
        - exists n, n2. rewrite <- E, firstn_skipn. split; [reflexivity|]. rewrite firstn_length. lia. }
      rewrite app_length in L1, L2. cbn in L1, L2. rewrite combine_split in H by lia.
      apply Forall2_app_inv_l in H as (c1 & c2 & F1 & F2 & E).
      assert (Hl : length c1 = length (combine w1 n1)).
      { rewrite combine_length. apply Forall2_len in F1. lia. }
      inversion F2 as [|? (ws' & n') ? c2' F3 F4]; subst.
      destruct (app_split_len _ _ _ _ (eq_sym E) Hl) as (-> & E3).
      injection E3 as -> -> ->. cbn in F3. rewrite list_sum_app in Hb. cbn in Hb.
      assert (exists ws' n', solo ro m0 p' ws' n' /\ (n' < n)%nat) as (ws' & n' & Hs' & Hlt).
      { destruct Hi as (wss' & ns' & _ & _ & _ & _ & R1 & _).
        inversion Ht; subst; inversion F3; subst.
        - assert (v0 = v) by (rewrite R1 in * by auto; congruence). subst. eauto.
        - eauto. }
      apply (IH (list_sum (n1 ++ n' :: n2))); [rewrite list_sum_app; cbn; lia|exact Hi'|].
      exists (w1 ++ ws' :: w2), (n1 ++ n' :: n2). cbn [snd]. rewrite combine_split by lia.
      split; [apply Forall2_app; [auto|constructor; auto]|]. rewrite !app_length. cbn. lia. }
    destruct c as (m & ps). pose proof Hi as (wss & ns & H & L1 & L2 & _).
    apply (G (list_sum ns) (m, ps) Hi). exists wss, ns. auto.
  Qed.
End T.
