(** Interleavings of threads given as state machines over a shared memory, with a proof rule for
    invariants and one for termination. *)
From Verif Require Export Base.
From Coq Require Import Lia Permutation Wellfounded.

Section Machine.
  Context {M S : Type}.
  (** One atomic step of a thread; [None]: the thread has finished. *)
  Variable step : M -> S -> option (outcome (M * S)).

  (** Any thread that has not finished may move next. *)
  Inductive mstep : M * list S -> outcome (M * list S) -> Prop :=
  | ms_ok m ss1 s ss2 m' s' : step m s = Some (Ok (m', s')) -> mstep (m, ss1 ++ s :: ss2) (Ok (m', ss1 ++ s' :: ss2))
  | ms_ub m ss1 s ss2 : step m s = Some UB -> mstep (m, ss1 ++ s :: ss2) UB
  | ms_throw m ss1 s ss2 e : step m s = Some (Throw e) -> mstep (m, ss1 ++ s :: ss2) (Throw e).

  Inductive msteps : M * list S -> outcome (M * list S) -> Prop :=
  | mss_refl c : msteps c (Ok c)
  | mss_step c c' o : mstep c (Ok c') -> msteps c' o -> msteps c o
  | mss_bad c o : mstep c o -> (forall c', o <> Ok c') -> msteps c o.

  Definition halted (c : M * list S) : Prop := Forall (fun s => step (fst c) s = None) (snd c).
  (** No infinite execution from [c], whatever the schedule. *)
  Definition always_ends (c : M * list S) : Prop := Acc (fun c' c => mstep c (Ok c')) c.

  Lemma not_halted_moves c : halted c \/ exists o, mstep c o.
  Proof.
    destruct c as [m ss]. unfold halted. cbn. induction ss as [|s ss IH]; [left; constructor|].
    destruct (step m s) as [[(m' & s')|e|]|] eqn:E.
    - right. exists (Ok (m', [] ++ s' :: ss)). now apply (ms_ok m [] s ss).
    - right. exists (Throw e). now apply (ms_throw m [] s ss).
    - right. exists UB. now apply (ms_ub m [] s ss).
    - destruct IH as [IH|(o & IH)]; [left; constructor; auto|right]. inversion IH; subst.
      + eexists. eapply (ms_ok m (s :: ss1) s0 ss2). eassumption.
      + eexists. eapply (ms_ub m (s :: ss1) s0 ss2). eassumption.
      + eexists. eapply (ms_throw m (s :: ss1) s0 ss2 e). eassumption.
  Qed.

  (** Pending work of a thread, a property of the memory and of all pending work, and a property of
      each thread that the steps of the others do not disturb. *)
  Context {Task : Type}.
  Variables (pend : S -> list Task) (J : M -> list Task -> Prop) (Lo : M -> S -> Prop).
  Hypothesis Jperm : forall m l l', Permutation l l' -> J m l -> J m l'.
  Hypothesis Hstep : forall m s o rest, step m s = Some o -> Lo m s -> J m (pend s ++ rest) ->
    exists m' s', o = Ok (m', s') /\ Lo m' s' /\ J m' (pend s' ++ rest) /\ (forall s2, Lo m s2 -> Lo m' s2).

  Definition minv (c : M * list S) : Prop := J (fst c) (flat_map pend (snd c)) /\ Forall (Lo (fst c)) (snd c).

  Lemma minv_step c o : minv c -> mstep c o -> exists c', o = Ok c' /\ minv c'.
  Proof.
    intros (HJ & HL) Hs.
    assert (G : forall m ss1 s ss2 o', c = (m, ss1 ++ s :: ss2) -> step m s = Some o' ->
      exists m' s', o' = Ok (m', s') /\ minv (m', ss1 ++ s' :: ss2)).
    { intros m ss1 s ss2 o' -> E. cbn in *. apply Forall_app in HL as (HL1 & HL2). inversion HL2; subst.
      rewrite flat_map_app in HJ. cbn in HJ.
      destruct (Hstep m s o' (flat_map pend ss1 ++ flat_map pend ss2) E) as (m' & s' & -> & HLs & HJ' & Hmono); auto.
      { eapply Jperm; [|exact HJ]. rewrite !app_assoc. apply Permutation_app_tail, Permutation_app_comm. }
      exists m', s'. split; [reflexivity|]. split; cbn.
      - rewrite flat_map_app. cbn. eapply Jperm; [|exact HJ']. rewrite !app_assoc. apply Permutation_app_tail, Permutation_app_comm.
      - apply Forall_app. split; [eapply Forall_impl; [|exact HL1]; auto|]. constructor; [auto|].
        eapply Forall_impl; [|eassumption]. auto. }
    inversion Hs; subst; destruct (G _ _ _ _ _ eq_refl H) as (x & y & E & Hm); try discriminate.
    injection E as <- <-. eauto.
  Qed.

  Theorem minv_steps c o : minv c -> msteps c o -> exists c', o = Ok c' /\ minv c'.
  Proof.
    intros Hi Hs. induction Hs as [c|c c' o H1 H2 IH|c o H1 H2].
    - eauto.
    - destruct (minv_step _ _ Hi H1) as (x & E & Hi'). injection E as <-. auto.
    - destruct (minv_step _ _ Hi H1) as (x & -> & _). exfalso. eapply H2. reflexivity.
  Qed.

  (** Termination: a step lowers [P], or keeps it and every thread's measure except its own, which drops. *)
  Variables (P : M -> nat) (mu : M -> S -> nat).
  Hypothesis Hdown : forall m s m' s', step m s = Some (Ok (m', s')) -> Lo m s -> (exists rest, J m (pend s ++ rest)) ->
    (P m' < P m)%nat \/ P m' = P m /\ (forall s2, Lo m s2 -> mu m' s2 = mu m s2) /\ (mu m' s' < mu m s)%nat.

  Definition total (c : M * list S) : nat := list_sum (map (mu (fst c)) (snd c)).

  Theorem minv_ends c : minv c -> always_ends c.
  Proof.
    unfold always_ends. remember (P (fst c)) as p eqn:Ep. revert c Ep. induction p as [p IHp] using lt_wf_ind.
    intros c Ep. remember (total c) as t eqn:Et. revert c Ep Et. induction t as [t IHt] using lt_wf_ind.
    intros c Ep Et Hi. constructor. intros c' Hs.
    destruct (minv_step _ _ Hi Hs) as (x & E & Hi'). injection E as <-.
    inversion Hs as [m ss1 s ss2 m' s' Hst| |]; subst. cbn in *.
    destruct Hi as (HJ & HL). cbn in HJ, HL. apply Forall_app in HL as (HL1 & HL2). inversion HL2; subst.
    destruct (Hdown m s m' s' Hst) as [Hp|(Hp & Hsame & Hmu)]; auto.
    { exists (flat_map pend ss1 ++ flat_map pend ss2). rewrite flat_map_app in HJ. cbn in HJ.
      eapply Jperm; [|exact HJ]. rewrite !app_assoc. apply Permutation_app_tail, Permutation_app_comm. }
    - eapply IHp; [exact Hp|reflexivity|exact Hi'].
    - eapply IHt; [|cbn; symmetry; exact Hp|reflexivity|exact Hi'].
      unfold total. cbn. rewrite !map_app, !list_sum_app. cbn.
      assert (E : forall l, Forall (Lo m) l -> map (mu m') l = map (mu m) l).
      { intros l Hl. apply map_ext_in. intros a Ha. apply Hsame. rewrite Forall_forall in Hl. auto. }
      rewrite !E by auto. lia.
  Qed.
End Machine.

Section Partial.
  Context {M S Task : Type}.
  Variable step : M -> S -> option (outcome (M * S)).
  Variables (pend : S -> list Task) (J : M -> list Task -> Prop) (Lo : M -> S -> Prop).
  Hypothesis Jperm : forall m l l', Permutation l l' -> J m l -> J m l'.
  (** As above for steps that do not fail. *)
  Hypothesis Hstep : forall m s m' s' rest, step m s = Some (Ok (m', s')) -> Lo m s -> J m (pend s ++ rest) ->
    Lo m' s' /\ J m' (pend s' ++ rest) /\ (forall s2, Lo m s2 -> Lo m' s2).
  Theorem minv_partial c o : minv pend J Lo c -> msteps step c o -> forall c', o = Ok c' -> minv pend J Lo c'.
  Proof.
    intros Hi Hs. induction Hs as [c|c c1 o H1 H2 IH|c o H1 H2]; intros c' E.
    - injection E as <-. auto.
    - apply IH; [|auto]. destruct Hi as (HJ & HL). inversion H1; subst. cbn in *. apply Forall_app in HL as (HL1 & HL2). inversion HL2; subst.
      rewrite flat_map_app in HJ. cbn in HJ.
      destruct (Hstep m s m' s' (flat_map pend ss1 ++ flat_map pend ss2) H3) as (HLs & HJ' & Hmono); auto.
      { eapply Jperm; [|exact HJ]. rewrite !app_assoc. apply Permutation_app_tail, Permutation_app_comm. }
      split; cbn.
      + rewrite flat_map_app. cbn. eapply Jperm; [|exact HJ']. rewrite !app_assoc. apply Permutation_app_tail, Permutation_app_comm.
      + apply Forall_app. split; [eapply Forall_impl; [|exact HL1]; auto|]. constructor; [auto|].
        eapply Forall_impl; [|eassumption]. auto.
    - subst. exfalso. eapply H2. reflexivity.
  Qed.
End Partial.

(** Termination when every step lowers a measure of its thread. *)
Lemma ends_by_measure {M S} (step : M -> S -> option (outcome (M * S))) (mu : S -> nat) :
  (forall m s m' s', step m s = Some (Ok (m', s')) -> (mu s' < mu s)%nat) -> forall c, always_ends step c.
Proof.
  intros Hd (m & ss). unfold always_ends. remember (list_sum (map mu ss)) as k eqn:Ek. revert m ss Ek.
  induction k as [k IH] using lt_wf_ind. intros m ss Ek. constructor. intros (m2 & ss2) Hs. inversion Hs; subst.
  eapply IH; [|reflexivity]. rewrite !map_app, !list_sum_app. cbn. match goal with H : step _ _ = _ |- _ => apply Hd in H end. lia.
Qed.

(** Two runs from one start that both end in halted states give memories that agree whenever the final
    memory is determined; the rule above gives existence of an end. *)
Lemma ends_somewhere {M S} (step : M -> S -> option (outcome (M * S))) c (I : M * list S -> Prop) :
  always_ends step c -> I c -> (forall c o, I c -> mstep step c o -> exists c', o = Ok c' /\ I c') ->
  exists c', msteps step c (Ok c') /\ halted step c' /\ I c'.
Proof.
  intros Ha. induction Ha as [c _ IH]. intros Hi Hp.
  destruct (not_halted_moves step c) as [Hh|(o & Ho)].
  - exists c. split; [constructor|auto].
  - destruct (Hp c o Hi Ho) as (c1 & -> & Hi1). destruct (IH c1 Ho Hi1 Hp) as (c' & Hs & Hh & Hi').
    exists c'. split; [eapply mss_step; eauto|auto].
Qed.
