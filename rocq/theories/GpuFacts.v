(** Barrier-separated phases in which no thread writes what another reads or writes: every interleaving ends, never goes
    wrong, never deadlocks, and leaves the same memory.  Cells changed only by atomic additions hold the additions of all
    threads in some order. *)
From Verif Require Export GpuModel.
From Coq Require Import Lia Permutation Wellfounded Relations.

Section G.
  Context {A V : Type} (eqA : A -> A -> bool) (eqA_spec : forall x y, eqA x y = true <-> x = y) (addV : V -> V -> V).
  Notation mem := (gpumem (A := A) (V := V)).
  Notation prg := (bprog A V).
  Notation gset := (gset eqA).

  Lemma gset_same (m : mem) a v : gset m a v a = Some v.
  Proof. unfold GpuModel.gset. now rewrite (proj2 (eqA_spec a a) eq_refl). Qed.
  Lemma gset_other (m : mem) a v b : a <> b -> gset m a v b = m b.
  Proof. intros H. unfold GpuModel.gset. destruct (eqA a b) eqn:E; [apply eqA_spec in E; contradiction|reflexivity]. Qed.

  (** A thread alone, up to its next barrier or its end: memory, atomic additions, rest of the program. *)
  Fixpoint exec (p : prg) (m : mem) : option (mem * list (A * V) * prg) :=
    match p with
    | BRet => Some (m, [], BRet)
    | BBar q => Some (m, [], BBar q)
    | BRd a k => match m a with Some v => exec (k v) m | None => None end
    | BWr a v q => match m a with Some _ => exec q (gset m a v) | None => None end
    | BAdd a v q => match exec q m with Some (m', l, r) => Some (m', (a, v) :: l, r) | None => None end
    end.

  (** It reads inside [R] or [W], writes inside [W], adds inside [Ac]. *)
  Fixpoint within (Ac R W : A -> Prop) (p : prg) (m : mem) : Prop :=
    match p with
    | BRet | BBar _ => True
    | BRd a k => (R a \/ W a) /\ match m a with Some v => within Ac R W (k v) m | None => False end
    | BWr a v q => W a /\ m a <> None /\ within Ac R W q (gset m a v)
    | BAdd a v q => Ac a /\ within Ac R W q m
    end.

  Definition agree (D : A -> Prop) (m m' : mem) : Prop := forall a, D a -> m a = m' a.

  Lemma exec_agree Ac R W p : forall m m', agree (fun a => R a \/ W a) m m' -> within Ac R W p m ->
    within Ac R W p m' /\ forall mt l q, exec p m = Some (mt, l, q) ->
      exists mt', exec p m' = Some (mt', l, q) /\ agree (fun a => R a \/ W a) mt mt'.
  Proof.
    induction p as [|a k IH|a v p IH|a v p IH|p IH]; intros m m' Ha Hw; cbn in *.
    - split; [exact I|]. intros mt l q E. injection E as <- <- <-. eauto.
    - destruct Hw as (Hr & Hw). rewrite <- (Ha a Hr). destruct (m a) as [v|]; [|contradiction].
      destruct (IH v m m' Ha Hw) as (H1 & H2). auto.
    - destruct Hw as (Hr & Hn & Hw).
      assert (Ha' : agree (fun a => R a \/ W a) (gset m a v) (gset m' a v)).
      { intros b Hb. unfold GpuModel.gset. destruct (eqA a b); auto. }
      destruct (IH _ _ Ha' Hw) as (H1 & H2). split.
      + split; [exact Hr|]. split; [|exact H1]. rewrite <- (Ha a (or_intror Hr)). exact Hn.
      + intros mt l q E. rewrite <- (Ha a (or_intror Hr)). destruct (m a); [eauto|discriminate].
    - destruct Hw as (Hr & Hw). destruct (IH _ _ Ha Hw) as (H1 & H2). split; [auto|].
      intros mt l q E. destruct (exec p m) as [[[mt0 l0] q0]|]; [|discriminate]. injection E as <- <- <-.
      destruct (H2 _ _ _ eq_refl) as (mt' & -> & Hag). eauto.
    - split; [exact I|]. intros mt l q E. injection E as <- <- <-. eauto.
  Qed.

  (** ** Phases *)
  Record tinfo := Tinfo { tR : A -> Prop; tW : A -> Prop; tlog : list (A * V); tend : prg }.

  Section Block.
    Variables (Ac D O : A -> Prop).
    Definition tok (m m1 : mem) (p : prg) (t : tinfo) : Prop :=
      within Ac (tR t) (tW t) p m /\ exists mt, exec p m = Some (mt, tlog t, tend t) /\ forall c, tW t c -> mt c = m1 c.
    Definition apart (ts : list tinfo) : Prop :=
      forall i j t u, nth_error ts i = Some t -> nth_error ts j = Some u -> i <> j -> forall a, tW t a -> tR u a \/ tW u a -> False.
    Definition local (t : tinfo) : Prop := (forall a, tR t a -> D a) /\ (forall a, tW t a -> D a /\ O a).
    Definition phase (m m1 : mem) (ps : list prg) (ts : list tinfo) : Prop :=
      Forall2 (tok m m1) ps ts /\ apart ts /\ Forall local ts /\ forall a, D a -> m a = m1 a \/ Exists (fun t => tW t a) ts.

    (** A block from memory [m] with threads [ps] to the memory [m2] it leaves on [D]; [log] collects its additions. *)
    Inductive blockrun : mem -> list prg -> mem -> list (A * V) -> Prop :=
    | br_last m m1 ps ts : phase m m1 ps ts -> Forall (fun t => tend t = BRet) ts ->
        blockrun m ps m1 (flat_map tlog ts)
    | br_next m m1 m2 ps ts qs log : phase m m1 ps ts -> qs <> [] -> map tend ts = map BBar qs -> blockrun m1 qs m2 log ->
        blockrun m ps m2 (flat_map tlog ts ++ log).

    Lemma tok_frame m m' m1 p t : agree (fun a => tR t a \/ tW t a) m m' -> tok m m1 p t -> tok m' m1 p t.
    Proof.
      intros Ha (Hw & mt & E & Hm). destruct (exec_agree _ _ _ _ _ _ Ha Hw) as (H1 & H2).
      destruct (H2 _ _ _ E) as (mt' & E' & Hag). split; [exact H1|]. exists mt'. split; [exact E'|].
      intros c Hc. rewrite <- Hag by auto. auto.
    Qed.

    Lemma phase_ext m m' m1 ps ts : agree D m m' -> phase m m1 ps ts -> phase m' m1 ps ts.
    Proof.
      intros Ha (H1 & H2 & H3 & H4). repeat split; auto.
      - clear H2 H4. revert H3. induction H1 as [|p t ps ts Hp Hr IH]; intros H3; constructor; inversion H3 as [|? ? (L1 & L2) L3]; subst; auto.
        apply (tok_frame m); [|exact Hp]. intros a [Hc|Hc]; apply Ha; [auto|]. now apply L2.
      - intros a Hd. rewrite <- (Ha a Hd). auto.
    Qed.

    Lemma blockrun_ext m m' ps m2 log : agree D m m' -> blockrun m ps m2 log -> blockrun m' ps m2 log.
    Proof.
      intros Ha H. inversion H; subst.
      - eapply br_last; [eapply phase_ext; eauto|assumption].
      - eapply br_next; [eapply phase_ext; eauto| | |]; eassumption.
    Qed.

    (** The effect of somebody else's write. *)
    Lemma phase_foreign m m1 ps ts a v : ~ D a -> phase m m1 ps ts -> phase (gset m a v) m1 ps ts.
    Proof.
      intros Hn. apply phase_ext. intros b Hb. symmetry. apply gset_other. intros ->. contradiction.
    Qed.

    Lemma blockrun_foreign m ps m2 log a v : ~ D a -> blockrun m ps m2 log -> blockrun (gset m a v) ps m2 log.
    Proof. intros Hn. apply blockrun_ext. intros b Hb. symmetry. apply gset_other. intros ->. contradiction. Qed.

    Definition upd_log (t : tinfo) l := Tinfo (tR t) (tW t) l (tend t).

    Lemma apart_upd ts1 t ts2 l : apart (ts1 ++ t :: ts2) -> apart (ts1 ++ upd_log t l :: ts2).
    Proof.
      intros H.
      assert (G : forall i u, nth_error (ts1 ++ upd_log t l :: ts2) i = Some u ->
        exists w, nth_error (ts1 ++ t :: ts2) i = Some w /\ tR w = tR u /\ tW w = tW u).
      { intros i u E. destruct (Nat.lt_ge_cases i (length ts1)) as [Hl|Hl].
        - rewrite nth_error_app1 in * by auto. eauto.
        - rewrite nth_error_app2 in * by auto. destruct (i - length ts1)%nat; cbn in *; [|eauto].
          injection E as <-. exists t. auto. }
      intros i j u w Hi Hj Hne a. destruct (G _ _ Hi) as (u' & Hi' & E1 & E2), (G _ _ Hj) as (w' & Hj' & E3 & E4).
      rewrite <- E2, <- E3, <- E4. eauto.
    Qed.

    Lemma apart_mid ts1 t ts2 : apart (ts1 ++ t :: ts2) ->
      Forall (fun u => forall a, tW t a -> tR u a \/ tW u a -> False) (ts1 ++ ts2).
    Proof.
      intros H. apply Forall_forall. intros u Hu a Ha Hb.
      assert (Et : nth_error (ts1 ++ t :: ts2) (length ts1) = Some t) by (rewrite nth_error_app2, Nat.sub_diag by lia; reflexivity).
      apply in_app_or in Hu as [Hu|Hu]; apply In_nth_error in Hu as (n & Hn).
      - assert (Hl : (n < length ts1)%nat) by (apply nth_error_Some; congruence).
        eapply (H (length ts1) n t u); eauto; [|lia]. rewrite nth_error_app1 by lia. exact Hn.
      - eapply (H (length ts1) (length ts1 + S n)%nat t u); eauto; [|lia].
        rewrite nth_error_app2 by lia. replace (length ts1 + S n - length ts1)%nat with (S n) by lia. exact Hn.
    Qed.

    (** A step of one thread inside the phase. *)
    Lemma phase_thread m m1 ps1 p ps2 ts o : (forall a, Ac a -> ~ D a) -> (forall a, Ac a -> m a <> None) ->
      phase m m1 (ps1 ++ p :: ps2) ts -> bstep eqA addV (m, p) o ->
      exists m' p' ts1 t ts2 l d, o = Ok (m', p') /\ ts = ts1 ++ t :: ts2 /\ tlog t = d ++ l /\
        phase m' m1 (ps1 ++ p' :: ps2) (ts1 ++ upd_log t l :: ts2) /\
        ((d = [] /\ (m' = m \/ exists a v, m' = gset m a v /\ O a /\ D a /\ ~ Ac a)) \/
         exists a v x, d = [(a, v)] /\ Ac a /\ m a = Some x /\ m' = gset m a (addV x v)).
    Proof.
      intros HAc HAn (H1 & H2 & H3 & H4) Hs.
      apply Forall2_app_inv_l in H1 as (ts1 & ts' & Hf1 & Hf2 & ->). inversion Hf2 as [|? t ? ts2 (Hw & mt & E & Hm) Hf3]; subst. clear Hf2.
      assert (HL : local t) by (rewrite Forall_forall in H3; apply H3, in_elt).
      assert (HF : forall l, Forall local (ts1 ++ upd_log t l :: ts2)).
      { intros l. apply Forall_app in H3 as (A1 & A2). inversion A2; subst. apply Forall_app. split; [auto|]. constructor; auto. }
      assert (HN : forall l a, Exists (fun u => tW u a) (ts1 ++ t :: ts2) -> Exists (fun u => tW u a) (ts1 ++ upd_log t l :: ts2)).
      { intros l a Hf. apply Exists_app in Hf as [A1|A2]; apply Exists_app; [auto|]. right. inversion A2; subst; [now apply Exists_cons_hd|now apply Exists_cons_tl]. }
      assert (KEEP : forall l p', tok m m1 p' (upd_log t l) -> phase m m1 (ps1 ++ p' :: ps2) (ts1 ++ upd_log t l :: ts2)).
      { intros l p' Ht. repeat split; auto.
        - apply Forall2_app; [exact Hf1|]. constructor; auto.
        - now apply apart_upd.
        - intros a Hd. destruct (H4 a Hd); auto. }
      assert (ET : t = upd_log t (tlog t)) by (destruct t; reflexivity).
      inversion Hs as [? a k v Hma|? a k Hma|? a v q Hma|? a v q Hma|? a v q x Hma|? a v q Hma]; subst; cbn in Hw, E.
      - exists m, (k v), ts1, t, ts2, (tlog t), []. repeat (split; [reflexivity|]). split; [|left; auto].
        rewrite Hma in Hw, E. destruct Hw as (_ & Hw). apply KEEP. split; [exact Hw|]. exists mt. auto.
      - rewrite Hma in E. discriminate.
      - destruct Hw as (Hwa & Hn & Hw). destruct (m a) as [x|] eqn:Ea; [|contradiction].
        exists (gset m a v), q, ts1, t, ts2, (tlog t), []. repeat (split; [reflexivity|]). split.
        2:{ left. split; [reflexivity|]. right. exists a, v. destruct HL as (_ & HL). destruct (HL a Hwa). repeat split; auto. intros Hc. now apply (HAc a). }
        pose proof (apart_mid _ _ _ H2) as Hap. apply Forall_app in Hap as (Hap1 & Hap2).
        assert (FR : forall ps us, Forall2 (tok m m1) ps us -> Forall (fun u => forall c, tW t c -> tR u c \/ tW u c -> False) us -> Forall2 (tok (gset m a v) m1) ps us).
        { induction 1 as [|z u qs us Hq Hqs IH]; intros Hx; constructor; inversion Hx; subst; auto.
          apply (tok_frame m); [|exact Hq]. intros b Hb. symmetry. apply gset_other. intros <-. eauto. }
        repeat split; auto.
        + apply Forall2_app; [auto|]. constructor; auto. split; [exact Hw|]. exists mt. auto.
        + now apply apart_upd.
        + intros b Hd. destruct (eqA a b) eqn:Eab.
          * apply eqA_spec in Eab. subst b. right. apply HN, Exists_app. right. now apply Exists_cons_hd.
          * rewrite gset_other by (intros ->; rewrite (proj2 (eqA_spec b b) eq_refl) in Eab; discriminate). destruct (H4 b Hd); auto.
      - rewrite Hma in E. discriminate.
      - destruct Hw as (Hwa & Hw). destruct (exec q m) as [[[mt0 l0] q0]|] eqn:E0; [|discriminate].
        injection E as -> El Eq.
        exists (gset m a (addV x v)), q, ts1, t, ts2, l0, [(a, v)]. split; [reflexivity|]. split; [reflexivity|]. split; [now rewrite <- El|].
        split; [|right; exists a, v, x; auto].
        apply phase_foreign; [now apply HAc|]. apply KEEP. split; [exact Hw|]. exists mt. cbn. rewrite E0, Eq. auto.
      - destruct Hw as (Hwa & _). exfalso. eapply HAn; eauto.
    Qed.

    (** All threads have arrived. *)
    Lemma phase_arrived m m1 ps ts : phase m m1 ps ts -> Forall (fun p => exec p m = Some (m, [], p)) ps ->
      agree D m m1 /\ map tend ts = ps /\ flat_map tlog ts = [].
    Proof.
      intros (H1 & H2 & H3 & H4) Hp.
      assert (G : map tend ts = ps /\ flat_map tlog ts = [] /\ Forall (fun t => forall c, tW t c -> m c = m1 c) ts).
      { clear H2 H3 H4. induction H1 as [|p t ps ts (Hw & mt & E & Hm) Hr IH]; [cbn; auto|]. inversion Hp as [|? ? Hp1 Hp2]; subst.
        rewrite Hp1 in E. injection E as <- El Ee. destruct (IH Hp2) as (G1 & G2 & G3). cbn. rewrite G1, G2, <- El, <- Ee. auto. }
      destruct G as (G1 & G2 & G3). split; [|auto]. intros a Hd.
      destruct (H4 a Hd) as [E|E]; [exact E|]. apply Exists_exists in E as (t & Hin & Hw). rewrite Forall_forall in G3. eauto.
    Qed.

    Lemma phase_moves m m1 ps ts : (forall a, Ac a -> m a <> None) -> phase m m1 ps ts ->
      Forall (fun p => exec p m = Some (m, [], p)) ps \/
      exists ps1 p ps2 m' p', ps = ps1 ++ p :: ps2 /\ bstep eqA addV (m, p) (Ok (m', p')).
    Proof.
      intros HAn (H1 & _). induction H1 as [|p t ps ts (Hw & mt & E & Hm) Hr IH]; [left; constructor|].
      destruct IH as [IH|(ps1 & q & ps2 & m' & q' & -> & Hs)].
      2:{ right. exists (p :: ps1), q, ps2, m', q'. auto. }
      destruct p as [|a k|a v q|a v q|q]; cbn in Hw.
      - left. constructor; auto.
      - right. destruct Hw as (_ & Hw). destruct (m a) as [x|] eqn:Ea; [|contradiction].
        exists [], (BRd a k), ps, m, (k x). split; [reflexivity|]. now constructor.
      - right. destruct Hw as (_ & Hw & _). exists [], (BWr a v q), ps, (gset m a v), q. split; [reflexivity|]. now constructor.
      - right. destruct Hw as (Hw & _). destruct (m a) as [x|] eqn:Ea; [|exfalso; eapply HAn; eauto].
        exists [], (BAdd a v q), ps, (gset m a (addV x v)), q. split; [reflexivity|]. now constructor.
      - left. constructor; auto.
    Qed.
  End Block.

  (** ** The grid *)
  Record binfo := Binfo { bD : A -> Prop; bO : A -> Prop; bEnd : mem; bLog : list (A * V) }.
  Variable Ac : A -> Prop.
  Definition bok (m : mem) (ps : list prg) (b : binfo) : Prop := blockrun Ac (bD b) (bO b) m ps (bEnd b) (bLog b).
  Definition bapart (bs : list binfo) : Prop :=
    forall i j b c, nth_error bs i = Some b -> nth_error bs j = Some c -> i <> j -> forall a, bO b a -> bD c a -> False.
  Definition noacc (b : binfo) : Prop := forall a, Ac a -> ~ bD b a.
  (** The value of a cell after a list of additions. *)
  Definition added (l : list (A * V)) (a : A) (x : V) : V :=
    fold_left (fun x e => if eqA (fst e) a then addV x (snd e) else x) l x.

  Definition ginv (m0 : mem) (tot : list (A * V)) (bs0 : list binfo) (c : grid (A := A) (V := V)) : Prop :=
    exists bs done, Forall2 (bok (fst c)) (snd c) bs /\ bapart bs /\ Forall noacc bs /\
      Forall2 (fun b b0 => bD b = bD b0 /\ bO b = bO b0 /\ bEnd b = bEnd b0) bs bs0 /\
      Permutation (done ++ flat_map bLog bs) tot /\
      (forall a, Ac a -> fst c a <> None) /\
      (forall a, Ac a -> fst c a = option_map (added done a) (m0 a)) /\
      (forall a, ~ Ac a -> fst c a = m0 a \/ Exists (fun b => bO b a) bs).

  Definition with_log (b : binfo) l := Binfo (bD b) (bO b) (bEnd b) l.

  Lemma bapart_upd bs1 b bs2 l : bapart (bs1 ++ b :: bs2) -> bapart (bs1 ++ with_log b l :: bs2).
  Proof.
    intros H.
    assert (G : forall i u, nth_error (bs1 ++ with_log b l :: bs2) i = Some u ->
      exists w, nth_error (bs1 ++ b :: bs2) i = Some w /\ bD w = bD u /\ bO w = bO u).
    { intros i u E. destruct (Nat.lt_ge_cases i (length bs1)) as [Hl|Hl].
      - rewrite nth_error_app1 in * by auto. eauto.
      - rewrite nth_error_app2 in * by auto. destruct (i - length bs1)%nat; cbn in *; [|eauto].
        injection E as <-. exists b. auto. }
    intros i j u w Hi Hj Hne a. destruct (G _ _ Hi) as (u' & Hi' & E1 & E2), (G _ _ Hj) as (w' & Hj' & E3 & E4).
    rewrite <- E2, <- E3. eauto.
  Qed.

  Lemma bapart_mid bs1 b bs2 : bapart (bs1 ++ b :: bs2) -> Forall (fun u => forall a, bO b a -> bD u a -> False) (bs1 ++ bs2).
  Proof.
    intros H. apply Forall_forall. intros u Hu a Ha Hb.
    assert (Et : nth_error (bs1 ++ b :: bs2) (length bs1) = Some b) by (rewrite nth_error_app2, Nat.sub_diag by lia; reflexivity).
    apply in_app_or in Hu as [Hu|Hu]; apply In_nth_error in Hu as (n & Hn).
    - assert (Hl : (n < length bs1)%nat) by (apply nth_error_Some; congruence).
      eapply (H (length bs1) n b u); eauto; [|lia]. rewrite nth_error_app1 by lia. exact Hn.
    - eapply (H (length bs1) (length bs1 + S n)%nat b u); eauto; [|lia].
      rewrite nth_error_app2 by lia. replace (length bs1 + S n - length bs1)%nat with (S n) by lia. exact Hn.
  Qed.

  Lemma foreign_all m a v B bs : Forall2 (bok m) B bs -> Forall (fun u => ~ bD u a) bs -> Forall2 (bok (gset m a v)) B bs.
  Proof. induction 1; intros Hf; constructor; inversion Hf; subst; auto. now apply blockrun_foreign. Qed.

  Lemma added_app l l' a x : added (l ++ l') a x = added l' a (added l a x).
  Proof. apply fold_left_app. Qed.

  (** A thread step. *)
  Lemma ginv_thread m0 tot bs0 m B1 ps1 p ps2 B2 o : ginv m0 tot bs0 (m, B1 ++ (ps1 ++ p :: ps2) :: B2) -> bstep eqA addV (m, p) o ->
    exists m' p', o = Ok (m', p') /\ ginv m0 tot bs0 (m', B1 ++ (ps1 ++ p' :: ps2) :: B2).
  Proof.
    intros (bs & done & H1 & H2 & H3 & H4 & H5 & H6 & H7 & H8) Hs. cbn in *.
    apply Forall2_app_inv_l in H1 as (bs1 & bs' & Hf1 & Hf2 & ->). inversion Hf2 as [|? b ? bs2 Hb Hf3]; subst. clear Hf2.
    assert (HNb : noacc b) by (rewrite Forall_forall in H3; apply H3, in_elt).
    assert (CORE : exists m' p' l d, o = Ok (m', p') /\ Permutation (bLog b) (d ++ l) /\ bok m' (ps1 ++ p' :: ps2) (with_log b l) /\
       ((d = [] /\ (m' = m \/ exists a v, m' = gset m a v /\ bO b a /\ bD b a /\ ~ Ac a)) \/
         exists a v x, d = [(a, v)] /\ Ac a /\ m a = Some x /\ m' = gset m a (addV x v))).
    { inversion Hb as [? m1 ? ts Hph He Em Ep Eend Elog|? m1 ? ? ts qs log Hph Hq He Hr Em Ep Eend Elog]; subst.
      - destruct (phase_thread Ac (bD b) (bO b) _ _ _ _ _ _ _ HNb H6 Hph Hs) as (m' & p' & ts1 & t & ts2 & l & d & -> & -> & El & Hph' & Hd).
        assert (He' : Forall (fun t => tend t = BRet) (ts1 ++ upd_log t l :: ts2)).
        { apply Forall_app in He as (A1 & A2). inversion A2; subst. apply Forall_app. split; [auto|]. constructor; auto. }
        exists m', p', (flat_map tlog (ts1 ++ upd_log t l :: ts2)), d. split; [reflexivity|]. split; [|split; [|exact Hd]].
        + rewrite !flat_map_app. cbn. rewrite El. rewrite <- !app_assoc. apply Permutation_app_swap_app.
        + apply (br_last _ _ _ m' (bEnd b) _ _ Hph' He').
      - destruct (phase_thread Ac (bD b) (bO b) _ _ _ _ _ _ _ HNb H6 Hph Hs) as (m' & p' & ts1 & t & ts2 & l & d & -> & -> & El & Hph' & Hd).
        exists m', p', (flat_map tlog (ts1 ++ upd_log t l :: ts2) ++ log), d. split; [reflexivity|]. split; [|split; [|exact Hd]].
        + rewrite !flat_map_app. cbn. rewrite El. rewrite <- !app_assoc. apply Permutation_app_swap_app.
        + apply (br_next _ _ _ m' m1 (bEnd b) _ _ qs log Hph' Hq); [|exact Hr]. rewrite <- He, !map_app. reflexivity. }
    destruct CORE as (m' & p' & l & d & -> & Hl & Hb' & Hd). exists m', p'. split; [reflexivity|].
    pose proof (bapart_mid _ _ _ H2) as Hap. apply Forall_app in Hap as (Hap1 & Hap2).
    apply Forall_app in H3 as (N1 & N2). inversion N2 as [|? ? _ N3]; subst.
    assert (OTH : Forall2 (bok m') B1 bs1 /\ Forall2 (bok m') B2 bs2).
    { destruct Hd as [(_ & [->|(a & v & -> & Ho & _)])|(a & v & x & _ & Ha & _ & ->)]; [auto| |].
      - split; apply foreign_all; auto; [eapply Forall_impl; [|exact Hap1]|eapply Forall_impl; [|exact Hap2]]; cbn; eauto.
      - split; apply foreign_all; auto; [eapply Forall_impl; [|exact N1]|eapply Forall_impl; [|exact N3]]; intros u Hu; now apply Hu. }
    destruct OTH as (O1 & O2).
    exists (bs1 ++ with_log b l :: bs2), (done ++ d). cbn. split; [|split; [|split; [|split; [|split; [|split; [|split]]]]]].
    - apply Forall2_app; [exact O1|]. constructor; auto.
    - now apply bapart_upd.
    - apply Forall_app. split; [auto|]. constructor; auto.
    - apply Forall2_app_inv_l in H4 as (x1 & x2 & G1 & G2 & ->). inversion G2; subst. apply Forall2_app; [auto|]. constructor; auto.
    - rewrite <- H5. rewrite !flat_map_app. cbn. rewrite Hl. rewrite <- !app_assoc. apply Permutation_app_head, Permutation_app_swap_app.
    - intros a Ha. destruct Hd as [(_ & [->|(a' & v & -> & _ & Hd' & Hac)])|(a' & v & x & _ & _ & _ & ->)]; auto.
      + rewrite gset_other; [auto|]. intros ->. contradiction.
      + unfold GpuModel.gset. destruct (eqA a' a); [discriminate|auto].
    - intros a Ha. destruct Hd as [(-> & [->|(a' & v & -> & _ & Hd' & Hac)])|(a' & v & x & -> & _ & Hx & ->)].
      + rewrite app_nil_r. auto.
      + rewrite app_nil_r, gset_other; [auto|]. intros ->. contradiction.
      + specialize (H7 a Ha). unfold GpuModel.gset. destruct (eqA a' a) eqn:E.
        * apply eqA_spec in E. subst a'. rewrite Hx in H7. destruct (m0 a) as [y|]; [|discriminate]. cbn in *.
          injection H7 as ->. rewrite added_app. cbn. now rewrite (proj2 (eqA_spec a a) eq_refl).
        * rewrite H7. destruct (m0 a) as [y|]; [|reflexivity]. cbn. rewrite added_app. cbn. now rewrite E.
    - assert (UP : forall a, Exists (fun u => bO u a) (bs1 ++ b :: bs2) -> Exists (fun u => bO u a) (bs1 ++ with_log b l :: bs2)).
      { intros a Hf. apply Exists_app in Hf as [A1|A2]; apply Exists_app; [auto|]. right. inversion A2; subst; [now apply Exists_cons_hd|now apply Exists_cons_tl]. }
      intros a Ha. destruct Hd as [(-> & [->|(a' & v & -> & Ho & Hd' & Hac)])|(a' & v & x & -> & Ha' & Hx & ->)].
      + destruct (H8 a Ha); auto.
      + destruct (eqA a' a) eqn:E.
        * apply eqA_spec in E. subst a'. right. apply UP, Exists_app. right. now apply Exists_cons_hd.
        * unfold GpuModel.gset. rewrite E. destruct (H8 a Ha); auto.
      + rewrite gset_other by (intros ->; contradiction). destruct (H8 a Ha); auto.
  Qed.

  Lemma ginv_bar m0 tot bs0 m B1 qs B2 : qs <> [] -> ginv m0 tot bs0 (m, B1 ++ map BBar qs :: B2) -> ginv m0 tot bs0 (m, B1 ++ qs :: B2).
  Proof.
    intros Hq (bs & done & H1 & H2 & H3 & H4 & H5 & H6 & H7 & H8). cbn in *.
    apply Forall2_app_inv_l in H1 as (bs1 & bs' & Hf1 & Hf2 & ->). inversion Hf2 as [|? b ? bs2 Hb Hf3]; subst. clear Hf2.
    assert (AT : Forall (fun p => exec p m = Some (m, [], p)) (map BBar qs)) by (clear; induction qs; constructor; auto).
    assert (HB : bok m qs b).
    { unfold bok in *. inversion Hb as [? m1 ? ts Hph He Em Ep Eend Elog|? m1 ? ? ts qs' log Hph Hq' He Hr Em Ep Eend Elog]; subst.
      - destruct (phase_arrived _ _ _ _ _ _ _ Hph AT) as (_ & Et & _). exfalso.
        destruct qs as [|q qs]; [contradiction|]. destruct ts as [|t ts]; [discriminate|]. cbn in Et. inversion He; subst. congruence.
      - destruct (phase_arrived _ _ _ _ _ _ _ Hph AT) as (Hag & Et & El). rewrite He in Et.
        assert (qs' = qs) as ->. { clear -Et. revert qs Et. induction qs' as [|x l IH]; intros [|y qs] E; try discriminate; [reflexivity|]. cbn in E. injection E as -> E. f_equal. auto. }
        rewrite El. cbn. apply (blockrun_ext _ _ _ m1); [|exact Hr]. intros a Ha. symmetry. auto. }
    exists (bs1 ++ b :: bs2), done. cbn. repeat (split; [first [assumption|apply Forall2_app; [assumption|constructor; assumption]]|]). assumption.
  Qed.

  Lemma ginv_step m0 tot bs0 c o : ginv m0 tot bs0 c -> bgstep eqA addV c o -> exists c', o = Ok c' /\ ginv m0 tot bs0 c'.
  Proof.
    intros Hi Hs. inversion Hs; subst.
    - destruct (ginv_thread _ _ _ _ _ _ _ _ _ _ Hi H) as (x & y & E & Hi'). injection E as <- <-. eauto.
    - destruct (ginv_thread _ _ _ _ _ _ _ _ _ _ Hi H) as (x & y & E & Hi'). discriminate.
    - eexists. split; [reflexivity|]. now apply ginv_bar.
  Qed.

  Lemma ginv_steps m0 tot bs0 c o : ginv m0 tot bs0 c -> bgsteps eqA addV c o -> exists c', o = Ok c' /\ ginv m0 tot bs0 c'.
  Proof.
    intros Hi Hs. induction Hs as [c|c c' o H1 H2 IH|c H1]; [eauto| |].
    - destruct (ginv_step _ _ _ _ _ Hi H1) as (x & E & Hi'). injection E as <-. auto.
    - destruct (ginv_step _ _ _ _ _ Hi H1) as (x & E & _). discriminate.
  Qed.

  (** No deadlock. *)
  Lemma ginv_moves m0 tot bs0 c : ginv m0 tot bs0 c -> grid_done c \/ exists c', bgstep eqA addV c (Ok c').
  Proof.
    intros (bs & done & H1 & H2 & H3 & H4 & H5 & H6 & H7 & H8). destruct c as [m B]. unfold grid_done. cbn in *. clear H2 H3 H4 H5 H7 H8.
    induction H1 as [|ps b B bs Hb Hr IH]; [left; constructor|].
    destruct IH as [IH|((m' & B') & IH)].
    2:{ right. inversion IH; subst.
        - eexists. apply (bg_ok eqA addV m (ps :: B1)). eassumption.
        - eexists. apply (bg_bar eqA addV _ (ps :: B1)). assumption. }
    assert (G : Forall (fun p => p = BRet) ps \/ (exists qs, qs <> [] /\ ps = map BBar qs) \/
       exists ps1 p ps2 m' p', ps = ps1 ++ p :: ps2 /\ bstep eqA addV (m, p) (Ok (m', p'))).
    { unfold bok in Hb. inversion Hb as [? m1 ? ts Hph He Em Ep Eend Elog|? m1 ? ? ts qs' log Hph Hq' He Hr' Em Ep Eend Elog]; subst.
      - destruct (phase_moves _ _ _ _ _ _ _ H6 Hph) as [AT|MV]; [|auto].
        destruct (phase_arrived _ _ _ _ _ _ _ Hph AT) as (_ & Et & _). left. rewrite <- Et. apply Forall_map. exact He.
      - destruct (phase_moves _ _ _ _ _ _ _ H6 Hph) as [AT|MV]; [|auto].
        destruct (phase_arrived _ _ _ _ _ _ _ Hph AT) as (_ & Et & _). right. left. exists qs'. split; [auto|]. congruence. }
    destruct G as [G|[(qs & Hq & ->)|(ps1 & p & ps2 & m' & p' & -> & Hs)]].
    - left. constructor; auto.
    - right. eexists. apply (bg_bar eqA addV m []). assumption.
    - right. eexists. apply (bg_ok eqA addV m []). eassumption.
  Qed.

  (** At the end. *)
  Lemma ginv_done m0 tot bs0 m B : ginv m0 tot bs0 (m, B) -> grid_done (m, B) ->
    Forall (fun b => agree (bD b) m (bEnd b)) bs0 /\
    (forall a, Ac a -> exists l, Permutation l tot /\ m a = option_map (added l a) (m0 a)) /\
    (forall a, ~ Ac a -> m a = m0 a \/ Exists (fun b => bO b a) bs0).
  Proof.
    intros (bs & done & H1 & H2 & H3 & H4 & H5 & H6 & H7 & H8) Hd. unfold grid_done in Hd. cbn in *.
    assert (G : Forall (fun b => agree (bD b) m (bEnd b)) bs /\ flat_map bLog bs = []).
    { clear H2 H3 H4 H5 H6 H7 H8. induction H1 as [|ps b B bs Hb Hr IH]; [cbn; auto|]. inversion Hd as [|? ? Hp Hd']; subst.
      destruct (IH Hd') as (IH1 & IH2). cbn. rewrite IH2, app_nil_r.
      assert (AT : Forall (fun p => exec p m = Some (m, [], p)) ps) by (eapply Forall_impl; [|exact Hp]; cbn; intros ? ->; reflexivity).
      unfold bok in Hb. inversion Hb as [? m1 ? ts Hph He Em Ep Eend Elog|? m1 ? ? ts qs' log Hph Hq' He Hr' Em Ep Eend Elog]; subst.
      - destruct (phase_arrived _ _ _ _ _ _ _ Hph AT) as (Hag & _ & El). auto.
      - destruct (phase_arrived _ _ _ _ _ _ _ Hph AT) as (_ & Et & _). exfalso. rewrite He in Et. subst ps.
        destruct qs' as [|q qs]; [contradiction|]. inversion Hp; subst. discriminate. }
    destruct G as (G1 & G2). rewrite G2, app_nil_r in H5. repeat split.
    - clear -G1 H4. induction H4 as [|b b0 bs bs0 (E1 & E2 & E3) Hr IH]; constructor; inversion G1; subst; auto. now rewrite <- E1, <- E3.
    - intros a Ha. exists done. split; [exact H5|]. auto.
    - intros a Ha. destruct (H8 a Ha) as [E|E]; [auto|right]. clear -H4 E. induction H4 as [|b b0 bs bs0 (E1 & E2 & E3) Hr IH]; inversion E; subst.
      + apply Exists_cons_hd. now rewrite <- E2.
      + apply Exists_cons_tl. auto.
  Qed.

  (** ** Termination, whatever the programs. *)
  Inductive sub : prg -> prg -> Prop :=
  | sub_rd a k v : sub (k v) (BRd a k) | sub_wr a v p : sub p (BWr a v p)
  | sub_add a v p : sub p (BAdd a v p) | sub_bar p : sub p (BBar p).
  Lemma sub_wf p : Acc sub p.
  Proof. induction p; constructor; intros q Hq; inversion Hq; subst; auto. Qed.
  Inductive lsub : list prg -> list prg -> Prop := lsub_intro l1 p q l2 : sub q p -> lsub (l1 ++ q :: l2) (l1 ++ p :: l2).
  Lemma lsub_wf l : Acc lsub l.
  Proof.
    induction l as [|p l IH].
    - constructor. intros y Hy. inversion Hy. destruct l1; discriminate.
    - revert l IH. induction (sub_wf p) as [p _ IHp]. intros l IH. induction IH as [l Hl IHl].
      constructor. intros y Hy. inversion Hy as [l1 a b l2 Hs E1 E2]. destruct l1 as [|z l1]; cbn in *; injection E2 as -> E2; subst.
      + apply IHp; [exact Hs|]. constructor. exact Hl.
      + apply IHl. now constructor.
  Qed.
  Lemma bars_trans l1 qs l2 : qs <> [] -> clos_trans _ lsub (l1 ++ qs ++ l2) (l1 ++ map BBar qs ++ l2).
  Proof.
    revert l1. induction qs as [|q qs IH]; intros l1 Hq; [contradiction|]. destruct qs as [|q' qs].
    - apply t_step. cbn. constructor. constructor.
    - apply t_trans with (l1 ++ BBar q :: (q' :: qs) ++ l2).
      + apply t_step. cbn. constructor. constructor.
      + specialize (IH (l1 ++ [BBar q]) ltac:(discriminate)). rewrite <- !app_assoc in IH. exact IH.
  Qed.
  Lemma grid_always_ends c : grid_ends eqA addV c.
  Proof.
    destruct c as [m B]. unfold grid_ends.
    assert (H : Acc (clos_trans _ lsub) (concat B)) by (apply Acc_clos_trans, lsub_wf).
    remember (concat B) as L eqn:E. revert m B E. induction H as [L _ IH]. intros m B ->. constructor. intros (m' & B') Hs.
    apply (IH (concat B')); [|reflexivity]. inversion Hs; subst; rewrite !concat_app; cbn.
    - rewrite <- !app_assoc. cbn. rewrite !app_assoc. apply t_step. constructor.
      match goal with H : bstep _ _ _ _ |- _ => inversion H; subst; constructor end.
    - apply bars_trans. assumption.
  Qed.

  (** ** The rule *)
  Theorem grid_correct m0 B bs : Forall2 (bok m0) B bs -> bapart bs -> Forall noacc bs -> (forall a, Ac a -> m0 a <> None) ->
    grid_ends eqA addV (m0, B) /\
    forall o, bgsteps eqA addV (m0, B) o -> exists c, o = Ok c /\
      (grid_done c \/ exists c', bgstep eqA addV c (Ok c')) /\
      (grid_done c -> Forall (fun b => agree (bD b) (fst c) (bEnd b)) bs /\
        (forall a, Ac a -> exists l, Permutation l (flat_map bLog bs) /\ fst c a = option_map (added l a) (m0 a)) /\
        (forall a, ~ Ac a -> fst c a = m0 a \/ Exists (fun b => bO b a) bs)).
  Proof.
    intros H1 H2 H3 H4. split; [apply grid_always_ends|]. intros o Hs.
    assert (Hi : ginv m0 (flat_map bLog bs) bs (m0, B)).
    { exists bs, []. cbn. repeat split; auto.
      - clear. induction bs; constructor; auto.
      - intros a Ha. destruct (m0 a); reflexivity. }
    destruct (ginv_steps _ _ _ _ _ Hi Hs) as (c & -> & Hc). exists c. split; [reflexivity|]. split; [eapply ginv_moves; eauto|].
    intros Hd. destruct c as [m B']. eapply ginv_done; eauto.
  Qed.
End G.
