(** Grids whose threads read cells that nobody writes and write cells that nobody else touches. *)
From Verif Require Export GpuFacts.
From Coq Require Import Lia.

Section S.
  Context {A V : Type} (eqA : A -> A -> bool) (eqA_spec : forall x y, eqA x y = true <-> x = y) (addV : V -> V -> V).
  Notation mem := (gpumem (A := A) (V := V)).
  Notation prg := (bprog A V).
  Notation gset := (gset eqA).

  Definition put_all (ws : list (A * V)) (m : mem) : mem := fold_left (fun m w => gset m (fst w) (snd w)) ws m.
  Lemma put_all_app ws ws' m : put_all (ws ++ ws') m = put_all ws' (put_all ws m).
  Proof. apply fold_left_app. Qed.
  Lemma put_all_other ws : forall m a, ~ In a (map fst ws) -> put_all ws m a = m a.
  Proof.
    induction ws as [|[b v] ws IH]; intros m a Ha; [reflexivity|]. cbn in *. rewrite IH by tauto. apply gset_other; auto.
  Qed.
  Lemma put_all_in ws : forall m a v, NoDup (map fst ws) -> In (a, v) ws -> put_all ws m a = Some v.
  Proof.
    induction ws as [|[b w] ws IH]; intros m a v Hn Hi; [destruct Hi|]. cbn in *. inversion Hn as [|? ? Hb Hn']; subst.
    destruct Hi as [E|Hi]; [|auto]. injection E as -> ->. rewrite put_all_other by exact Hb. apply gset_same; auto.
  Qed.

  (** From any memory like [m] on [RO], [p] writes [ws] in this order and arrives at [e]. *)
  Inductive writer (RO : A -> Prop) (m : mem) (e : prg) : prg -> list (A * V) -> Prop :=
  | wr_end : writer RO m e e []
  | wr_rd a k v ws : RO a -> m a = Some v -> writer RO m e (k v) ws -> writer RO m e (BRd a k) ws
  | wr_wr a v p ws : m a <> None -> writer RO m e p ws -> writer RO m e (BWr a v p) ((a, v) :: ws).

  Lemma writer_app RO m q e p ws ws' : writer RO m q p ws -> writer RO m e q ws' -> writer RO m e p (ws ++ ws').
  Proof. induction 1; cbn; intros H'; [auto|econstructor; eauto|constructor; auto]. Qed.

  Definition arrived (e : prg) : Prop := e = BRet \/ exists q, e = BBar q.

  Lemma writer_exec RO (Ac W : A -> Prop) m e p ws : arrived e -> writer RO m e p ws ->
    (forall a, In a (map fst ws) -> W a) -> (forall a, W a -> ~ RO a) ->
    forall m', agree RO m m' -> (forall a, m a <> None -> m' a <> None) ->
    within eqA Ac RO W p m' /\ exec eqA p m' = Some (put_all ws m', [], e).
  Proof.
    intros He Hw. induction Hw as [|a k v ws Ha Hv Hw IH|a v p ws Ha Hw IH]; intros HW HR m' Hag Hn.
    - destruct He as [->|(q & ->)]; cbn; auto.
    - cbn. rewrite <- (Hag a Ha), Hv. destruct (IH HW HR m' Hag Hn) as (H1 & H2). split; [split; auto|exact H2].
    - cbn in HW. assert (Wa : W a) by (apply HW; cbn; auto).
      assert (G1 : agree RO m (gset m' a v)).
      { intros b Hb. rewrite gset_other; auto. intros ->. exact (HR _ Wa Hb). }
      assert (G2 : forall b, m b <> None -> gset m' a v b <> None).
      { intros b Hb. unfold GpuModel.gset. destruct (eqA a b); [discriminate|auto]. }
      destruct (IH (fun b Hb => HW b (or_intror Hb)) HR _ G1 G2) as (H1 & H2). cbn. split; [split; [exact Wa|split; auto]|].
      destruct (m' a) eqn:E; [exact H2|]. exfalso. exact (Hn a Ha E).
  Qed.

  (** The threads of a block up to their next barrier. *)
  Definition writes (wss : list (list (A * V))) : list A := map fst (concat wss).
  Definition wtinfo (RO : A -> Prop) (ws : list (A * V)) (e : prg) : @tinfo A V := Tinfo RO (fun a => In a (map fst ws)) [] e.

  Lemma nodup_concat_other (wss : list (list (A * V))) i j x y a : NoDup (writes wss) -> nth_error wss i = Some x -> nth_error wss j = Some y ->
    i <> j -> In a (map fst x) -> In a (map fst y) -> False.
  Proof.
    unfold writes. revert i j. induction wss as [|w wss IH]; intros i j Hn Hi Hj Hne Hx Hy; [destruct i; discriminate|].
    cbn in Hn. rewrite map_app in Hn.
    assert (Hin : forall k z, nth_error wss k = Some z -> In a (map fst z) -> In a (map fst (concat wss))).
    { intros k z Hk Hz. apply in_map_iff in Hz as (u & <- & Hu). apply in_map, in_concat. exists z. split; [eapply nth_error_In; eauto|exact Hu]. }
    assert (Hd : In a (map fst w) -> In a (map fst (concat wss)) -> False).
    { clear - Hn. intros H1 H2. induction (map fst w) as [|b l IHl]; [destruct H1|]. cbn in Hn. inversion Hn; subst.
      destruct H1 as [->|H1]; [|auto]. apply H3. apply in_or_app. auto. }
    assert (Hr : NoDup (map fst (concat wss))) by (clear - Hn; induction (map fst w); cbn in *; auto; inversion Hn; auto).
    destruct i as [|i], j as [|j]; cbn in *; try congruence.
    - injection Hi as ->. eauto.
    - injection Hj as ->. eauto.
    - eapply (IH i j); eauto.
  Qed.
  Lemma nodup_part (wss : list (list (A * V))) i x : NoDup (writes wss) -> nth_error wss i = Some x -> NoDup (map fst x).
  Proof.
    unfold writes. revert i. induction wss as [|w wss IH]; intros i Hn Hi; [destruct i; discriminate|]. cbn in Hn. rewrite map_app in Hn.
    destruct i; cbn in Hi; [injection Hi as <-|].
    - clear - Hn. induction (map fst w); [constructor|]. cbn in Hn. inversion Hn; subst. constructor; auto. intros H. apply H1. apply in_or_app. auto.
    - apply (IH i); auto. clear - Hn. induction (map fst w); cbn in *; auto. inversion Hn; auto.
  Qed.

  Lemma Forall2_nth {X Y} (P : X -> Y -> Prop) l l' : length l = length l' ->
    (forall i x y, nth_error l i = Some x -> nth_error l' i = Some y -> P x y) -> Forall2 P l l'.
  Proof.
    revert l'. induction l as [|x l IH]; intros [|y l'] HL H; cbn in HL; try discriminate; constructor.
    - apply (H 0%nat); reflexivity.
    - apply IH; [lia|]. intros i a b Ha Hb. apply (H (S i)); assumption.
  Qed.
  Lemma Forall2_pick {X Y} (P : X -> Y -> Prop) l l' i x y : Forall2 P l l' -> nth_error l i = Some x -> nth_error l' i = Some y -> P x y.
  Proof. intros H; revert i; induction H; intros [|i]; cbn; try discriminate; intros E1 E2; [congruence|eauto]. Qed.
  Lemma F2_length {X Y} (P : X -> Y -> Prop) l l' : Forall2 P l l' -> length l = length l'.
  Proof. induction 1; cbn; auto. Qed.
  Lemma in_part (wss : list (list (A * V))) i x a : nth_error wss i = Some x -> In a (map fst x) -> In a (writes wss).
  Proof.
    intros Hi Ha. unfold writes. apply in_map_iff in Ha as (u & <- & Hu). apply in_map, in_concat. exists x. split; [eapply nth_error_In; eauto|exact Hu].
  Qed.

  Lemma phase_writes (Ac D O RO : A -> Prop) m ps wss es :
    length wss = length ps -> length es = length ps ->
    (forall i p ws e, nth_error ps i = Some p -> nth_error wss i = Some ws -> nth_error es i = Some e -> arrived e /\ writer RO m e p ws) ->
    NoDup (writes wss) -> (forall a, In a (writes wss) -> ~ RO a) -> (forall a, RO a -> D a) -> (forall a, In a (writes wss) -> D a /\ O a) ->
    phase eqA Ac D O m (put_all (concat wss) m) ps (map (fun we => wtinfo RO (fst we) (snd we)) (combine wss es)).
  Proof.
    intros L1 L2 Hw Hn Hr HD HO.
    assert (HN : forall i t, nth_error (map (fun we => wtinfo RO (fst we) (snd we)) (combine wss es)) i = Some t ->
      exists ws e, nth_error wss i = Some ws /\ nth_error es i = Some e /\ t = wtinfo RO ws e).
    { clear - L1 L2. intros i t. rewrite <- L2 in L1. clear L2. revert es i L1. induction wss as [|w wss IH]; intros [|e es] i L1 H; cbn in *; try discriminate;
        try (destruct i; discriminate). destruct i as [|i]; cbn in *.
      - injection H as <-. eauto.
      - eapply IH; [|exact H]. lia. }
    split; [|split; [|split]].
    - apply Forall2_nth; [rewrite map_length, combine_length; lia|].
      intros i p t Hp Ht. destruct (HN i t Ht) as (ws & e & Hws & He & ->). destruct (Hw i p ws e Hp Hws He) as (Har & Hwr).
      destruct (writer_exec RO Ac (fun a => In a (map fst ws)) m e p ws Har Hwr (fun a H => H)
        (fun a H => Hr a (in_part wss i ws a Hws H)) m) as (H1 & H2); [intros a _; reflexivity|auto|].
      split; [exact H1|]. exists (put_all ws m). split; [exact H2|]. cbn. intros c Hc.
      apply in_map_iff in Hc as ((c' & v) & <- & Hc). cbn.
      rewrite (put_all_in ws m c' v); [|eapply nodup_part; eauto|exact Hc].
      symmetry. apply put_all_in; [exact Hn|]. apply in_concat. exists ws. split; [eapply nth_error_In; eauto|exact Hc].
    - intros i j t u Hi Hj Hne a Ha Hb.
      destruct (HN i t Hi) as (ws & e & Hws & He & ->), (HN j u Hj) as (ws' & e' & Hws' & He' & ->). cbn in *.
      destruct Hb as [Hb|Hb]; [exact (Hr a (in_part wss i ws a Hws Ha) Hb)|].
      eapply (nodup_concat_other wss i j); eauto.
    - apply Forall_forall. intros t Ht. apply In_nth_error in Ht as (i & Hi). destruct (HN i t Hi) as (ws & e & Hws & He & ->).
      split; cbn; [exact HD|]. intros a Ha. apply HO. eapply in_part; eauto.
    - intros a Ha.
      assert (Hdec : In a (map fst (concat wss)) \/ ~ In a (map fst (concat wss))).
      { clear - eqA_spec. induction (map fst (concat wss)) as [|b l IHl]; [right; intros []|]. cbn.
        destruct (eqA b a) eqn:E; [left; left; now apply eqA_spec|]. destruct IHl as [H|H]; [auto|]. right. intros [->|H']; [|auto].
        rewrite (proj2 (eqA_spec a a) eq_refl) in E. discriminate. }
      destruct Hdec as [Hin|Hout]; [right|left; symmetry; apply put_all_other; exact Hout].
      apply in_map_iff in Hin as (u & <- & Hu). apply in_concat in Hu as (ws & Hws & Hu). apply In_nth_error in Hws as (i & Hi).
      assert (exists e, nth_error es i = Some e) as (e & He).
      { destruct (nth_error es i) eqn:E; [eauto|]. apply nth_error_None in E. assert (i < length wss)%nat by (apply nth_error_Some; congruence). lia. }
      apply Exists_exists. exists (wtinfo RO ws e). split; [|cbn; now apply in_map].
      apply in_map_iff. exists (ws, e). split; [reflexivity|]. clear - Hi He. revert es i Hi He.
      induction wss as [|w wss IH]; intros [|x es] [|i] Hi He; cbn in *; try discriminate; [injection Hi as ->; injection He as ->; auto|]. right. eapply IH; eauto.
  Qed.

  (** A grid without barriers. *)
  Definition scattered (m0 : mem) (B : list (list prg)) (wss : list (list (list (A * V)))) : Prop :=
    grid_ends eqA addV (m0, B) /\
    forall o, bgsteps eqA addV (m0, B) o -> exists c, o = Ok c /\
      (grid_done c \/ exists c', bgstep eqA addV c (Ok c')) /\
      (grid_done c -> forall a, fst c a = put_all (concat (concat wss)) m0 a).

  Lemma blocks_apart (RO : A -> Prop) (wss : list (list (list (A * V)))) (E : list (list (A * V)) -> mem) :
    NoDup (map fst (concat (concat wss))) -> (forall a, In a (map fst (concat (concat wss))) -> ~ RO a) ->
    bapart (map (fun ws => Binfo (fun a => RO a \/ In a (writes ws)) (fun a => In a (writes ws)) (E ws) []) wss).
  Proof.
    intros Hn Hr i j b c Hi Hj Hne a Hb Hc.
    rewrite nth_error_map in Hi, Hj. destruct (nth_error wss i) as [x|] eqn:Ei; [|discriminate]. destruct (nth_error wss j) as [y|] eqn:Ej; [|discriminate].
    cbn in Hi, Hj. injection Hi as <-. injection Hj as <-. cbn in *.
    assert (Hx : In a (map fst (concat (concat wss)))).
    { clear - Hb Ei. unfold writes in Hb. apply in_map_iff in Hb as (u & <- & Hu). apply in_map. apply in_concat in Hu as (z & Hz & Hu).
      apply in_concat. exists z. split; [|exact Hu]. apply in_concat. exists x. split; [eapply nth_error_In; eauto|exact Hz]. }
    destruct Hc as [Hc|Hc]; [exact (Hr a Hx Hc)|].
    assert (Hm : NoDup (writes (map (fun ws => concat ws) wss))).
    { unfold writes. replace (concat (map (fun ws => concat ws) wss)) with (concat (concat wss)); [exact Hn|]. clear. induction wss; cbn; auto.
      rewrite concat_app. congruence. }
    eapply (nodup_concat_other (map (fun ws => concat ws) wss) i j (concat x) (concat y) a Hm); try exact Hne.
    - rewrite nth_error_map, Ei. reflexivity.
    - rewrite nth_error_map, Ej. reflexivity.
    - exact Hb.
    - exact Hc.
  Qed.

  Theorem scatter (RO : A -> Prop) m0 (B : list (list prg)) wss :
    Forall2 (Forall2 (writer RO m0 BRet)) B wss ->
    NoDup (map fst (concat (concat wss))) -> (forall a, In a (map fst (concat (concat wss))) -> ~ RO a) ->
    scattered m0 B wss.
  Proof.
    intros HB Hn Hr.
    set (info := fun ws : list (list (A * V)) => Binfo (fun a => RO a \/ In a (writes ws)) (fun a => In a (writes ws)) (put_all (concat ws) m0) (@nil (A * V))).
    assert (Hsub : forall ws a, In ws wss -> In a (writes ws) -> In a (map fst (concat (concat wss)))).
    { intros ws a Hws Ha. unfold writes in Ha. apply in_map_iff in Ha as (u & <- & Hu). apply in_map. apply in_concat in Hu as (z & Hz & Hu).
      apply in_concat. exists z. split; [|exact Hu]. apply in_concat. eauto. }
    assert (Hnb : forall i ws, nth_error wss i = Some ws -> NoDup (writes ws)).
    { intros i ws Hi. apply (nodup_part (map (fun w => concat w) wss) i (concat ws)); [|rewrite nth_error_map, Hi; reflexivity].
      unfold writes. replace (concat (map (fun w => concat w) wss)) with (concat (concat wss)); [exact Hn|]. clear. induction wss; cbn; auto.
      rewrite concat_app. congruence. }
    destruct (grid_correct eqA eqA_spec addV (fun _ => False) m0 B (map info wss)) as (H1 & H2).
    - apply Forall2_nth; [rewrite map_length; eapply F2_length; eauto|]. intros i ps b Hps Hb.
      rewrite nth_error_map in Hb. destruct (nth_error wss i) as [ws|] eqn:Ei; [|discriminate]. cbn in Hb. injection Hb as <-.
      pose proof (Forall2_pick _ _ _ _ _ _ HB Hps Ei) as Hp. unfold bok, info. cbn.
      replace (@nil (A * V)) with (flat_map tlog (map (fun we => wtinfo RO (fst we) (snd we)) (combine ws (map (fun _ => BRet) ps)))).
      2:{ clear. generalize (map (fun _ : prg => @BRet A V) ps). intros es. generalize (combine ws es). intros l. induction l; cbn; auto. }
      pose proof (F2_length _ _ _ Hp) as HL.
      apply br_last.
      + apply phase_writes; [auto|now rewrite map_length| | | | |].
        * intros j p w e Hj Hw He. rewrite nth_error_map, Hj in He. cbn in He. injection He as <-. split; [left; reflexivity|].
          exact (Forall2_pick _ _ _ _ _ _ Hp Hj Hw).
        * eapply Hnb; eauto.
        * intros a Ha. apply Hr. eapply Hsub; eauto using nth_error_In.
        * auto.
        * auto.
      + apply Forall_forall. intros t Ht. apply in_map_iff in Ht as ((w & e) & <- & Ht). cbn. apply in_combine_r in Ht.
        apply in_map_iff in Ht as (? & <- & _). reflexivity.
    - apply blocks_apart; auto.
    - apply Forall_forall. intros b _ a [].
    - intros a [].
    - split; [exact H1|]. intros o Ho. destruct (H2 o Ho) as (c & -> & Hc1 & Hc2). exists c. split; [reflexivity|]. split; [exact Hc1|].
      intros Hd a. destruct (Hc2 Hd) as (K1 & _ & K3). destruct (K3 a (fun H => H)) as [E|E].
      + assert (Hdec : In a (map fst (concat (concat wss))) \/ ~ In a (map fst (concat (concat wss)))).
        { clear - eqA_spec. induction (map fst (concat (concat wss))) as [|b l IHl]; [right; intros []|]. cbn.
          destruct (eqA b a) eqn:E; [left; left; now apply eqA_spec|]. destruct IHl as [H|H]; [auto|]. right. intros [->|H']; [|auto].
          rewrite (proj2 (eqA_spec a a) eq_refl) in E. discriminate. }
        destruct Hdec as [Hin|Hout]; [|rewrite put_all_other by exact Hout; exact E].
        apply in_map_iff in Hin as (u & <- & Hu). apply in_concat in Hu as (w & Hw & Hu). apply in_concat in Hw as (ws & Hws & Hw).
        rewrite Forall_forall in K1. specialize (K1 (info ws) (in_map info _ _ Hws)). unfold info in K1. cbn in K1.
        assert (In u (concat ws)) as Hu' by (apply in_concat; eauto).
        rewrite (K1 (fst u)); [|right; unfold writes; now apply in_map].
        destruct u as (a & v). cbn. apply In_nth_error in Hws as (i & Hi). rewrite (put_all_in (concat ws) m0 a v); [|exact (Hnb i ws Hi)|exact Hu'].
        symmetry. apply put_all_in; [exact Hn|]. apply in_concat. exists w. split; [apply in_concat; exists ws; split; [eapply nth_error_In; eauto|exact Hw]|exact Hu].
      + apply Exists_exists in E as (b & Hb & Ha). apply in_map_iff in Hb as (ws & <- & Hws). cbn in Ha.
        rewrite Forall_forall in K1. specialize (K1 (info ws) (in_map info _ _ Hws)). unfold info in K1. cbn in K1.
        rewrite (K1 a) by auto. unfold writes in Ha. apply in_map_iff in Ha as ((a' & v) & <- & Hu). cbn.
        apply In_nth_error in Hws as (i & Hi). rewrite (put_all_in (concat ws) m0 a' v); [|exact (Hnb i ws Hi)|exact Hu].
        symmetry. apply put_all_in; [exact Hn|]. apply in_concat in Hu as (w & Hw & Hu). apply in_concat. exists w.
        split; [apply in_concat; exists ws; split; [eapply nth_error_In; eauto|exact Hw]|exact Hu].
  Qed.
End S.
