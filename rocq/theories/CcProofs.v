(** Proofs about the queue loop and the two component searches. *)
From Verif Require Export CcSpec BaseFacts DriftProofs.
From Coq Require Import ZifyBool ZifyNat.
Local Open Scope Z_scope.

Definition ceqb (a b : coord) : bool := (fst a =? fst b) && (snd a =? snd b).
Lemma ceqb_spec a b : ceqb a b = true <-> a = b.
Proof. destruct a, b. unfold ceqb. cbn. split; [intros H; f_equal; lia|intros H; injection H as <- <-; lia]. Qed.
Lemma ceqb_refl a : ceqb a a = true. Proof. now apply ceqb_spec. Qed.

Definition mark_c (V : coord -> bool) (c : coord) : coord -> bool := fun d => if ceqb c d then true else V d.

(** ** The loop on sets *)
Section Flood.
  Variables (nbrs : coord -> list coord) (ok : coord -> bool) (prune : bool).

  Fixpoint flood (fuel : nat) (V : coord -> bool) (q acc : list coord) : option ((coord -> bool) * list coord) :=
    match q with
    | [] => Some (V, acc)
    | c :: q' =>
      match fuel with
      | O => None
      | S fuel' =>
        if V c then flood fuel' V q' acc
        else let V' := mark_c V c in
             if ok c then
               flood fuel' V' (q' ++ (if prune then filter (fun d => negb (V' d)) (nbrs c) else nbrs c)) (acc ++ [c])
             else flood fuel' V' q' acc
      end
    end.

  Definition free (V : coord -> bool) (c : coord) : Prop := V c = false /\ ok c = true.
  Definition adjn (c d : coord) : Prop := In d (nbrs c).
  Notation reach V q := (reachable (free V) adjn q).

  Lemma reach_taken V c q x : V c = true -> reach V (c :: q) x <-> reach V q x.
  Proof.
    intros Hc. split.
    - induction 1 as [y Hin Hf|y z H IH Ha Hf].
      + destruct Hin as [<-|Hin]; [destruct Hf; congruence|]. now apply reach_start.
      + eapply reach_step; eauto.
    - induction 1 as [y Hin Hf|y z H IH Ha Hf].
      + apply reach_start; [now right|auto].
      + eapply reach_step; eauto.
  Qed.

  Lemma free_mark V c x : x <> c -> free (mark_c V c) x <-> free V x.
  Proof.
    intros H. unfold free, mark_c. destruct (ceqb c x) eqn:E; [apply ceqb_spec in E; congruence|]. tauto.
  Qed.
  Lemma free_mark_self V c : ~ free (mark_c V c) c.
  Proof. unfold free, mark_c. rewrite ceqb_refl. intros (H & _). discriminate. Qed.
  Lemma free_mark_le V c x : free (mark_c V c) x -> free V x /\ x <> c.
  Proof.
    intros H. assert (x <> c) by (intros ->; now apply free_mark_self in H). split; [|auto]. now apply (free_mark V c).
  Qed.

  Lemma reach_free V q x : reach V q x -> free V x.
  Proof. destruct 1; auto. Qed.

  Lemma reach_not_ok V c q x : ok c = false -> reach V (c :: q) x <-> reach (mark_c V c) q x.
  Proof.
    intros Hc. split.
    - induction 1 as [y Hin Hf|y z H IH Ha Hf].
      + assert (y <> c) by (intros ->; destruct Hf; congruence).
        destruct Hin as [<-|Hin]; [congruence|]. apply reach_start; [auto|]. now apply free_mark.
      + assert (z <> c) by (intros ->; destruct Hf; congruence).
        eapply reach_step; eauto. now apply free_mark.
    - induction 1 as [y Hin Hf|y z H IH Ha Hf]; apply free_mark_le in Hf as (Hf & Hne).
      + apply reach_start; [now right|auto].
      + eapply reach_step; eauto.
  Qed.

  Definition new_of (V' : coord -> bool) (c : coord) : list coord :=
    if prune then filter (fun d => negb (V' d)) (nbrs c) else nbrs c.

  Lemma in_new V' c d : adjn c d -> V' d = false -> In d (new_of V' c).
  Proof. unfold new_of, adjn. intros H E. destruct prune; [|auto]. apply filter_In. rewrite E. auto. Qed.
  Lemma new_in V' c d : In d (new_of V' c) -> adjn c d.
  Proof. unfold new_of, adjn. destruct prune; [|auto]. intros H. now apply filter_In in H. Qed.

  Lemma reach_member V c q x : V c = false -> ok c = true ->
    reach V (c :: q) x <-> x = c \/ reach (mark_c V c) (q ++ new_of (mark_c V c) c) x.
  Proof.
    intros Hv Hc. split.
    - induction 1 as [y Hin Hf|y z H IH Ha Hf].
      + destruct Hin as [<-|Hin]; [now left|]. destruct (ceqb y c) eqn:E; [apply ceqb_spec in E; now left|].
        right. assert (y <> c) by (intros ->; rewrite ceqb_refl in E; discriminate).
        apply reach_start; [apply in_app_iff; now left|]. now apply free_mark.
      + destruct (ceqb z c) eqn:E; [apply ceqb_spec in E; now left|].
        assert (Hz : z <> c) by (intros ->; rewrite ceqb_refl in E; discriminate).
        right. assert (Hf' : free (mark_c V c) z) by now apply free_mark.
        destruct IH as [->|IH].
        * apply reach_start; [|auto]. apply in_app_iff. right. apply in_new; [auto|apply Hf'].
        * eapply reach_step; eauto.
    - intros [->|H].
      + apply reach_start; [now left|split; auto].
      + induction H as [y Hin Hf|y z H IH Ha Hf]; apply free_mark_le in Hf as (Hf & Hne).
        * apply in_app_iff in Hin as [Hin|Hin]; [apply reach_start; [now right|auto]|].
          apply new_in in Hin. eapply reach_step; [|exact Hin|auto]. apply reach_start; [now left|split; auto].
        * eapply reach_step; eauto.
  Qed.

  Lemma flood_spec fuel : forall V q acc V' acc', flood fuel V q acc = Some (V', acc') ->
    exists ms, acc' = acc ++ ms /\ NoDup ms /\ (forall x, In x ms <-> reach V q x) /\
      (forall x, ok x = true -> (V' x = true <-> V x = true \/ In x ms)).
  Proof.
    induction fuel as [|fuel IH]; intros V q acc V' acc' H; destruct q as [|c q]; cbn in H; try discriminate.
    1,2: injection H as <- <-; exists []; rewrite app_nil_r; split; [auto|]; split; [constructor|]; split; [|intros; cbn; tauto];
      intros x; split; [intros []|]; induction 1 as [y [] Hf|y z H0 IH0 Ha Hf]; destruct IH0.
    destruct (V c) eqn:Ev.
    - destruct (IH _ _ _ _ _ H) as (ms & E & Hn & Hr & Hv). exists ms. split; [auto|]. split; [auto|]. split; [|auto].
      intros x. rewrite Hr. symmetry. now apply reach_taken.
    - destruct (ok c) eqn:Eo.
      + fold (new_of (mark_c V c) c) in H. destruct (IH _ _ _ _ _ H) as (ms & E & Hn & Hr & Hv).
        exists (c :: ms). split; [rewrite E, <- app_assoc; reflexivity|]. split.
        * constructor; [|auto]. intros Hin. apply Hr in Hin. apply reach_free in Hin. now apply free_mark_self in Hin.
        * split.
          { intros x. rewrite (reach_member V c q x Ev Eo). cbn. rewrite Hr. split; intros [<-|H0]; auto. }
          intros x Hx. rewrite (Hv x Hx). unfold mark_c. cbn. destruct (ceqb c x) eqn:E'.
          -- apply ceqb_spec in E'. tauto.
          -- assert (c <> x) by (intros ->; rewrite ceqb_refl in E'; discriminate). tauto.
      + destruct (IH _ _ _ _ _ H) as (ms & E & Hn & Hr & Hv). exists ms. split; [auto|]. split; [auto|]. split.
        * intros x. rewrite Hr. symmetry. now apply reach_not_ok.
        * intros x Hx. rewrite (Hv x Hx). unfold mark_c. destruct (ceqb c x) eqn:E'; [apply ceqb_spec in E'; congruence|]. tauto.
  Qed.

  (** Enough steps: every bin of the finite [univ] is opened at most once. *)
  Variables (univ : list coord) (K : nat).
  Hypothesis Hnb : forall c d, In d (nbrs c) -> In d univ.
  Hypothesis HK : forall c, (length (nbrs c) <= K)%nat.
  Definition unv (V : coord -> bool) : nat := length (filter (fun c => negb (V c)) univ).

  Lemma unv_mark V c : In c univ -> V c = false -> (unv (mark_c V c) < unv V)%nat.
  Proof.
    intros Hin Hv. unfold unv. clear Hnb HK.
    assert (Hle : forall l, (length (filter (fun x => negb (mark_c V c x)) l) <= length (filter (fun x => negb (V x)) l))%nat).
    { induction l as [|y l IHl]; cbn; [lia|]. unfold mark_c at 1. destruct (ceqb c y) eqn:E; cbn.
      - destruct (negb (V y)); cbn; lia.
      - destruct (negb (V y)); cbn; lia. }
    induction univ as [|y l IHl]; [destruct Hin|]. cbn. destruct Hin as [->|Hin].
    - unfold mark_c at 1. rewrite ceqb_refl, Hv. cbn. specialize (Hle l). lia.
    - specialize (IHl Hin). unfold mark_c at 1. destruct (ceqb c y) eqn:E; cbn.
      + destruct (negb (V y)); cbn; lia.
      + destruct (negb (V y)); cbn; lia.
  Qed.

  Lemma new_length V' c : (length (new_of V' c) <= K)%nat.
  Proof.
    unfold new_of. destruct prune; [|apply HK]. eapply Nat.le_trans; [|apply (HK c)].
    generalize (nbrs c) as l. induction l as [|y l IHl]; cbn; [lia|]. destruct (negb (V' y)); cbn; lia.
  Qed.

  Lemma flood_total fuel : forall V q acc, (forall c, In c q -> In c univ) ->
    (length q + unv V * S K <= fuel)%nat -> exists r, flood fuel V q acc = Some r.
  Proof.
    induction fuel as [|fuel IH]; intros V q acc Hq Hf; destruct q as [|c q]; cbn [flood].
    - eauto.
    - cbn in Hf. lia.
    - eauto.
    - cbn [length] in Hf. destruct (V c) eqn:Ev.
      + apply IH; [intros; apply Hq; now right|lia].
      + assert (Hu : (unv (mark_c V c) < unv V)%nat) by (apply unv_mark; auto; apply Hq; now left).
        cbv zeta. fold (new_of (mark_c V c) c). destruct (ok c).
        * apply IH.
          -- intros d Hd. apply in_app_iff in Hd as [Hd|Hd]; [apply Hq; now right|]. apply new_in in Hd. eapply Hnb; eauto.
          -- rewrite app_length. pose proof (new_length (mark_c V c) c). nia.
        * apply IH; [intros; apply Hq; now right|nia].
  Qed.
End Flood.

(** ** Refinement: the memory loop is the loop on sets *)
Lemma in_grid_bin D N c : in_grid D N c = true <-> bin D N c.
Proof. unfold in_grid, bin. lia. Qed.

Section Refine.
  Context {A : Type}.
  Variables (D N : Z) (lv : layout) (taken : Z -> bool) (mark : Z -> Z) (prune : bool) (offsets : list coord).
  Variables (test : coord -> outcome bool) (member : coord -> A -> outcome A).
  Variables (ok : coord -> bool) (act : coord -> A -> A).
  Hypothesis Htest : forall c, bin D N c -> test c = Ok (ok c).
  Hypothesis Hmem : forall c a, bin D N c -> member c a = Ok (act c a).
  Hypothesis Hinj : forall c d, bin D N c -> bin D N d -> lin lv c = lin lv d -> c = d.

  Definition nbrs_of (c : coord) : list coord := filter (in_grid D N) (map (move c) offsets).

  (** Every bin has a cell; its test says whether the bin is taken; a marked cell is taken. *)
  Definition represents (vis : mem Z) (V : coord -> bool) : Prop :=
    forall c, bin D N c -> exists v, znth vis (lin lv c) = Some v /\ taken v = V c /\ (taken v = false -> taken (mark v) = true).
  Hypothesis Hmark : forall v, taken v = false -> taken (mark v) = true /\ (taken (mark v) = false -> taken (mark (mark v)) = true).

  Lemma load_rep vis V c : represents vis V -> bin D N c -> exists v, load vis (lin lv c) = Ok v /\ taken v = V c.
  Proof. intros Hr Hc. destruct (Hr c Hc) as (v & Hv & Ht & _). exists v. unfold load, zget. now rewrite Hv. Qed.

  Lemma store_rep vis V c v : represents vis V -> bin D N c -> load vis (lin lv c) = Ok v -> V c = false ->
    exists vis', store vis (lin lv c) (mark v) = Ok vis' /\ represents vis' (mark_c V c).
  Proof.
    intros Hr Hc Hl Hv. destruct (Hr c Hc) as (v' & Hv' & Ht & Hm).
    assert (Hvv : v' = v). { unfold load, zget in Hl. rewrite Hv' in Hl. congruence. } subst v'.
    pose proof (znth_len _ _ _ Hv') as Hlen. destruct (store_ok vis (lin lv c) (mark v) Hlen) as (vis' & Es & El).
    exists vis'. split; [exact Es|]. intros d Hd. rewrite (znth_store _ _ _ _ _ Es).
    destruct (Hmark v ltac:(congruence)) as (M1 & M2). unfold mark_c.
    destruct (lin lv d =? lin lv c) eqn:E.
    - assert (c = d) by (apply Hinj; auto; lia). subst d. rewrite ceqb_refl. eauto.
    - destruct (ceqb c d) eqn:Ec; [apply ceqb_spec in Ec; subst; lia|]. apply Hr; auto.
  Qed.

  Lemma pushes_ok vis V c offs : represents vis V ->
    pushes D N lv taken prune vis c offs =
    Ok (let l := filter (in_grid D N) (map (move c) offs) in if prune then filter (fun d => negb (V d)) l else l).
  Proof.
    intros Hr. induction offs as [|o offs IH]; cbn [pushes map filter]; [destruct prune; reflexivity|].
    destruct (in_grid D N (move c o)) eqn:E; [|exact IH]. apply in_grid_bin in E.
    cbn [filter]. destruct prune; rewrite IH.
    - destruct (load_rep vis V _ Hr E) as (v & -> & Ht). cbn [obind]. rewrite Ht. cbn [filter]. destruct (V (move c o)); reflexivity.
    - reflexivity.
  Qed.

  Lemma queue_refines fuel : forall vis V q a ms0, represents vis V -> (forall c, In c q -> bin D N c) ->
    match flood nbrs_of ok prune fuel V q ms0 with
    | None => queue_loop D N lv taken mark prune offsets test member fuel vis q a = None
    | Some (V', ms) => exists new vis', ms = ms0 ++ new /\ represents vis' V' /\
        queue_loop D N lv taken mark prune offsets test member fuel vis q a = Some (Ok (vis', fold_left (fun a c => act c a) new a))
    end.
  Proof.
    induction fuel as [|fuel IH]; intros vis V q a ms0 Hr Hq; destruct q as [|c q]; cbn [flood queue_loop].
    - exists [], vis. rewrite app_nil_r. auto.
    - reflexivity.
    - exists [], vis. rewrite app_nil_r. auto.
    - assert (Hc : bin D N c) by (apply Hq; now left). destruct (load_rep vis V c Hr Hc) as (v & El & Ht).
      rewrite El. cbn [lift rbind]. rewrite Ht. destruct (V c) eqn:Ev.
      + apply IH; [auto|]. intros; apply Hq; now right.
      + destruct (store_rep vis V c v Hr Hc El Ev) as (vis' & Es & Hr'). rewrite Es. cbn [lift rbind].
        rewrite Htest by auto. cbn [lift rbind]. cbv zeta. destruct (ok c) eqn:Eo.
        * rewrite Hmem by auto. cbn [lift rbind]. rewrite (pushes_ok vis' (mark_c V c)) by auto. cbn [lift rbind]. cbv zeta.
          fold (nbrs_of c).
          specialize (IH vis' (mark_c V c) (q ++ (if prune then filter (fun d => negb (mark_c V c d)) (nbrs_of c) else nbrs_of c)) (act c a) (ms0 ++ [c]) Hr').
          match type of IH with ?P -> _ => assert (HP : P) end.
          { intros d Hd. apply in_app_iff in Hd as [Hd|Hd]; [apply Hq; now right|].
            assert (Hd' : In d (nbrs_of c)) by (destruct prune; [now apply filter_In in Hd|auto]).
            unfold nbrs_of in Hd'. apply filter_In in Hd' as (_ & Hd'). now apply in_grid_bin. }
          specialize (IH HP). destruct (flood _ _ _ _ _ _ _) as [(V' & ms)|]; [|exact IH].
          destruct IH as (new & vis'' & E & Hr'' & Eq). exists (c :: new), vis''. split; [rewrite E, <- app_assoc; reflexivity|]. split; [auto|exact Eq].
        * apply IH; [auto|]. intros; apply Hq; now right.
  Qed.
End Refine.

(** ** The scan *)
Definition coord_at (N k : Z) : coord := (k / N, k mod N).

Lemma next_coord_at N k : 0 < N -> 0 <= k -> next_coord N (coord_at N k) = coord_at N (k + 1).
Proof.
  intros HN Hk. unfold next_coord, coord_at. cbn [fst snd].
  pose proof (Z.div_mod k N ltac:(lia)) as E. pose proof (Z.mod_pos_bound k N HN) as B.
  destruct (k mod N + 1 =? N) eqn:Em.
  - f_equal; [apply Z.div_unique with 0; lia|apply Z.mod_unique with (k / N + 1); lia].
  - f_equal; [apply Z.div_unique with (k mod N + 1); lia|apply Z.mod_unique with (k / N); lia].
Qed.

Lemma scan_inv {S} (body : coord -> S -> run S) N (Inv : Z -> S -> Prop) T : 0 < N ->
  (forall k s, 0 <= k < T -> Inv k s -> exists s', body (coord_at N k) s = Some (Ok s') /\ Inv (k + 1) s') ->
  forall n k s, 0 <= k -> k + Z.of_nat n = T -> Inv k s ->
  exists s', scan body N n (coord_at N k) s = Some (Ok s') /\ Inv T s'.
Proof.
  intros HN Hb. induction n as [|n IH]; intros k s Hk Hn Hi.
  - exists s. split; [reflexivity|]. replace T with k by lia. exact Hi.
  - destruct (Hb k s ltac:(lia) Hi) as (s1 & E & Hi1). cbn [scan]. rewrite E. cbn [rbind].
    rewrite next_coord_at by auto. apply IH; auto; lia.
Qed.

Lemma coord_at_bin D N k : 0 < N -> 0 <= k < D * N -> bin D N (coord_at N k).
Proof.
  intros HN Hk. unfold bin, coord_at. cbn [fst snd]. split; [|apply Z.mod_pos_bound; lia].
  split; [apply Z.div_pos; lia|]. apply Z.div_lt_upper_bound; [lia|]. rewrite Z.mul_comm. apply Hk.
Qed.

Lemma earlier_index D N c k : 0 < N -> 0 <= k < D * N -> bin D N c ->
  (earlier c (coord_at N k) <-> fst c * N + snd c < k).
Proof.
  intros HN Hk (Hd & Hf). unfold earlier, coord_at. cbn [fst snd].
  pose proof (Z.div_mod k N ltac:(lia)) as E. pose proof (Z.mod_pos_bound k N HN) as B.
  set (q := k / N) in *. set (r := k mod N) in *. split.
  - intros [H|(H1 & H2)]; [|subst q; nia]. assert (fst c * N <= (q - 1) * N) by (apply Z.mul_le_mono_nonneg_r; lia). nia.
  - intros H. destruct (Z.lt_trichotomy (fst c) q) as [H1|[H1|H1]]; [now left|right|].
    + split; [auto|]. rewrite H1 in H. nia.
    + assert (q * N + N <= fst c * N) by (replace (q * N + N) with ((q + 1) * N) by ring; apply Z.mul_le_mono_nonneg_r; lia). nia.
Qed.

Lemma index_coord D N c : 0 < N -> bin D N c -> coord_at N (fst c * N + snd c) = c.
Proof.
  intros HN (Hd & Hf). destruct c as [d f]. unfold coord_at. cbn [fst snd] in *. f_equal.
  - symmetry. apply Z.div_unique with f; lia.
  - symmetry. apply Z.mod_unique with d; lia.
Qed.

(** Partial segmentation after [k] scan positions. *)
Section Segment.
  Variables (D N : Z) (above ok : coord -> bool) (adj : coord -> coord -> Prop).
  Definition seg_upto (k : Z) (V : coord -> bool) (segs : list (coord * list coord)) : Prop :=
    (forall pre s ms post, segs = pre ++ (s, ms) :: post ->
       bin D N s /\ above s = true /\ NoDup ms /\
       (forall c, In c ms <-> reachable (fun c => ok c = true /\ ~ claimed pre c) adj [s] c) /\
       (forall c, bin D N c -> above c = true -> earlier c s -> claimed pre c) /\
       ~ claimed pre s) /\
    (forall c, bin D N c -> above c = true -> fst c * N + snd c < k -> claimed segs c) /\
    (forall c, ok c = true -> bin D N c -> (V c = true <-> claimed segs c)) /\
    (forall c, claimed segs c -> bin D N c /\ ok c = true).
End Segment.
