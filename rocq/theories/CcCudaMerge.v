(** Merging of touching protohits on the GPU under every schedule. *)
From Verif Require Export CcCudaResolve.
From Coq Require Import ZifyBool ZifyNat Permutation Relation_Operators.
Ltac Zify.zify_post_hook ::= Z.div_mod_to_equations.
Local Open Scope Z_scope.

Lemma some_inj {A} (a b : A) : Some a = Some b -> a = b.
Proof. congruence. Qed.

Lemma filter_le {A} (f g : A -> bool) l : (forall x, In x l -> f x = true -> g x = true) -> (length (filter f l) <= length (filter g l))%nat.
Proof.
  induction l as [|a l IH]; intros H; cbn; [lia|]. assert (H' : forall x, In x l -> f x = true -> g x = true) by (intros; apply H; auto; now right).
  specialize (IH H'). destruct (f a) eqn:Ef; [rewrite (H a) by (auto; now left); cbn; lia|]. destruct (g a); cbn; lia.
Qed.
Lemma filter_lt {A} (f g : A -> bool) l a : In a l -> f a = false -> g a = true -> (forall x, In x l -> f x = true -> g x = true) ->
  (length (filter f l) < length (filter g l))%nat.
Proof.
  induction l as [|b l IH]; intros Hi Ef Eg H; [destruct Hi|]. cbn.
  assert (H' : forall x, In x l -> f x = true -> g x = true) by (intros; apply H; auto; now right).
  destruct Hi as [->|Hi].
  - rewrite Ef, Eg. cbn. pose proof (filter_le f g l H'). lia.
  - specialize (IH Hi Ef Eg H'). destruct (f b) eqn:E; [rewrite (H b) by (auto; now left); cbn; lia|]. destruct (g b); cbn; lia.
Qed.

Section Merge.
  Context {F : Type}.
  Variables (snr : F -> F -> F) (gt : F -> F -> bool) (D N L : Z) (spec noise : list F).
  Variables (lab : list Z) (mx : list (option Z)) (inv0 : list Z) (n : Z) (better : Z -> Z -> bool).
  Notation mstp := (merge_step snr gt D N L spec noise lab mx).
  Definition valid (p : Z) : Prop := 8 <= p < 8 + n.
  Hypothesis Hn0 : 0 <= n.
  Hypothesis Hinv0 : forall p, valid p -> znth inv0 p = Some 0.
  Hypothesis Hpick : forall p q, valid p -> valid q -> p <> q ->
    pick snr gt D N spec noise mx p q = Ok (if better p q then (q, p) else (p, q)).
  Hypothesis Hirr : forall p, valid p -> better p p = false.
  Hypothesis Htr : forall p q r, valid p -> valid q -> valid r -> better p q = true -> better q r = true -> better p r = true.
  Hypothesis Htot : forall p q, valid p -> valid q -> p <> q -> better p q = true \/ better q p = true.

  (** The neighbour labels read for bin [b]. *)
  Variables (dom : list Z) (ids_of : Z -> list Z).
  Hypothesis Hlab : forall b, In b dom -> exists v, znth lab b = Some v /\
    (v < 8 \/ valid v /\ exists vs, load_all lab (neighbours D N L b) = Ok vs /\ ids_of b = filter (Z.leb 8) vs /\
       forall q, In q (ids_of b) -> valid q).
  Definition label b := match znth lab b with Some v => v | None => 0 end.
  Definition pairs (b : Z) : list (Z * Z) := if 8 <=? label b then map (fun q => (label b, q)) (ids_of b) else [].
  Definition adj_ids (p q : Z) : Prop := exists b, In b dom /\ In (p, q) (pairs b).
  Notation grp := (clos_refl_sym_trans Z adj_ids).
  Definition link (inv : list Z) (p v : Z) : Prop := valid p /\ znth inv p = Some v /\ v <> 0.
  Notation joint inv := (clos_refl_sym_trans Z (link inv)).

  Definition pend_m (s : mstate) : list (Z * Z) :=
    match s with
    | MIdle t => flat_map pairs t
    | MFirst p ids t | MNext p ids t => map (fun q => (p, q)) ids ++ flat_map pairs t
    | MPix p q ids t | MNbr p q ids t | MCas p q ids t => map (fun q => (p, q)) (q :: ids) ++ flat_map pairs t
    end.
  Definition good (inv : list Z) : Prop :=
    zlen inv = zlen inv0 /\
    forall p, valid p -> exists v, znth inv p = Some v /\ (v = 0 \/ valid v /\ better v p = true /\ grp p v).
  Definition J_m (inv : list Z) (pend : list (Z * Z)) : Prop :=
    good inv /\
    forall l q, adj_ids l q -> joint inv l q \/ exists p q', In (p, q') pend /\ joint inv l p /\ joint inv q q'.
  Definition todo_of (s : mstate) : list Z :=
    match s with MIdle t | MFirst _ _ t | MNext _ _ t | MPix _ _ _ t | MNbr _ _ _ t | MCas _ _ _ t => t end.
  Definition Lo_m (inv : list Z) (s : mstate) : Prop :=
    (forall b, In b (todo_of s) -> In b dom) /\
    match s with
    | MIdle _ => True
    | MFirst p ids _ | MNext p ids _ => valid p /\ forall q, In q ids -> valid q /\ grp p q
    | MPix p q ids _ | MNbr p q ids _ => valid p /\ forall q', In q' (q :: ids) -> valid q' /\ grp p q'
    | MCas p q ids _ => valid p /\ p <> q /\ forall q', In q' (q :: ids) -> valid q' /\ grp p q'
    end.

  Lemma Jperm_m : forall m l l', Permutation l l' -> J_m m l -> J_m m l'.
  Proof.
    intros m l l' Hp (H1 & H2). split; [auto|]. intros a b Hab. destruct (H2 a b Hab) as [E|(p & q & Hi & E)]; [auto|right].
    exists p, q. split; [eapply Permutation_in; eauto|auto].
  Qed.
  Lemma pend_same inv pend pend' : J_m inv pend ->
    (forall p q, In (p, q) pend -> joint inv p q \/ exists p' q', In (p', q') pend' /\ joint inv p p' /\ joint inv q q') ->
    J_m inv pend'.
  Proof.
    intros (H1 & H2) H. split; [auto|]. intros a b Hab. destruct (H2 a b Hab) as [E|(p & q & Hi & Ea & Eb)]; [auto|].
    destruct (H p q Hi) as [E|(p' & q' & Hi' & Ea' & Eb')].
    - left. eapply rst_trans; [exact Ea|]. eapply rst_trans; [exact E|]. now apply rst_sym.
    - right. exists p', q'. split; [auto|]. split; eapply rst_trans; eauto.
  Qed.
  Lemma link_joint inv p v : valid p -> znth inv p = Some v -> v <> 0 -> joint inv p v.
  Proof. intros. apply rst_step. repeat split; auto; apply H. Qed.

  Lemma valid_load inv pend p : J_m inv pend -> valid p ->
    exists v, load inv p = Ok v /\ (v = 0 \/ (valid v /\ better v p = true /\ grp p v /\ joint inv p v)).
  Proof.
    intros ((_ & H) & _) Hp. destruct (H p Hp) as (v & E & Hv). exists v. split; [now apply load_some|].
    destruct Hv as [->|(H1 & H2 & H3)]; [auto|right]. repeat split; auto; try apply H1. apply link_joint; [auto|auto|]. unfold valid in H1. lia.
  Qed.

  Lemma in_pairs b : In b dom -> 8 <= label b -> forall q, In q (ids_of b) -> adj_ids (label b) q.
  Proof.
    intros Hb Hl q Hq. exists b. split; [auto|]. unfold pairs. replace (8 <=? label b) with true by lia. apply in_map_iff. eauto.
  Qed.

  Lemma step_m : forall m s o rest, mstp m s = Some o -> Lo_m m s -> J_m m (pend_m s ++ rest) ->
    exists m' s', o = Ok (m', s') /\ Lo_m m' s' /\ J_m m' (pend_m s' ++ rest) /\ (forall s2, Lo_m m s2 -> Lo_m m' s2).
  Proof.
    intros m s o rest Hs (Ht & Hl) HJ.
    destruct s as [[|b t]|p ids t|p [|q ids] t|p q ids t|p q ids t|p q ids t]; cbn [merge_step] in Hs; try discriminate; injection Hs as <-;
      cbn [todo_of] in Ht.
    - (* MIdle *)
      assert (Hb : In b dom) by (apply Ht; now left). assert (Ht' : forall b, In b t -> In b dom) by (intros; apply Ht; now right).
      destruct (Hlab b Hb) as (v & Ev & Hv). rewrite (load_some _ _ _ Ev). cbn [obind].
      assert (El : label b = v) by (unfold label; now rewrite Ev).
      destruct (Z.leb_spec 8 v) as [H8|H8].
      + destruct Hv as [Hv|(Hv & vs & Evs & Ei & Hi)]; [lia|]. rewrite Evs. cbn [obind]. rewrite <- Ei.
        exists m, (MFirst v (ids_of b) t). split; [reflexivity|]. split; [|split; [|auto]].
        * split; [exact Ht'|]. split; [auto|]. intros q Hq. split; [auto|]. apply rst_step. rewrite <- El. apply in_pairs; auto. lia.
        * cbn [pend_m flat_map] in *. unfold pairs at 1 in HJ. rewrite El in HJ. replace (8 <=? v) with true in HJ by lia.
          rewrite <- app_assoc in *. exact HJ.
      + exists m, (MIdle t). split; [reflexivity|]. split; [split; [exact Ht'|exact I]|]. split; [|auto].
        cbn [pend_m flat_map] in *. unfold pairs at 1 in HJ. rewrite El in HJ. replace (8 <=? v) with false in HJ by lia. exact HJ.
    - (* MFirst *)
      destruct Hl as (Hp & Hids). destruct (valid_load _ _ p HJ Hp) as (v & E & Hv). rewrite E. cbn [obind].
      destruct (Z.eqb_spec v 0) as [->|Hv0].
      + exists m, (MNext p ids t). split; [reflexivity|]. split; [split; auto|]. split; [exact HJ|auto].
      + destruct Hv as [Hv|(V1 & V2 & V3 & V4)]; [lia|]. exists m, (MFirst v ids t). split; [reflexivity|].
        split; [split; [exact Ht|]; split; [exact V1|]; intros q Hq; destruct (Hids q Hq) as (A & B); split; [auto|]; eapply rst_trans; [apply rst_sym; exact V3|exact B]|].
        split; [|auto]. eapply pend_same; [exact HJ|]. intros a b Hab. right. cbn [pend_m] in *.
        rewrite !in_app_iff in Hab. destruct Hab as [[Hab|Hab]|Hab].
        * apply in_map_iff in Hab as (q & Eq & Hq). injection Eq as <- <-. exists v, q. split; [|split; [exact V4|apply rst_refl]].
          rewrite !in_app_iff. left. left. apply in_map_iff. eauto.
        * exists a, b. rewrite !in_app_iff. split; [auto|split; apply rst_refl].
        * exists a, b. rewrite !in_app_iff. split; [auto|split; apply rst_refl].
    - (* MNext, end *)
      exists m, (MIdle t). split; [reflexivity|]. split; [split; [exact Ht|exact I]|]. split; [exact HJ|auto].
    - exists m, (MPix p q ids t). split; [reflexivity|]. split; [split; [exact Ht|exact Hl]|]. split; [exact HJ|auto].
    - (* MPix *)
      destruct Hl as (Hp & Hids). destruct (valid_load _ _ p HJ Hp) as (v & E & Hv). rewrite E. cbn [obind].
      destruct (Z.eqb_spec v 0) as [->|Hv0].
      + exists m, (MNbr p q ids t). split; [reflexivity|]. split; [split; auto|]. split; [exact HJ|auto].
      + destruct Hv as [Hv|(V1 & V2 & V3 & V4)]; [lia|]. exists m, (MPix v q ids t). split; [reflexivity|].
        split; [split; [exact Ht|]; split; [exact V1|]; intros q' Hq; destruct (Hids q' Hq) as (A & B); split; [auto|]; eapply rst_trans; [apply rst_sym; exact V3|exact B]|].
        split; [|auto]. eapply pend_same; [exact HJ|]. intros a b Hab. right. cbn [pend_m] in *.
        rewrite !in_app_iff in Hab. destruct Hab as [[Hab|Hab]|Hab].
        * apply in_map_iff in Hab as (q' & Eq & Hq). injection Eq as <- <-. exists v, q'. split; [|split; [exact V4|apply rst_refl]].
          rewrite !in_app_iff. left. left. apply in_map_iff. eauto.
        * exists a, b. rewrite !in_app_iff. split; [auto|split; apply rst_refl].
        * exists a, b. rewrite !in_app_iff. split; [auto|split; apply rst_refl].
    - (* MNbr *)
      destruct Hl as (Hp & Hids). destruct (Hids q) as (Hq & Gq); [now left|].
      destruct (valid_load _ _ q HJ Hq) as (v & E & Hv). rewrite E. cbn [obind].
      destruct (Z.eqb_spec v 0) as [->|Hv0]; [destruct (Z.eqb_spec p q) as [->|Hpq]|].
      + exists m, (MNext q ids t). split; [reflexivity|]. split; [split; [exact Ht|]; split; [exact Hp|]; intros q' Hq'; apply Hids; now right|].
        split; [|auto]. eapply pend_same; [exact HJ|]. intros a b Hab. cbn [pend_m map app] in Hab. destruct Hab as [Hab|Hab].
        * injection Hab as <- <-. left. apply rst_refl.
        * right. exists a, b. split; [exact Hab|split; apply rst_refl].
      + exists m, (MCas p q ids t). split; [reflexivity|]. split; [split; auto|]. split; [exact HJ|auto].
      + destruct Hv as [Hv|(V1 & V2 & V3 & V4)]; [lia|]. exists m, (MNbr p v ids t). split; [reflexivity|].
        split; [split; [exact Ht|]; split; [exact Hp|]; intros q' [<-|Hq']; [split; [exact V1|]; eapply rst_trans; [exact Gq|exact V3]|apply Hids; now right]|].
        split; [|auto]. eapply pend_same; [exact HJ|]. intros a b Hab. right. cbn [pend_m map app] in Hab. destruct Hab as [Hab|Hab].
        * injection Hab as <- <-. exists p, v. split; [now left|split; [apply rst_refl|exact V4]].
        * exists a, b. split; [now right|split; apply rst_refl].
    - (* MCas *)
      destruct Hl as (Hp & Hpq & Hids). destruct (Hids q) as (Hq & Gq); [now left|].
      rewrite (Hpick p q Hp Hq Hpq). cbn [obind].
      assert (Hr : exists lo wi, (if better p q then (q, p) else (p, q)) = (lo, wi) /\ valid lo /\ valid wi /\ better wi lo = true /\ grp lo wi /\
                     (lo = p /\ wi = q \/ lo = q /\ wi = p)).
      { destruct (better p q) eqn:B.
        - exists q, p. split; [reflexivity|]. split; [auto|]. split; [auto|]. split; [auto|]. split; [now apply rst_sym|auto].
        - exists p, q. split; [reflexivity|]. split; [auto|]. split; [auto|]. split; [destruct (Htot p q Hp Hq Hpq); congruence|]. auto. }
      destruct Hr as (lo & wi & -> & Hlo & Hwi & Bw & Gw & Hor). cbn [fst snd].
      destruct (valid_load _ _ lo HJ Hlo) as (v & E & Hv). rewrite E. cbn [obind].
      destruct (Z.eqb_spec v 0) as [->|Hv0].
      + assert (Hb : znth m lo = Some 0) by (unfold load, zget in E; destruct (znth m lo); [congruence|discriminate]).
        pose proof (znth_bounds _ _ _ Hb) as Hbd.
        destruct (NdMemFacts.store_ok m lo wi Hbd) as (m' & Es & E1 & E2 & E3). rewrite Es. cbn [obind].
        assert (Hmono : forall a b, joint m a b -> joint m' a b).
        { intros a b Hab. induction Hab as [a b (L0 & L1 & L2)| | |]; [|apply rst_refl|now apply rst_sym|eapply rst_trans; eauto].
          apply rst_step. split; [auto|]. split; [|auto]. rewrite E3; [auto|]. intros ->. congruence. }
        assert (Hnew : joint m' p q).
        { assert (Hw : joint m' lo wi) by (apply link_joint; [auto|auto|unfold valid in Hwi; lia]).
          destruct Hor as [(-> & ->)|(-> & ->)]; [auto|now apply rst_sym]. }
        exists m', (MNext p ids t). split; [reflexivity|]. split; [split; [exact Ht|]; split; [exact Hp|]; intros q' Hq'; apply Hids; now right|].
        split; [|intros s2 Hs2; exact Hs2].
        destruct HJ as ((Hlen & Hgood) & Hadj). split; [split; [lia|]|].
        * intros a Ha. destruct (Z.eq_dec a lo) as [->|Hne]; [exists wi; split; [auto|right; auto]|]. rewrite E3 by auto. apply Hgood, Ha.
        * intros a b Hab. destruct (Hadj a b Hab) as [Hj|(p' & q' & Hi & J1 & J2)]; [left; auto|].
          cbn [pend_m map app] in Hi. destruct Hi as [Hi|Hi].
          -- injection Hi as <- <-. left. eapply rst_trans; [apply Hmono; exact J1|]. eapply rst_trans; [exact Hnew|]. apply rst_sym. auto.
          -- right. exists p', q'. split; [exact Hi|auto].
      + destruct Hv as [Hv|(V1 & V2 & V3 & V4)]; [lia|].
        exists m, (MPix p q ids t). split; [reflexivity|]. split; [split; auto|]. split; [exact HJ|auto].
  Qed.

  (** *** Termination *)
  Definition zeros (inv : list Z) : nat := length (filter (Z.eqb 0) inv).
  Definition rank (p : Z) : nat := length (filter (fun r => better r p) (map (fun i => 8 + i) (zrange n))).
  Lemma in_valid p : In p (map (fun i => 8 + i) (zrange n)) <-> valid p.
  Proof.
    clear - n p. rewrite in_map_iff. unfold valid. split.
    - intros (i & <- & Hi). apply in_zrange in Hi. lia.
    - intros H. exists (p - 8). split; [lia|]. apply in_zrange. lia.
  Qed.
  Lemma rank_lt p v : valid p -> valid v -> better v p = true -> (rank v < rank p)%nat.
  Proof.
    intros Hp Hv Hb. unfold rank. apply filter_lt with (a := v); [now apply in_valid|now apply Hirr|auto|].
    intros x Hx Hxv. apply in_valid in Hx. eapply Htr; [exact Hx|exact Hv|exact Hp|auto|auto].
  Qed.
  Lemma rank_le p : (rank p <= Z.to_nat n)%nat.
  Proof.
    unfold rank. assert (G : forall (f : Z -> bool) l, (length (filter f l) <= length l)%nat).
    { induction l as [|a l IH]; cbn; [lia|]. destruct (f a); cbn; lia. }
    eapply Nat.le_trans; [apply G|]. rewrite map_length. unfold zrange. rewrite map_length, seq_length. lia.
  Qed.

  Definition unit_cost : nat := (3 * Z.to_nat n + 20)%nat.
  Definition later (ids t : list Z) : nat :=
    (length ids * unit_cost + list_sum (map (fun b => Z.to_nat n + 5 + length (ids_of b) * unit_cost)%nat t) + 1)%nat.
  Definition mu_m (inv : list Z) (s : mstate) : nat :=
    match s with
    | MIdle t => later [] t - 1
    | MFirst p ids t => rank p + 1 + later ids t
    | MNext p ids t => later ids t
    | MPix p q ids t => rank p + rank q + 4 + later ids t
    | MNbr p q ids t => (match znth inv p with Some 0%Z => rank q + 3 | _ => rank p + 2 * rank q + 10 end) + later ids t
    | MCas p q ids t => (match znth inv (if better p q then q else p) with Some 0%Z => 1 | _ => rank p + rank q + 5 end) + later ids t
    end%nat.

  Lemma zeros_store inv i v : znth inv i = Some 0 -> v <> 0 -> forall inv', store inv i v = Ok inv' -> (zeros inv' < zeros inv)%nat.
  Proof.
    unfold store, znth. intros Hi Hv inv' E. destruct (Z.ltb_spec i 0); [discriminate|].
    destruct ((0 <=? i) && (i <? zlen inv)); [|discriminate]. injection E as <-. revert Hi. generalize (Z.to_nat i) as k. clear -Hv. unfold zeros.
    induction inv as [|x l IH]; intros [|k] Hi; cbn in *; try discriminate.
    - injection Hi as ->. destruct v; [congruence| |]; cbn; lia.
    - specialize (IH k Hi). destruct x; cbn; lia.
  Qed.

  Lemma down_m : forall m s m' s', mstp m s = Some (Ok (m', s')) -> Lo_m m s -> (exists rest, J_m m (pend_m s ++ rest)) ->
    (zeros m' < zeros m)%nat \/ zeros m' = zeros m /\ (forall s2, Lo_m m s2 -> mu_m m' s2 = mu_m m s2) /\ (mu_m m' s' < mu_m m s)%nat.
  Proof.
    intros m s m' s' Hs (Ht & Hl) (rest & HJ).
    assert (Same : forall x, m' = m -> (mu_m m s' < mu_m m s)%nat -> x \/ zeros m' = zeros m /\ (forall s2, Lo_m m s2 -> mu_m m' s2 = mu_m m s2) /\ (mu_m m' s' < mu_m m s)%nat).
    { intros x -> H. right. auto. }
    destruct s as [[|b t]|p ids t|p [|q ids] t|p q ids t|p q ids t|p q ids t]; cbn [merge_step] in Hs; try discriminate; apply some_inj in Hs;
      cbn [todo_of] in Ht.
    - assert (Hb : In b dom) by (apply Ht; now left).
      destruct (Hlab b Hb) as (v & Ev & Hv). rewrite (load_some _ _ _ Ev) in Hs. cbn [obind] in Hs.
      destruct (Z.leb_spec 8 v) as [H8|H8].
      + destruct Hv as [Hv|(Hv & vs & Evs & Ei & Hi)]; [lia|]. rewrite Evs in Hs. cbn [obind] in Hs. rewrite <- Ei in Hs. injection Hs as <- <-.
        apply Same; [reflexivity|]. cbn [mu_m]. unfold later. cbn [map length]. rewrite list_sum_cons. pose proof (rank_le v). nia.
      + injection Hs as <- <-. apply Same; [reflexivity|]. cbn [mu_m]. unfold later. cbn [map length]. rewrite list_sum_cons. lia.
    - destruct Hl as (Hp & Hids). destruct (valid_load _ _ p HJ Hp) as (v & E & Hv). rewrite E in Hs. cbn [obind] in Hs. injection Hs as <- <-.
      apply Same; [reflexivity|]. destruct (Z.eqb_spec v 0) as [->|Hv0]; cbn [mu_m]; [lia|].
      destruct Hv as [Hv|(V1 & V2 & _)]; [lia|]. pose proof (rank_lt p v Hp V1 V2). lia.
    - injection Hs as <- <-. apply Same; [reflexivity|]. cbn [mu_m]. unfold later. cbn [length]. lia.
    - injection Hs as <- <-. apply Same; [reflexivity|]. cbn [mu_m]. unfold later. cbn [length Nat.mul].
      assert (Hu : unit_cost = (3 * Z.to_nat n + 20)%nat) by reflexivity. pose proof (rank_le p). pose proof (rank_le q).
      generalize dependent (length ids * unit_cost)%nat. intros. lia.
    - destruct Hl as (Hp & Hids). destruct (valid_load _ _ p HJ Hp) as (v & E & Hv). rewrite E in Hs. cbn [obind] in Hs. injection Hs as <- <-.
      apply Same; [reflexivity|]. destruct (Z.eqb_spec v 0) as [->|Hv0]; cbn [mu_m].
      + assert (Hb : znth m p = Some 0) by (unfold load, zget in E; destruct (znth m p); [congruence|discriminate]). rewrite Hb. lia.
      + destruct Hv as [Hv|(V1 & V2 & _)]; [lia|]. pose proof (rank_lt p v Hp V1 V2). lia.
    - destruct Hl as (Hp & Hids). destruct (Hids q) as (Hq & _); [now left|].
      destruct (valid_load _ _ q HJ Hq) as (v & E & Hv). rewrite E in Hs. cbn [obind] in Hs. injection Hs as <- <-.
      assert (Hb : znth m q = Some v) by (unfold load, zget in E; destruct (znth m q); [congruence|discriminate]).
      apply Same; [reflexivity|]. destruct (Z.eqb_spec v 0) as [->|Hv0]; [destruct (Z.eqb_spec p q) as [->|Hpq]|]; cbn [mu_m].
      + rewrite Hb. lia.
      + destruct (better p q); [rewrite Hb; destruct (znth m p) as [[]|]; lia|].
        destruct (znth m p) as [[]|]; lia.
      + destruct Hv as [Hv|(V1 & V2 & _)]; [lia|]. pose proof (rank_lt q v Hq V1 V2). destruct (znth m p) as [[]|]; lia.
    - destruct Hl as (Hp & Hpq & Hids). destruct (Hids q) as (Hq & _); [now left|].
      rewrite (Hpick p q Hp Hq Hpq) in Hs. cbn [obind] in Hs.
      assert (Hr : exists lo wi, (if better p q then (q, p) else (p, q)) = (lo, wi) /\ (if better p q then q else p) = lo /\ valid lo /\ valid wi).
      { destruct (better p q); eauto 10. }
      destruct Hr as (lo & wi & Er & Elo & Hlo & Hwi). rewrite Er in Hs. cbn [fst snd] in Hs.
      destruct (valid_load _ _ lo HJ Hlo) as (v & E & Hv). rewrite E in Hs. cbn [obind] in Hs.
      assert (Hb : znth m lo = Some v) by (unfold load, zget in E; destruct (znth m lo); [congruence|discriminate]).
      destruct (Z.eqb_spec v 0) as [Hv0|Hv0].
      + rewrite Hv0 in Hb. destruct (store m lo wi) as [m''| |] eqn:Es; cbn [obind] in Hs; try discriminate. injection Hs as <- <-. left.
        eapply zeros_store; [exact Hb| |exact Es]. unfold valid in Hwi. lia.
      + injection Hs as <- <-. apply Same; [reflexivity|]. cbn [mu_m]. rewrite Elo, Hb. destruct v; lia.
  Qed.

  Variable todos : list (list Z).
  Hypothesis Htodo : forall b, In b (concat todos) <-> In b dom.
  Lemma start_m : minv pend_m J_m Lo_m (inv0, map MIdle todos).
  Proof.
    split; cbn [fst snd].
    - split; [split; [auto|]; intros p Hp; exists 0; auto|]. intros l q (b & Hb & Hq). right. exists l, q.
      split; [|split; apply rst_refl]. apply Htodo in Hb. apply in_concat in Hb as (t & Ht & Hb).
      apply in_flat_map. exists (MIdle t). split; [now apply in_map|]. cbn. apply in_flat_map. eauto.
    - apply Forall_forall. intros s Hs. apply in_map_iff in Hs as (t & <- & Ht). split; [|exact I]. cbn. intros b Hb.
      apply Htodo. apply in_concat. eauto.
  Qed.

  (** *** The final state *)
  Inductive chases (inv : list Z) : Z -> Z -> Prop :=
  | chases_end p : znth inv p = Some 0 -> chases inv p p
  | chases_go p v r : znth inv p = Some v -> v <> 0 -> chases inv v r -> chases inv p r.
  Lemma chases_exist inv : good inv -> forall p, valid p -> exists r, chases inv p r /\ valid r /\ (r = p \/ better r p = true).
  Proof.
    intros (_ & Hg) p. remember (rank p) as k eqn:Ek. revert p Ek. induction k as [k IH] using lt_wf_ind. intros p Ek Hp.
    destruct (Hg p Hp) as (v & Ev & [->|(V1 & V2 & V3)]).
    - exists p. split; [now constructor|auto].
    - pose proof (rank_lt p v Hp V1 V2) as Hlt. rewrite <- Ek in Hlt. destruct (IH _ Hlt v eq_refl V1) as (r & Hr & Vr & Hb).
      exists r. split; [eapply chases_go; eauto; unfold valid in V1; lia|]. split; [auto|]. right.
      destruct Hb as [->|Hb]; [auto|]. eapply Htr; [exact Vr|exact V1|exact Hp|auto|auto].
  Qed.
  Lemma chases_fun inv p r r' : chases inv p r -> chases inv p r' -> r = r'.
  Proof.
    induction 1 as [p E|p v r E Hv _ IH]; intros H2; inversion H2; subst; try congruence. apply IH. congruence.
  Qed.
  Lemma joint_same inv : good inv -> forall p q, joint inv p q ->
    p = q \/ valid p /\ valid q /\ forall r, chases inv p r <-> chases inv q r.
  Proof.
    intros (_ & Hg) p q H. induction H as [p q (V & E & Hv)|p|p q _ IH|p q r _ IH1 _ IH2].
    - right. destruct (Hg p V) as (v & Ev & [->|(V1 & V2 & V3)]); [congruence|]. assert (v = q) by congruence. subst v.
      split; [auto|]. split; [auto|]. intros r. split.
      + intros Hc. inversion Hc; subst; [congruence|]. congruence.
      + intros Hc. eapply chases_go; eauto.
    - auto.
    - destruct IH as [->|(A & B & C)]; [auto|right]. split; [auto|]. split; [auto|]. intros r. symmetry. apply C.
    - destruct IH1 as [->|(A & B & C)]; [auto|]. destruct IH2 as [->|(A' & B' & C')]; [auto|right].
      split; [auto|]. split; [auto|]. intros x. rewrite C. apply C'.
  Qed.
  Lemma joint_grp inv : good inv -> forall p q, joint inv p q -> grp p q.
  Proof.
    intros (_ & Hg) p q H. induction H as [p q (V & E & Hv)|p|p q _ IH|p q r _ IH1 _ IH2].
    - destruct (Hg p V) as (v & Ev & [->|(V1 & V2 & V3)]); [congruence|]. replace q with v by congruence. auto.
    - apply rst_refl.
    - now apply rst_sym.
    - eapply rst_trans; eauto.
  Qed.

  (** The result, for an arbitrary schedule: an entry keeps invalidated_by = 0 exactly when it is the
      best of its group. *)
  Theorem merge_all :
    always_ends mstp (inv0, map MIdle todos) /\
    forall o, msteps mstp (inv0, map MIdle todos) o ->
      exists inv ss, o = Ok (inv, ss) /\
        (halted mstp (inv, ss) -> zlen inv = zlen inv0 /\
           forall p, valid p -> exists v, znth inv p = Some v /\
             (v = 0 <-> forall q, valid q -> grp p q -> q = p \/ better p q = true)).
  Proof.
    split.
    - eapply (minv_ends _ pend_m J_m Lo_m Jperm_m step_m zeros mu_m down_m), start_m.
    - intros o Ho. destruct (minv_steps _ pend_m J_m Lo_m Jperm_m step_m _ _ start_m Ho) as ((inv & ss) & -> & (HJ & _)).
      exists inv, ss. split; [reflexivity|]. intros Hh.
      assert (Hp : flat_map pend_m ss = []).
      { unfold halted in Hh. cbn [snd fst] in Hh. clear -Hh. induction Hh as [|s ss Hs _ IH]; [reflexivity|]. cbn. rewrite IH.
        destruct s as [[|]| |? []| | |]; try discriminate; reflexivity. }
      cbn in HJ. rewrite Hp in HJ. destruct HJ as (Hg & Hadj). split; [apply Hg|]. intros p Vp.
      destruct (proj2 Hg p Vp) as (v & Ev & Hv). exists v. split; [auto|].
      assert (Hgj : forall a b, grp a b -> joint inv a b).
      { intros a b H. induction H as [a b H| | |]; [|apply rst_refl|now apply rst_sym|eapply rst_trans; eauto].
        destruct (Hadj a b H) as [|(? & ? & [] & _)]. auto. }
      split.
      + intros -> q Vq Gq. destruct (joint_same inv Hg _ _ (Hgj _ _ Gq)) as [->|(_ & _ & Hc)]; [auto|].
        destruct (chases_exist inv Hg q Vq) as (r & Hr & _ & Hb). apply Hc in Hr.
        assert (r = p) by (eapply chases_fun; [exact Hr|now constructor]). subst r. destruct Hb; auto.
      + intros Hbest. destruct Hv as [->|(V1 & V2 & V3)]; [auto|]. exfalso.
        destruct (Hbest v V1 V3) as [->|Hb].
        * rewrite Hirr in V2 by auto. discriminate.
        * pose proof (Htr p v p Vp V1 Vp Hb V2) as E. rewrite Hirr in E by auto. discriminate.
  Qed.
End Merge.
