(** Label resolution on the GPU under every schedule, and the distribution of the work. *)
From Verif Require Export CcCudaSpec NdMemFacts CudaDriftProofs.
From Coq Require Import ZifyBool ZifyNat Permutation.
Ltac Zify.zify_post_hook ::= Z.div_mod_to_equations.
Local Open Scope Z_scope.

Lemma grid_stride_nodup G N fuel : forall f0, 0 < G -> NoDup (grid_stride fuel f0 G N).
Proof.
  induction fuel as [|fuel IH]; intros f0 HG; cbn [grid_stride]; [constructor|].
  destruct (f0 <? N); constructor; auto. rewrite in_grid_stride by auto. intros (q & Hq & E & _). nia.
Qed.

Lemma nodup_flat_map {A B} (f : A -> list B) l : NoDup l -> (forall a, In a l -> NoDup (f a)) ->
  (forall a b x, In a l -> In b l -> In x (f a) -> In x (f b) -> a = b) -> NoDup (flat_map f l).
Proof.
  induction 1 as [|a l Ha Hl IH]; intros H1 H2; cbn; [constructor|].
  apply nodup_app.
  - apply H1. now left.
  - apply IH; [intros; apply H1; now right|]. intros; eapply H2; eauto; now right.
  - intros x Hx Hx'. apply in_flat_map in Hx' as (b & Hb & Hx').
    assert (a = b) by (eapply H2; eauto; [now left|now right]). subst. auto.
Qed.

Lemma work_spread D N G : 0 < G -> Permutation (concat (work D N G)) (zrange (D * N)).
Proof.
  intros HG. unfold work. rewrite <- flat_map_concat_map. apply NoDup_Permutation.
  - apply nodup_flat_map; [apply zrange_nodup|intros; now apply grid_stride_nodup|].
    intros a b x Ha Hb Hxa Hxb. apply in_zrange in Ha, Hb.
    apply in_grid_stride in Hxa as (q & Hq & E1 & _); auto. apply in_grid_stride in Hxb as (q' & Hq' & E2 & _); auto.
    assert (q = q') by nia. nia.
  - apply zrange_nodup.
  - intros x. rewrite in_flat_map, in_zrange. split.
    + intros (t & Ht & Hx). apply in_zrange in Ht. apply in_grid_stride in Hx as (q & Hq & -> & Hx); auto. nia.
    + intros Hx. exists (x mod G). split; [apply in_zrange; lia|]. apply in_grid_stride; auto.
      exists (x / G). split; [|split; [|lia]].
      * split; [apply Z.div_pos; lia|]. rewrite Z2Nat.id by lia. apply Z.le_lt_trans with x; [apply Z.div_le_upper_bound; nia|lia].
      * pose proof (Z.div_mod x G). lia.
Qed.

Lemma list_sum_cons a l : list_sum (a :: l) = (a + list_sum l)%nat.
Proof. reflexivity. Qed.

Section Resolve.
  Variables (fnl : Z) (lab0 : list Z) (root : Z -> Z) (hgt : Z -> nat).
  Hypothesis Hf : 8 <= fnl.
  (** Every bin has a chain, measured by [hgt] and ending with [root]. *)
  Hypothesis Hch : forall n, 0 <= n < zlen lab0 -> exists v, znth lab0 n = Some v /\
    (v < fnl /\ root n = v \/
     fnl < v /\ v - fnl < zlen lab0 /\ root (v - fnl) = root n /\ (hgt (v - fnl) < hgt n)%nat).

  Definition pend_r (s : rstate) : list Z :=
    match s with RIdle t => t | RTop n t => n :: t | RClimb n _ t => n :: t end.
  Definition J_r (lab : list Z) (pend : list Z) : Prop :=
    zlen lab = zlen lab0 /\
    forall n, 0 <= n < zlen lab0 -> znth lab n = Some (root n) \/ In n pend /\ znth lab n = znth lab0 n.
  Definition Lo_r (lab : list Z) (s : rstate) : Prop :=
    (forall n, In n (pend_r s) -> 0 <= n < zlen lab0) /\
    match s with
    | RIdle _ | RTop _ _ => True
    | RClimb n comp _ => comp < fnl /\ comp = root n \/
                         fnl < comp /\ comp - fnl < zlen lab0 /\ root (comp - fnl) = root n
    end.
  Definition mu_r (lab : list Z) (s : rstate) : nat :=
    let rest t := list_sum (map (fun n => (hgt n + 4)%nat) t) in
    match s with
    | RIdle t => rest t
    | RTop n t => (hgt n + 3 + rest t)%nat
    | RClimb n comp t => ((if (fnl <? comp)%Z then hgt (comp - fnl)%Z + 2 else 1) + rest t)%nat
    end.

  Lemma root_low n : 0 <= n < zlen lab0 -> root n < fnl.
  Proof.
    remember (hgt n) as k eqn:Ek. revert n Ek. induction k as [k IH] using lt_wf_ind. intros n Ek Hn.
    destruct (Hch n Hn) as (v & _ & [(H1 & ->)|(H1 & H2 & <- & H4)]); [lia|]. apply (IH (hgt (v - fnl))); lia.
  Qed.
  (** What a read of bin [n] can return. *)
  Lemma read_r lab pend n : J_r lab pend -> 0 <= n < zlen lab0 -> exists v, load lab n = Ok v /\
    (v < fnl /\ v = root n \/ fnl < v /\ v - fnl < zlen lab0 /\ root (v - fnl) = root n /\ (hgt (v - fnl) < hgt n)%nat).
  Proof.
    intros (_ & HJ) Hn. destruct (HJ n Hn) as [E|(_ & E)].
    - exists (root n). split; [now apply load_some|]. left. pose proof (root_low n Hn). lia.
    - destruct (Hch n Hn) as (v & Ev & Hv). rewrite Ev in E. exists v. split; [now apply load_some|].
      destruct Hv as [(H1 & H2)|Hv]; [left; lia|right; lia].
  Qed.

  Lemma Jperm_r : forall m l l', Permutation l l' -> J_r m l -> J_r m l'.
  Proof.
    intros m l l' Hp (H1 & H2). split; [auto|]. intros n Hn. destruct (H2 n Hn) as [E|(Hi & E)]; [auto|right].
    split; [eapply Permutation_in; eauto|auto].
  Qed.
  Lemma step_r : forall m s o rest, resolve_step fnl m s = Some o -> Lo_r m s -> J_r m (pend_r s ++ rest) ->
    exists m' s', o = Ok (m', s') /\ Lo_r m' s' /\ J_r m' (pend_r s' ++ rest) /\ (forall s2, Lo_r m s2 -> Lo_r m' s2).
  Proof.
    intros m s o rest Hs (Hr & Hl) HJ. assert (HJ0 := HJ). destruct HJ0 as (HL & HJ1).
    destruct s as [[|n t]|n t|n comp t]; cbn [resolve_step] in Hs; try discriminate; injection Hs as <-; cbn [pend_r app] in *.
    - assert (Hn : 0 <= n < zlen lab0) by (apply Hr; now left).
      destruct (read_r _ _ n HJ Hn) as (v & E & Hv). rewrite E. cbn [obind].
      destruct ((8 <=? v) && (fnl <? v)) eqn:B.
      + exists m, (RTop n t). split; [reflexivity|]. split; [split; [exact Hr|exact I]|]. split; [exact HJ|auto].
      + exists m, (RIdle t). split; [reflexivity|]. split; [split; [intros; apply Hr; now right|exact I]|]. split; [|auto].
        split; [auto|]. intros k Hk. cbn [pend_r]. destruct (HJ1 k Hk) as [G|([->|Hi] & G)]; [auto| |right; auto].
        left. unfold load, zget in E. destruct (znth m k) as [w|] eqn:Ew; [|discriminate]. injection E as ->.
        destruct Hv as [(_ & ->)|]; [reflexivity|lia].
    - assert (Hn : 0 <= n < zlen lab0) by (apply Hr; now left).
      destruct (read_r _ _ n HJ Hn) as (v & E & Hv). rewrite E. cbn [obind].
      exists m, (RClimb n v t). split; [reflexivity|]. split; [split; [exact Hr|]|split; [exact HJ|auto]]. cbn beta iota. lia.
    - assert (Hn : 0 <= n < zlen lab0) by (apply Hr; now left).
      destruct (Z.ltb_spec fnl comp) as [Hc|Hc].
      + destruct Hl as [Hl|(_ & Hl1 & Hl2)]; [lia|].
        destruct (read_r _ _ (comp - fnl) HJ ltac:(lia)) as (v & E & Hv). rewrite E. cbn [obind].
        exists m, (RClimb n v t). split; [reflexivity|]. split; [split; [exact Hr|]|split; [exact HJ|auto]]. cbn beta iota. lia.
      + destruct Hl as [(H1 & H2)|Hl]; [|lia]. replace (comp <? fnl) with true by lia.
        assert (Hn' : 0 <= n < zlen m) by lia.
        destruct (NdMemFacts.store_ok m n comp Hn') as (m' & E & E1 & E2 & E3). rewrite E. cbn [obind].
        exists m', (RIdle t). split; [reflexivity|]. split; [split; [intros; apply Hr; now right|exact I]|]. split; [|auto].
        split; [lia|]. intros k Hk. cbn [pend_r]. destruct (Z.eq_dec k n) as [->|Hne]; [left; congruence|].
        rewrite E3 by auto. destruct (HJ1 k Hk) as [G|([G|G] & G')]; [auto|congruence|auto].
  Qed.
  Lemma down_r : forall m s m' s', resolve_step fnl m s = Some (Ok (m', s')) -> Lo_r m s -> (exists rest, J_r m (pend_r s ++ rest)) ->
    (0 < 0)%nat \/ 0%nat = 0%nat /\ (forall s2, Lo_r m s2 -> mu_r m' s2 = mu_r m s2) /\ (mu_r m' s' < mu_r m s)%nat.
  Proof.
    intros m s m' s' Hs (Hr & Hl) (rest & HJ). right. split; [reflexivity|]. split; [reflexivity|].
    destruct s as [[|n t]|n t|n comp t]; cbn [resolve_step] in Hs; try discriminate; cbn [pend_r app] in *.
    - assert (Hn : 0 <= n < zlen lab0) by (apply Hr; now left).
      destruct (read_r _ _ n HJ Hn) as (v & E & Hv). rewrite E in Hs. cbn [obind] in Hs. injection Hs as <- <-.
      destruct ((8 <=? v) && (fnl <? v)) eqn:B; cbn [mu_r map]; rewrite ?list_sum_cons; lia.
    - assert (Hn : 0 <= n < zlen lab0) by (apply Hr; now left).
      destruct (read_r _ _ n HJ Hn) as (v & E & Hv). rewrite E in Hs. cbn [obind] in Hs. injection Hs as <- <-.
      cbn. destruct (Z.ltb_spec fnl v); lia.
    - assert (Hn : 0 <= n < zlen lab0) by (apply Hr; now left).
      cbn [mu_r]. destruct (Z.ltb_spec fnl comp) as [Hc|Hc].
      + destruct Hl as [Hl|(_ & Hl1 & Hl2)]; [lia|].
        destruct (read_r _ _ (comp - fnl) HJ ltac:(lia)) as (v & E & Hv). rewrite E in Hs. cbn [obind] in Hs. injection Hs as <- <-.
        cbn [mu_r]. destruct (Z.ltb_spec fnl v); lia.
      + destruct (store m n (if comp <? fnl then comp else 0)); cbn in Hs; try discriminate. injection Hs as <- <-. cbn. lia.
  Qed.

  Variable todos : list (list Z).
  Hypothesis Htodo : forall n, In n (concat todos) <-> 0 <= n < zlen lab0.
  Lemma start_r : minv pend_r J_r Lo_r (lab0, map RIdle todos).
  Proof.
    assert (E : flat_map pend_r (map RIdle todos) = concat todos)
      by (rewrite flat_map_concat_map, map_map; cbn; now rewrite map_id).
    split; cbn [fst snd].
    - rewrite E. split; [auto|]. intros n Hn. right. split; [now apply Htodo|auto].
    - apply Forall_forall. intros s Hs. apply in_map_iff in Hs as (t & <- & Ht). split; [|exact I]. cbn. intros n Hn.
      apply Htodo. apply in_concat. eauto.
  Qed.
  Theorem resolve_all :
    always_ends (resolve_step fnl) (lab0, map RIdle todos) /\
    forall o, msteps (resolve_step fnl) (lab0, map RIdle todos) o ->
      exists lab ss, o = Ok (lab, ss) /\
        (halted (resolve_step fnl) (lab, ss) ->
         zlen lab = zlen lab0 /\ forall n, 0 <= n < zlen lab0 -> znth lab n = Some (root n)).
  Proof.
    split.
    - eapply (minv_ends _ pend_r J_r Lo_r Jperm_r step_r (fun _ => 0%nat) mu_r down_r), start_r.
    - intros o Ho. destruct (minv_steps _ pend_r J_r Lo_r Jperm_r step_r _ _ start_r Ho) as ((lab & ss) & -> & (HJ & _)).
      exists lab, ss. split; [reflexivity|]. intros Hh.
      assert (Hp : flat_map pend_r ss = []).
      { unfold halted in Hh. cbn [snd fst] in Hh. clear -Hh. induction Hh as [|s ss Hs _ IH]; [reflexivity|]. cbn. rewrite IH.
        destruct s as [[|]| |]; try discriminate; reflexivity. }
      cbn in HJ. rewrite Hp in HJ. destruct HJ as (H1 & H2). split; [auto|]. intros n Hn. destruct (H2 n Hn) as [|([] & _)]; auto.
  Qed.
End Resolve.

(** From chains to the functions used above. *)
Fixpoint climb (fnl : Z) (lab : list Z) (fuel : nat) (n : Z) : option (Z * nat) :=
  match fuel, znth lab n with
  | S fuel', Some v => if v <? fnl then Some (v, O)
                       else if fnl <? v then option_map (fun x => (fst x, S (snd x))) (climb fnl lab fuel' (v - fnl)) else None
  | _, _ => None
  end.
Lemma climb_chain fnl lab n r k : chain fnl lab n r k -> forall fuel, (k < fuel)%nat -> climb fnl lab fuel n = Some (r, k).
Proof.
  induction 1 as [n v E Hv|n v r k E Hv Hc IH]; intros [|fuel] Hk; try lia; cbn [climb]; rewrite E.
  - now replace (v <? fnl) with true by lia.
  - replace (v <? fnl) with false by lia. replace (fnl <? v) with true by lia. rewrite IH by lia. reflexivity.
Qed.
Lemma chain_bound fnl lab : (forall n, 0 <= n < zlen lab -> exists r k, chain fnl lab n r k) ->
  exists K, forall n, 0 <= n < zlen lab -> exists r k, chain fnl lab n r k /\ (k < K)%nat.
Proof.
  intros H. assert (G : forall l, (forall n, In n l -> 0 <= n < zlen lab) ->
    exists K, forall n, In n l -> exists r k, chain fnl lab n r k /\ (k < K)%nat).
  { induction l as [|a l IH]; intros Hl; [exists O; intros n []|].
    destruct IH as (K & HK); [intros; apply Hl; now right|]. destruct (H a) as (r & k & Hc); [apply Hl; now left|].
    exists (Nat.max K (S k)). intros n [<-|Hn]; [exists r, k; split; [auto|lia]|].
    destruct (HK n Hn) as (r' & k' & Hc' & Hk). exists r', k'. split; [auto|lia]. }
  destruct (G (zrange (zlen lab))) as (K & HK); [intros; now apply in_zrange|]. exists K. intros n Hn. apply HK. now apply in_zrange.
Qed.

Theorem resolve_chains fnl lab0 todos : 8 <= fnl ->
  (forall n, 0 <= n < zlen lab0 -> exists r k, chain fnl lab0 n r k) ->
  (forall n, In n (concat todos) <-> 0 <= n < zlen lab0) ->
  always_ends (resolve_step fnl) (lab0, map RIdle todos) /\
  forall o, msteps (resolve_step fnl) (lab0, map RIdle todos) o ->
    exists lab ss, o = Ok (lab, ss) /\
      (halted (resolve_step fnl) (lab, ss) ->
       zlen lab = zlen lab0 /\ forall n r k, 0 <= n < zlen lab0 -> chain fnl lab0 n r k -> znth lab n = Some r).
Proof.
  intros Hf Hch Ht. destruct (chain_bound _ _ Hch) as (K & HK).
  set (root := fun n => match climb fnl lab0 K n with Some x => fst x | None => 0 end).
  set (hgt := fun n => match climb fnl lab0 K n with Some x => snd x | None => O end).
  assert (E : forall n, 0 <= n < zlen lab0 -> exists r k, chain fnl lab0 n r k /\ climb fnl lab0 K n = Some (r, k)).
  { intros n Hn. destruct (HK n Hn) as (r & k & Hc & Hk). exists r, k. split; [auto|now apply climb_chain]. }
  destruct (resolve_all fnl lab0 root hgt Hf) with (todos := todos) as (H1 & H2); auto.
  - intros n Hn. destruct (E n Hn) as (r & k & Hc & Ec). inversion Hc as [a v Ev Hv|a v r' k' Ev Hv Hc']; subst.
    + exists r. split; [auto|]. left. split; [auto|]. unfold root. now rewrite Ec.
    + exists v. split; [auto|]. right. assert (Hin : 0 <= v - fnl < zlen lab0).
      { inversion Hc'; subst; eapply znth_bounds; eassumption. }
      destruct (HK n Hn) as (r2 & k2 & Hc2 & Hk2). pose proof (climb_chain _ _ _ _ _ Hc2 K Hk2) as E2. rewrite Ec in E2. injection E2 as <- <-.
      pose proof (climb_chain _ _ _ _ _ Hc' K ltac:(lia)) as E3.
      split; [auto|]. split; [lia|]. unfold root, hgt. rewrite Ec, E3. cbn. split; [auto|lia].
  - split; [exact H1|]. intros o Ho. destruct (H2 o Ho) as (lab & ss & -> & Hh). exists lab, ss. split; [reflexivity|].
    intros Hx. destruct (Hh Hx) as (G1 & G2). split; [auto|]. intros n r k Hn Hc. rewrite (G2 n Hn).
    destruct (HK n Hn) as (r2 & k2 & Hc2 & Hk2). unfold root. rewrite (climb_chain _ _ _ _ _ Hc2 K Hk2). cbn.
    pose proof (climb_chain _ _ _ _ _ Hc (S (Nat.max k k2)) ltac:(lia)) as E1.
    pose proof (climb_chain _ _ _ _ _ Hc2 (S (Nat.max k k2)) ltac:(lia)) as E2. congruence.
Qed.
