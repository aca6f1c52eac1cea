(** Every interleaving of the GPU reduction kernels leaves the same outputs. *)
From Verif Require Export GredIndex GpuFacts.
From Coq Require Import ZifyBool ZifyNat.
Ltac Zify.zify_post_hook ::= Z.div_mod_to_equations.
Local Open Scope Z_scope.

Lemma gaddr_eqb_spec x y : gaddr_eqb x y = true <-> x = y.
Proof.
  destruct x, y; cbn; try (split; [discriminate|congruence]); try tauto;
    rewrite ?andb_true_iff, ?Z.eqb_eq; split; try (intros ->; reflexivity); try (intros (-> & ->); reflexivity); intros E; injection E; auto.
Qed.

Section Runs.
  Context {A V : Type} (eqA : A -> A -> bool) (eqA_spec : forall x y, eqA x y = true <-> x = y).
  Variables (Ac R W : A -> Prop).
  Notation mem := (gpumem (A := A) (V := V)).
  Notation gset := (gset eqA).
  (** A thread alone from [m] to its next barrier or end. *)
  Definition runs (p : bprog A V) (m mt : mem) (q : bprog A V) : Prop :=
    within (V := V) eqA Ac R W p m /\ exists m', exec (V := V) eqA p m = Some (m', [], q) /\ forall a, m' a = mt a.

  Lemma exec_ext p : forall m m', (forall a, m a = m' a) -> 
    (within (V := V) eqA Ac R W p m -> within (V := V) eqA Ac R W p m') /\
    forall mt l q, exec (V := V) eqA p m = Some (mt, l, q) -> exists mt', exec (V := V) eqA p m' = Some (mt', l, q) /\ forall a, mt a = mt' a.
  Proof.
    induction p as [|a k IH|a v p IH|a v p IH|p IH]; intros m m' H; cbn.
    - split; [auto|]. intros mt l q E. injection E as <- <- <-. eauto.
    - rewrite <- (H a). destruct (m a) as [v|]; [|split; [tauto|discriminate]]. destruct (IH v m m' H) as (I1 & I2). split; [tauto|exact I2].
    - assert (H' : forall b, gset m a v b = gset m' a v b) by (intros b; unfold GpuModel.gset; destruct (eqA a b); auto).
      destruct (IH _ _ H') as (I1 & I2). rewrite <- (H a). split; [tauto|]. destruct (m a); [exact I2|discriminate].
    - destruct (IH _ _ H) as (I1 & I2). split; [tauto|]. intros mt l q E.
      destruct (exec (V := V) eqA p m) as [[[m1 l1] q1]|]; [|discriminate]. injection E as <- <- <-.
      destruct (I2 _ _ _ eq_refl) as (mt' & -> & Hm). eauto.
    - split; [auto|]. intros mt l q E. injection E as <- <- <-. eauto.
  Qed.

  Lemma runs_ext p m m' mt mt' q : (forall a, m a = m' a) -> (forall a, mt a = mt' a) -> runs p m mt q -> runs p m' mt' q.
  Proof.
    intros H H' (Hw & m1 & E & Hm). destruct (exec_ext p m m' H) as (I1 & I2). split; [auto|].
    destruct (I2 _ _ _ E) as (m2 & E2 & H2). exists m2. split; [exact E2|]. intros a. rewrite <- H2, Hm. auto.
  Qed.
  Lemma runs_ret m : runs BRet m m BRet.
  Proof. split; [exact I|]. exists m. auto. Qed.
  Lemma runs_bar q m : runs (BBar q) m m (BBar q).
  Proof. split; [exact I|]. exists m. auto. Qed.
  Lemma runs_rd a k v m mt q : m a = Some v -> R a \/ W a -> runs (k v) m mt q -> runs (BRd a k) m mt q.
  Proof. intros E Ha (Hw & Hm). split; cbn; rewrite E; auto. Qed.
  Lemma runs_wr a v p m mt q : m a <> None -> W a -> runs p (gset m a v) mt q -> runs (BWr a v p) m mt q.
  Proof. intros E Ha (Hw & Hm). split; cbn; [auto|]. destruct (m a); [exact Hm|contradiction]. Qed.

  Lemma gset_gset (m : mem) a v w b : gset (gset m a v) a w b = gset m a w b.
  Proof. unfold GpuModel.gset. destruct (eqA a b); reflexivity. Qed.
End Runs.

Section Block.
  Context {X S C Y : Type} (K : kernel X S C Y).
  Variables (osh ost ash ast mst axes : list Z) (rf B G : Z).
  Hypothesis (HP : posl ash) (HB : 0 < B) (HG : 0 < G).
  Notation gv := (gval X S Y).
  Notation gm := (gpumem (A := gaddr) (V := gv)).
  Notation gset := (gset gaddr_eqb).
  Notation runs := (runs gaddr_eqb).

  (** The input: element j of output i, and its mask byte. *)
  Variables (xv : Z -> Z -> X) (mv : Z -> Z -> Z).
  Definition input_ok (m : gm) : Prop := forall i j,
    m (GIn (lin (pos ash axes i j) ast)) = Some (VX (xv i j)) /\
    (k_masked K = true -> m (GMask (lin (pos ash axes i j) mst)) = Some (VM (mv i j))).

  (** The accumulation of elements j, j+B, ... *)
  Fixpoint accs (n : nat) (i j : Z) (sc : S * C) : S * C :=
    match n with
    | O => sc
    | Datatypes.S n' => accs n' i (j + B) (if k_masked K && negb (mv i j =? 0) then sc else k_upd K (fst sc) (snd sc) (xv i j))
    end.

  Lemma input_ok_sh m b t v : input_ok m -> input_ok (gset m (GSh b t) v).
  Proof. intros H i j. unfold GpuModel.gset. cbn. apply H. Qed.
  Lemma gset_same' (m : gm) a v : gset m a v a = Some v.
  Proof. unfold GpuModel.gset. now rewrite (proj2 (gaddr_eqb_spec a a) eq_refl). Qed.

  Lemma acc_runs (R W : gaddr -> Prop) b t mt q (k : C -> gprog X S Y) n : (forall i, R (GIn i)) -> (forall i, R (GMask i)) -> W (GSh b t) ->
    forall i j s c m, 0 <= j -> input_ok m -> m (GSh b t) = Some (VS s) ->
    runs (fun _ => False) R W (k (snd (accs n i j (s, c)))) (gset m (GSh b t) (VS (fst (accs n i j (s, c))))) mt q ->
    runs (fun _ => False) R W (acc_loop K ash ast mst axes B b t n (pos ash axes i j) c k) m mt q.
  Proof.
    intros HR1 HR2 HW. induction n as [|n IH]; intros i j s c m Hj Hin Hs Hk; cbn [acc_loop accs fst snd] in *.
    - eapply runs_ext; [| |exact Hk]; [|reflexivity]. intros a. unfold GpuModel.gset. destruct (gaddr_eqb _ a) eqn:E; [|reflexivity].
      apply gaddr_eqb_spec in E. subst a. now rewrite Hs.
    - rewrite bump_red by (auto; lia).
      assert (BODY : k_masked K && negb (mv i j =? 0) = false ->
        runs (fun _ => False) R W (BRd (GIn (lin (pos ash axes i j) ast)) (fun v => match v with
          | VX x => BRd (GSh b t) (fun u => match u with
                    | VS s => let sc := k_upd K s c x in BWr (GSh b t) (VS (fst sc)) (acc_loop K ash ast mst axes B b t n (pos ash axes i (j + B)) (snd sc) k)
                    | _ => stuck end)
          | _ => stuck end)) m mt q).
      { intros Em. rewrite Em in Hk. destruct (Hin i j) as (Hx & _).
        eapply runs_rd; [exact Hx|auto|]. eapply runs_rd; [exact Hs|auto|]. cbn zeta.
        apply runs_wr; [congruence|exact HW|].
        destruct (k_upd K s c (xv i j)) as [s' c'] eqn:Eu. cbn [fst snd] in *.
        apply (IH i (j + B) s' c'); [lia|now apply input_ok_sh|apply gset_same'|].
        eapply runs_ext; [| |exact Hk]; [|reflexivity]. intros a. symmetry. apply gset_gset. }
      destruct (k_masked K) eqn:Ek; [|now apply BODY].
      destruct (Hin i j) as (_ & Hm). specialize (Hm Ek). eapply runs_rd; [exact Hm|auto|].
      cbn [andb] in *. destruct (mv i j =? 0) eqn:E0; [now apply BODY|]. cbn [negb] in Hk.
      apply (IH i (j + B) s c); auto. lia.
  Qed.

  (** ** The block: shared memory as a function of the thread number. *)
  Definition msh (m : gm) (b : Z) (f : Z -> S) : gm :=
    fun a => match a with
    | GSh b' t => if (b' =? b) && (0 <=? t) && (t <? B) then Some (VS (f t)) else m a
    | _ => m a
    end.
  Definition mout (m : gm) (ws : list (gaddr * gv)) : gm := fold_left (fun m w => gset m (fst w) (snd w)) ws m.
  Fixpoint ws_of (k : Z) (fs : list (S -> Y)) (oidx : list (list Z)) (s : S) : list (gaddr * gv) :=
    match fs, oidx with
    | f :: fs', o :: oidx' => (GOut k (lin o ost), VY (f s)) :: ws_of (k + 1) fs' oidx' s
    | _, _ => []
    end.
  Definition pend_ws (pend : option (list (list Z))) (s : S) : list (gaddr * gv) :=
    match pend with None => [] | Some o => ws_of 0 (k_outs K) o s end.
  Definition pend_prog (b t : Z) (pend : option (list (list Z))) (p : gprog X S Y) : gprog X S Y :=
    match pend with None => p | Some o => write_out K ost b t o p end.

  Lemma msh_in m b f t : 0 <= t < B -> msh m b f (GSh b t) = Some (VS (f t)).
  Proof. intros H. cbn. rewrite Z.eqb_refl. replace (0 <=? t) with true by lia. replace (t <? B) with true by lia. reflexivity. Qed.
  Lemma mout_app m w w' : mout m (w ++ w') = mout (mout m w) w'.
  Proof. apply fold_left_app. Qed.
  Lemma mout_other ws : forall m a, ~ In a (map fst ws) -> mout m ws a = m a.
  Proof.
    induction ws as [|[b v] ws IH]; intros m a H; [reflexivity|]. change (mout (gset m b v) ws a = m a). cbn in H. rewrite IH by tauto.
    apply (gset_other gaddr_eqb gaddr_eqb_spec). intros ->. tauto.
  Qed.
  Lemma mout_ext ws : forall m m' a, m a = m' a -> mout m ws a = mout m' ws a.
  Proof. induction ws as [|[b v] ws IH]; intros m m' a H; [exact H|]. apply (IH (gset m b v) (gset m' b v)). unfold GpuModel.gset. now destruct (gaddr_eqb b a). Qed.
  Lemma mout_defined ws : forall m a, m a <> None -> mout m ws a <> None.
  Proof. induction ws as [|[b v] ws IH]; intros m a H; [exact H|]. apply (IH (gset m b v)). unfold GpuModel.gset. now destruct (gaddr_eqb b a). Qed.
  Lemma ws_of_keys fs : forall k oidx s a, In a (map fst (ws_of k fs oidx s)) -> exists k' i, a = GOut k' i.
  Proof. induction fs as [|f fs IH]; intros k [|o oidx] s a H; cbn in *; try tauto. destruct H as [<-|H]; eauto. Qed.
  Lemma pend_keys p s a : In a (map fst (pend_ws p s)) -> exists k' i, a = GOut k' i.
  Proof. destruct p; cbn; [apply ws_of_keys|tauto]. Qed.
  Lemma ws_keys_indep fs : forall k oidx s s', map fst (ws_of k fs oidx s) = map fst (ws_of k fs oidx s').
  Proof. induction fs as [|f fs IH]; intros k [|o oidx] s s'; cbn; auto. f_equal. apply IH. Qed.

  Lemma msh_mout m b f ws a : (forall x, In x (map fst ws) -> exists k i, x = GOut k i) -> mout (msh m b f) ws a = msh (mout m ws) b f a.
  Proof.
    intros H. destruct a; try (apply mout_ext; reflexivity).
    rewrite mout_other by (intros Hi; apply H in Hi as (? & ? & E); discriminate). cbn.
    destruct ((b0 =? b) && (0 <=? t) && (t <? B)); [reflexivity|].
    symmetry. apply mout_other. intros Hi; apply H in Hi as (? & ? & E); discriminate.
  Qed.

  (** ** The block's cells: [own] are its outputs. *)
  Variable (b : Z) (own : gaddr -> Prop).
  Hypothesis own_out : forall a, own a -> exists k i, a = GOut k i.
  Definition D (a : gaddr) : Prop := match a with GIn _ | GMask _ => True | GSh b' _ => b' = b | GOut _ _ => own a | GBad => False end.
  Definition Ow (a : gaddr) : Prop := match a with GSh b' _ => b' = b | GOut _ _ => own a | _ => False end.

  Definition keys_ok (m : gm) (ks : list gaddr) : Prop := Forall (fun a => own a /\ m a <> None) ks.

  (** Thread 0's stores. *)
  Lemma store_runs (R W : gaddr -> Prop) mt q fs : forall k oidx s m p, 
    Forall (fun a => W a /\ m a <> None) (map fst (ws_of k fs oidx s)) ->
    runs (fun _ => False) R W p (mout m (ws_of k fs oidx s)) mt q ->
    runs (fun _ => False) R W (store_outs ost k fs oidx s p) m mt q.
  Proof.
    induction fs as [|f fs IH]; intros k [|o oidx] s m p HW Hp; cbn in *; auto.
    inversion HW as [|? ? (H1 & H2) H3]; subst. apply runs_wr; auto. apply IH; [|exact Hp].
    eapply Forall_impl; [|exact H3]. cbn. intros a (Ha & Hb). split; [exact Ha|]. unfold GpuModel.gset. now destruct (gaddr_eqb _ a).
  Qed.

  (** The footprint of thread t in a phase that writes its slot (if [w]), reads slot t+s, and stores pending outputs. *)
  Definition tW (w : bool) (ks : list gaddr) (t : Z) (a : gaddr) : Prop := (w = true /\ a = GSh b t) \/ (t = 0 /\ In a ks).
  Definition tR (rd : Z -> Z) (t : Z) (a : gaddr) : Prop :=
    match a with GIn _ | GMask _ => True | GSh b' u => b' = b /\ (u = t \/ u = rd t) | _ => False end.

  Definition info (w : Z -> bool) ks rd (e : Z -> gprog X S Y) (t : Z) : tinfo (A := gaddr) (V := gv) :=
    Tinfo (tR rd t) (tW (w t) ks t) [] (e t).

  Lemma phase_of w ks rd (ps es : Z -> gprog X S Y) m m1 mt :
    (forall x, In x ks -> own x) ->
    (forall t, 0 <= t < B -> 0 <= rd t < B /\ (rd t <> t -> w (rd t) = false)) ->
    (forall t, 0 <= t < B -> runs (fun _ => False) (tR rd t) (tW (w t) ks t) (ps t) m (mt t) (es t)) ->
    (forall t a, 0 <= t < B -> tW (w t) ks t a -> mt t a = m1 a) ->
    (forall a, D a -> m a = m1 a \/ exists t, 0 <= t < B /\ tW (w t) ks t a) ->
    phase gaddr_eqb (fun _ => False) D Ow m m1 (map ps (zrange B)) (map (info w ks rd es) (zrange B)).
  Proof.
    intros Hks Hrd Hr Hm Hf. split; [|split; [|split]].
    - assert (G0 : forall l, (forall t, In t l -> 0 <= t < B) -> Forall2 (tok gaddr_eqb (fun _ => False) m m1) (map ps l) (map (info w ks rd es) l)).
      { induction l as [|t l IH]; intros Hl; cbn; constructor; [|apply IH; intros; apply Hl; now right].
        destruct (Hr t (Hl t (or_introl eq_refl))) as (Hw & m' & E & Hm'). split; [exact Hw|].
        exists m'. split; [exact E|]. intros c Hc. cbn in Hc. rewrite Hm'. apply Hm; [apply Hl; now left|exact Hc]. }
      apply G0. intros t Ht. now apply in_zrange in Ht.
    - intros i j u v Hi Hj Hne a Ha Hb. rewrite nth_error_map in Hi, Hj.
      destruct (nth_error (zrange B) i) as [t1|] eqn:E1; [|discriminate]. destruct (nth_error (zrange B) j) as [t2|] eqn:E2; [|discriminate].
      cbn in Hi, Hj. injection Hi as <-. injection Hj as <-. cbn in Ha, Hb.
      assert (t1 <> t2). { intros ->. apply Hne. eapply NoDup_nth_error; [apply (zrange_nodup B)|apply nth_error_Some; congruence|congruence]. }
      pose proof (nth_error_In _ _ E1) as I1. pose proof (nth_error_In _ _ E2) as I2. apply in_zrange in I1, I2.
      destruct Ha as [(Hw & ->)|(-> & Hk)].
      + destruct Hb as [Hb|[(_ & Hb)|(_ & Hb)]].
        * cbn in Hb. destruct Hb as (_ & [Hb|Hb]); [lia|]. destruct (Hrd t2 I2) as (_ & Hx). rewrite <- Hb in Hx. specialize (Hx ltac:(lia)). congruence.
        * injection Hb as Hb. lia.
        * apply Hks, own_out in Hb as (? & ? & Hb). discriminate.
      + destruct Hb as [Hb|[(_ & Hb)|(Hb & _)]]; [| |lia].
        * apply Hks, own_out in Hk as (? & ? & ->). cbn in Hb. exact Hb.
        * apply Hks, own_out in Hk as (? & ? & ->). discriminate.
    - apply Forall_map, Forall_forall. intros t Ht. split; cbn.
      + intros [] Ha; cbn in *; tauto.
      + intros a [(_ & ->)|(_ & Ha)]; [cbn; auto|]. apply Hks in Ha as Ho. destruct (own_out a Ho) as (? & ? & ->). cbn. auto.
    - intros a Ha. destruct (Hf a Ha) as [E|(t & Ht & Hw)]; [auto|right]. apply Exists_exists. exists (info w ks rd es t).
      split; [|exact Hw]. apply in_map, in_zrange. exact Ht.
  Qed.

  Notation blockrun := (blockrun (V := gv) gaddr_eqb (fun _ => False) D Ow).
  Lemma no_log w ks rd es l : flat_map (@tlog _ _) (map (info w ks rd es) l) = [].
  Proof. induction l; cbn; auto. Qed.
  Lemma range_some {Z'} (f : Z -> Z') : map f (zrange B) <> [].
  Proof. rewrite zrange_cons by lia. discriminate. Qed.

  Lemma run_next w ks rd ps qs m m1 mt m2 :
    (forall x, In x ks -> own x) ->
    (forall t, 0 <= t < B -> 0 <= rd t < B /\ (rd t <> t -> w (rd t) = false)) ->
    (forall t, 0 <= t < B -> runs (fun _ => False) (tR rd t) (tW (w t) ks t) (ps t) m (mt t) (BBar (qs t))) ->
    (forall t a, 0 <= t < B -> tW (w t) ks t a -> mt t a = m1 a) ->
    (forall a, D a -> m a = m1 a \/ exists t, 0 <= t < B /\ tW (w t) ks t a) ->
    blockrun m1 (map qs (zrange B)) m2 [] -> blockrun m (map ps (zrange B)) m2 [].
  Proof.
    intros H1 H2 H3 H4 H5 H6. pose proof (phase_of w ks rd ps (fun t => BBar (qs t)) m m1 mt H1 H2 H3 H4 H5) as Hp.
    pose proof (br_next (V := gv) gaddr_eqb (fun _ => False) D Ow m m1 m2 _ _ (map qs (zrange B)) [] Hp (range_some qs)) as Q.
    rewrite no_log in Q. apply Q; [|exact H6]. rewrite !map_map. reflexivity.
  Qed.
  Lemma run_last w ks rd ps m m1 mt :
    (forall x, In x ks -> own x) ->
    (forall t, 0 <= t < B -> 0 <= rd t < B /\ (rd t <> t -> w (rd t) = false)) ->
    (forall t, 0 <= t < B -> runs (fun _ => False) (tR rd t) (tW (w t) ks t) (ps t) m (mt t) BRet) ->
    (forall t a, 0 <= t < B -> tW (w t) ks t a -> mt t a = m1 a) ->
    (forall a, D a -> m a = m1 a \/ exists t, 0 <= t < B /\ tW (w t) ks t a) ->
    blockrun m (map ps (zrange B)) m1 [].
  Proof.
    intros H1 H2 H3 H4 H5. pose proof (phase_of w ks rd ps (fun _ => BRet) m m1 mt H1 H2 H3 H4 H5) as Hp.
    pose proof (br_last (V := gv) gaddr_eqb (fun _ => False) D Ow m m1 _ _ Hp) as Q. rewrite no_log in Q. apply Q.
    apply Forall_map, Forall_forall. reflexivity.
  Qed.

  (** ** The tree *)
  Fixpoint treeF (fuel : nat) (s : Z) (f : Z -> S) : Z -> S :=
    match fuel with
    | O => f
    | Datatypes.S k => if 0 <? s then treeF k (Z.quot s 2) (fun t => if t <? s then k_comb K (f t) (f (t + s)) else f t) else f
    end.

  Lemma msh_defined m f t : 0 <= t < B -> msh m b f (GSh b t) <> None.
  Proof. intros H. rewrite msh_in by auto. discriminate. Qed.

  Lemma tree_run fuel : forall s f M (kk : Z -> gprog X S Y) m2, 0 <= s -> 2 * s <= B ->
    blockrun (msh M b (treeF fuel s f)) (map kk (zrange B)) m2 [] ->
    blockrun (msh M b f) (map (fun t => tree_loop K b t fuel s (kk t)) (zrange B)) m2 [].
  Proof.
    induction fuel as [|fuel IH]; intros s f M kk m2 Hs HsB Hr; cbn [tree_loop treeF] in *; [exact Hr|].
    destruct (0 <? s) eqn:E0; [|exact Hr].
    set (f' := fun t => if t <? s then k_comb K (f t) (f (t + s)) else f t) in *.
    apply (run_next (fun t => t <? s) [] (fun t => if t <? s then t + s else t) _
             (fun t => tree_loop K b t fuel (Z.quot s 2) (kk t)) (msh M b f) (msh M b f')
             (fun t => if t <? s then gset (msh M b f) (GSh b t) (VS (f' t)) else msh M b f)).
    - intros x [].
    - intros t Ht. destruct (t <? s) eqn:Et; [|split; [lia|intros; lia]]. split; [lia|]. intros _. lia.
    - intros t Ht. destruct (t <? s) eqn:Et; [|apply runs_bar].
      eapply runs_rd; [apply msh_in; lia|left; cbn; auto|].
      eapply runs_rd; [apply msh_in; lia|left; cbn; rewrite Et; auto|]. cbn beta iota.
      apply runs_wr; [now apply msh_defined|left; auto|].
      replace (f' t) with (k_comb K (f t) (f (t + s))) by (unfold f'; now rewrite Et). apply runs_bar.
    - intros t a Ht [(Et & ->)|(_ & [])]. rewrite Et, gset_same', msh_in by lia. reflexivity.
    - intros a Ha. destruct a as [| | |b' t|]; try (left; reflexivity). cbn in Ha. subst b'.
      destruct ((0 <=? t) && (t <? B)) eqn:Et; [|left; cbn; rewrite Z.eqb_refl; cbn; now rewrite Et].
      destruct (t <? s) eqn:Es.
      + right. exists t. split; [lia|]. left. auto.
      + left. rewrite !msh_in by lia. unfold f'. now rewrite Es.
    - apply IH; [lia|lia|exact Hr].
  Qed.

  (** ** The loop over outputs *)
  Fixpoint out_keys (k : Z) (fs : list (S -> Y)) (oidx : list (list Z)) : list gaddr :=
    match fs, oidx with _ :: fs', o :: oidx' => GOut k (lin o ost) :: out_keys (k + 1) fs' oidx' | _, _ => [] end.
  Lemma ws_keys fs : forall k oidx s, map fst (ws_of k fs oidx s) = out_keys k fs oidx.
  Proof. induction fs as [|f fs IH]; intros k [|o oidx] s; cbn; auto. f_equal. apply IH. Qed.
  Definition pend_keys_of (pend : option (list (list Z))) : list gaddr := match pend with None => [] | Some o => out_keys 0 (k_outs K) o end.
  Lemma pend_ws_keys pend s : map fst (pend_ws pend s) = pend_keys_of pend.
  Proof. destruct pend; cbn; [apply ws_keys|reflexivity]. Qed.
  Fixpoint fut_keys (n : nat) (oidx : list (list Z)) : list gaddr :=
    match n with O => [] | Datatypes.S n' => out_keys 0 (k_outs K) oidx ++ fut_keys n' (next_outs K osh G oidx) end.

  Definition part (i t : Z) (c : C) : S * C := accs (iterations t rf B) i t (k_zero K, c).
  Definition total (i : Z) (c : Z -> C) : Z -> S := treeF (Z.to_nat B) (Z.quot B 2) (fun t => k_norm K (fst (part i t (c t)))).
  Definition carry (i : Z) (c : Z -> C) : Z -> C := fun t => snd (part i t (c t)).
  Fixpoint mend (n : nat) (oidx : list (list Z)) (i : Z) (c : Z -> C) (M : gm) (f : Z -> S) (pend : option (list (list Z))) : gm :=
    match n with
    | O => msh (mout M (pend_ws pend (f 0))) b f
    | Datatypes.S n' => mend n' (next_outs K osh G oidx) (i + G) (carry i c) (mout M (pend_ws pend (f 0))) (total i c) (Some oidx)
    end.

  (** The pending store of thread 0, then the rest. *)
  Lemma pend_runs (W : gaddr -> Prop) rd M f pend t p mt q : 0 <= t < B ->
    keys_ok M (pend_keys_of pend) -> (t = 0 -> forall a, In a (pend_keys_of pend) -> W a) ->
    runs (fun _ => False) (tR rd t) W p (if t =? 0 then msh (mout M (pend_ws pend (f 0))) b f else msh M b f) mt q ->
    runs (fun _ => False) (tR rd t) W (pend_prog b t pend p) (msh M b f) mt q.
  Proof.
    intros Ht Hk HW Hp. destruct pend as [o|]; cbn [pend_prog].
    - unfold write_out. destruct (t =? 0) eqn:E; [|exact Hp].
      eapply runs_rd; [apply msh_in; lia|left; cbn; split; [reflexivity|lia]|]. cbn beta iota.
      apply store_runs.
      + rewrite ws_keys. apply Forall_forall. intros a Ha. split; [apply HW; [lia|exact Ha]|].
        unfold keys_ok in Hk. rewrite Forall_forall in Hk. destruct (Hk a Ha) as (Ho & Hd). destruct (own_out a Ho) as (? & ? & ->). exact Hd.
      + eapply runs_ext; [|reflexivity|exact Hp]. intros a. symmetry. apply msh_mout. intros x Hx. eapply ws_of_keys; eauto.
    - cbn in Hp. destruct (t =? 0); exact Hp.
  Qed.

  Lemma pend_frame M f pend a : 
    msh M b f a = msh (mout M (pend_ws pend (f 0))) b f a \/ In a (pend_keys_of pend).
  Proof.
    destruct (existsb (gaddr_eqb a) (pend_keys_of pend)) eqn:E.
    - right. apply existsb_exists in E as (x & Hx & E). apply gaddr_eqb_spec in E. now subst x.
    - left. assert (Hn : ~ In a (map fst (pend_ws pend (f 0)))).
      { rewrite pend_ws_keys. intros Hi. enough (existsb (gaddr_eqb a) (pend_keys_of pend) = true) by congruence.
        apply existsb_exists. exists a. split; [exact Hi|]. now apply gaddr_eqb_spec. }
      destruct a; cbn [msh]; rewrite ?mout_other by exact Hn; reflexivity.
  Qed.

  Lemma mout_input M ws : (forall x, In x (map fst ws) -> exists k i, x = GOut k i) -> input_ok M -> input_ok (mout M ws).
  Proof.
    intros H Hi i j. destruct (Hi i j) as (H1 & H2). split; [|intros E; specialize (H2 E)]; rewrite mout_other; auto;
      intros Hx; apply H in Hx as (? & ? & Hx); discriminate.
  Qed.
  Lemma msh_input M f : input_ok M -> input_ok (msh M b f).
  Proof. intros H i j. apply H. Qed.
  Lemma keys_mout M ws ks : keys_ok M ks -> keys_ok (mout M ws) ks.
  Proof. intros H. eapply Forall_impl; [|exact H]. cbn. intros a (H1 & H2). split; [exact H1|]. now apply mout_defined. Qed.

  Lemma loop_run n : forall i oidx c M f pend, 0 <= i -> input_ok M -> keys_ok M (pend_keys_of pend) -> keys_ok M (fut_keys n oidx) ->
    blockrun (msh M b f)
      (map (fun t => pend_prog b t pend (out_loop K osh ost ash ast mst axes rf B G b t n oidx (base ash axes i) (c t))) (zrange B))
      (mend n oidx i c M f pend) [].
  Proof.
    induction n as [|n IH]; intros i oidx c M f pend Hi Hin Hp Hk.
    - cbn [mend out_loop].
      apply (run_last (fun _ => false) (pend_keys_of pend) (fun t => t) _ _ _
               (fun t => if t =? 0 then msh (mout M (pend_ws pend (f 0))) b f else msh M b f)).
      + intros x Hx. unfold keys_ok in Hp. rewrite Forall_forall in Hp. now apply Hp.
      + intros t Ht. split; [lia|]. intros; lia.
      + intros t Ht. apply pend_runs; auto; [|apply runs_ret]. intros -> a Ha. right. auto.
      + intros t a Ht [(Hw & _)|(-> & Ha)]; [discriminate|]. reflexivity.
      + intros a Ha. destruct (pend_frame M f pend a) as [E|E]; [auto|right]. exists 0. split; [lia|]. right. auto.
    - cbn [mend].
      set (M' := mout M (pend_ws pend (f 0))) in *.
      set (f1 := fun t => k_norm K (fst (part i t (c t)))).
      assert (HinM' : input_ok M') by (apply mout_input; [intros x; apply pend_keys|exact Hin]).
      apply (run_next (fun _ => true) (pend_keys_of pend) (fun t => t) _
               (fun t => tree_loop K b t (Z.to_nat B) (Z.quot B 2)
                  (pend_prog b t (Some oidx) (out_loop K osh ost ash ast mst axes rf B G b t n (next_outs K osh G oidx) (base ash axes (i + G)) (carry i c t))))
               (msh M b f) (msh M' b f1)
               (fun t => gset (if t =? 0 then msh M' b f else msh M b f) (GSh b t) (VS (f1 t)))).
      + intros x Hx. unfold keys_ok in Hp. rewrite Forall_forall in Hp. now apply Hp.
      + intros t Ht. split; [lia|]. intros; lia.
      + intros t Ht. apply pend_runs; auto; [intros -> a Ha; right; auto|]. fold M'.
        set (m' := if t =? 0 then msh M' b f else msh M b f).
        assert (Hm' : input_ok m') by (unfold m'; destruct (t =? 0); apply msh_input; assumption).
        assert (Hd : m' (GSh b t) = Some (VS (f t))) by (unfold m'; destruct (t =? 0); apply msh_in; exact Ht).
        cbn [out_loop]. apply runs_wr; [congruence|left; auto|].
        replace (fst (bump ash (red_rev (zlen ash) axes) t (base ash axes i))) with (pos ash axes i t)
          by (rewrite base_pos by exact HP; rewrite bump_red by (auto; lia); reflexivity).
        apply (acc_runs _ _ b t _ _ _ _) with (s := k_zero K); [exact (fun _ => I)|exact (fun _ => I)|left; auto|lia|now apply input_ok_sh|apply gset_same'|].
        eapply runs_rd; [apply gset_same'|right; left; auto|]. cbn beta iota.
        apply runs_wr; [rewrite gset_same'; discriminate|left; auto|].
        rewrite bump_keep by (auto; lia). fold (part i t (c t)). fold (carry i c t).
        eapply runs_ext; [|reflexivity|apply runs_bar].
        intros a. rewrite !gset_gset. reflexivity.
      + intros t a Ht [(_ & ->)|(-> & Ha)].
        * rewrite gset_same', msh_in by exact Ht. reflexivity.
        * assert (exists k j, a = GOut k j) as (k & j & ->).
          { unfold keys_ok in Hp. rewrite Forall_forall in Hp. apply own_out, Hp, Ha. }
          reflexivity.
      + intros a Ha. destruct a as [x|x|k x|b' t|]; try (destruct (pend_frame M f pend (GIn x)) as [E|E]; [left; exact E|right; exists 0; split; [lia|right; auto]]).
        * destruct (pend_frame M f pend (GMask x)) as [E|E]; [left; exact E|right; exists 0; split; [lia|right; auto]].
        * destruct (pend_frame M f pend (GOut k x)) as [E|E]; [left; exact E|right; exists 0; split; [lia|right; auto]].
        * cbn in Ha. subst b'. destruct ((0 <=? t) && (t <? B)) eqn:Et.
          -- right. exists t. split; [lia|]. left. auto.
          -- left. cbn [msh]. rewrite Z.eqb_refl. cbn [andb]. rewrite Et. unfold M'. symmetry. apply mout_other.
             intros Hx. apply pend_keys in Hx as (? & ? & Hx). discriminate.
        * destruct Ha.
      + apply tree_run; [lia|lia|]. fold (total i c). apply IH; auto.
        * lia.
        * apply keys_mout. apply Forall_app in Hk. apply Hk.
        * apply keys_mout. apply Forall_app in Hk. apply Hk.
  Qed.

  (** ** What is left in memory *)
  Fixpoint all_ws (n : nat) (oidx : list (list Z)) (i : Z) (c : Z -> C) : list (gaddr * gv) :=
    match n with
    | O => []
    | Datatypes.S n' => ws_of 0 (k_outs K) oidx (total i c 0) ++ all_ws n' (next_outs K osh G oidx) (i + G) (carry i c)
    end.
  Lemma mend_out n : forall oidx i c M f pend a, (forall b' t, a <> GSh b' t) ->
    mend n oidx i c M f pend a = mout (mout M (pend_ws pend (f 0))) (all_ws n oidx i c) a.
  Proof.
    induction n as [|n IH]; intros oidx i c M f pend a Ha; cbn [mend all_ws].
    - destruct a; try reflexivity. exfalso. eapply Ha. reflexivity.
    - rewrite IH by exact Ha. rewrite mout_app. reflexivity.
  Qed.
End Block.
