(** Proofs about event search: use of the hits, and what the distances say about events. *)
From Verif Require Export HitFacts.
From Coq Require Import ZifyBool ZifyNat Permutation Reals Lra.
Local Open Scope Z_scope.

Lemma erase_at_perm {A} n (l : list A) x : nth_error l n = Some x -> Permutation (x :: erase_at n l) l.
Proof.
  unfold erase_at. revert l. induction n as [|n IH]; intros [|y l] H; try discriminate.
  - injection H as ->. reflexivity.
  - cbn [firstn skipn app] in *. rewrite perm_swap. constructor. now apply IH.
Qed.

Section Events.
  Context {S : Type}.
  Variable dist : S -> hit -> hit -> f32 * S.
  (** [can c a b d]: the cached distance may answer [d] for [a] and [b]. *)
  Variable Inv : S -> Prop.
  Variable can : hit -> hit -> f32 -> Prop.
  Hypothesis dist_can : forall s a b, Inv s -> Inv (snd (dist s a b)) /\ can a b (fst (dist s a b)).

  Notation fifty := (f32_of_Z 50).
  (** Some hit of [ev] may be at a distance below [lim] of [c]. *)
  Definition near_event (ev : list hit) (c : hit) (lim : f32) : Prop :=
    exists h d, In h ev /\ can h c d /\ f32lt d lim = true.

  Lemma lowest_spec ev c s low : Inv s ->
    let r := lowest dist s ev c low in
    Inv (snd r) /\ (fst r = low \/ exists h, In h ev /\ can h c (fst r)).
  Proof.
    revert s low. induction ev as [|h ev IH]; intros s low HI; cbn [lowest]; [cbn; auto|].
    destruct (dist_can s h c HI) as (H1 & H2). destruct (dist s h c) as [d s']. cbn [fst snd] in H1, H2.
    specialize (IH s' (if f32lt d low then d else low) H1). cbv zeta in IH. destruct IH as (I1 & I2). cbv zeta. split; [exact I1|].
    destruct I2 as [->|(h' & Hin & Hc)]; [destruct (f32lt d low); [right; exists h; split; [now left|auto]|auto]|right; exists h'; split; [now right|auto]].
  Qed.
  Lemma f32lt_irrefl x : f32lt x x = false.
  Proof. apply f32gt_irrefl. Qed.
  Lemma nearest_spec ev cands s n best at_ : Inv s ->
    forall d at' s', nearest dist s ev cands n best at_ = (d, at', s') ->
    Inv s' /\ ((d = best /\ at' = at_) \/
               exists k h, nth_error cands k = Some h /\ at' = Some (n + k, h)%nat /\ (d = flt_max \/ exists g, In g ev /\ can g h d)).
  Proof.
    revert s n best at_. induction cands as [|c cands IH]; intros s n best at_ HI d at' s'; cbn [nearest].
    - intros H. injection H as <- <- <-. auto.
    - destruct (lowest_spec ev c s flt_max HI) as (H1 & H2). destruct (lowest dist s ev c flt_max) as [x s1]. cbn [fst snd] in H1, H2.
      destruct (f32lt x best); intros H; apply (IH s1 _ _ _ H1) in H as (I & H); split; auto.
      + right. destruct H as [(-> & ->)|(k & h & E & -> & G)].
        * exists O, c. split; [reflexivity|]. split; [f_equal; f_equal; lia|]. destruct H2 as [->|H2]; auto.
        * exists (Datatypes.S k), h. split; [exact E|]. split; [f_equal; f_equal; lia|exact G].
      + destruct H as [H|(k & h & E & -> & G)]; [auto|]. right. exists (Datatypes.S k), h. split; [exact E|]. split; [f_equal; f_equal; lia|exact G].
  Qed.
  Lemma flt_max_50 : f32lt flt_max fifty = false. Proof. vm_compute. reflexivity. Qed.

  (** One later scan: nothing, or one of its hits moves to the event. *)
  Lemma extend_spec s ev hs : Inv s -> exists ev' hs' s', extend dist s ev hs = Ok (ev', hs', s') /\ Inv s' /\
    ((ev' = ev /\ hs' = hs) \/ exists h, ev' = ev ++ [h] /\ In h hs /\ Permutation (h :: hs') hs /\ near_event ev h fifty).
  Proof.
    intros HI. unfold extend. destruct (nearest dist s ev hs 0 flt_max None) as [[d at_] s'] eqn:E.
    destruct (nearest_spec ev hs s 0 flt_max None HI d at_ s' E) as (I & H).
    destruct (f32lt d fifty) eqn:L; [|eexists _, _, _; split; [reflexivity|auto]].
    destruct H as [(-> & _)|(k & h & Ek & -> & G)]; [rewrite flt_max_50 in L; discriminate|].
    eexists _, _, _. split; [reflexivity|]. split; [auto|]. right. exists h. split; [reflexivity|]. split; [now apply nth_error_In in Ek|].
    split; [now apply erase_at_perm|]. destruct G as [->|(g & Hg & Hc)]; [rewrite flt_max_50 in L; discriminate|]. exists g, d. auto.
  Qed.

  (** [grows later ev ev' later']: hits of later scans, at most one of each and in scan order, moved to the event. *)
  Inductive grows : list (list hit) -> list hit -> list hit -> list (list hit) -> Prop :=
  | grows_nil ev : grows [] ev ev []
  | grows_skip hs l ev ev' l' : grows l ev ev' l' -> grows (hs :: l) ev ev' (hs :: l')
  | grows_take hs hs' h l ev ev' l' : In h hs -> Permutation (h :: hs') hs -> near_event ev h fifty ->
      grows l (ev ++ [h]) ev' l' -> grows (hs :: l) ev ev' (hs' :: l').
  Lemma extend_all_spec s ev later : Inv s -> exists ev' later' s', extend_all dist s ev later = Ok (ev', later', s') /\ Inv s' /\ grows later ev ev' later'.
  Proof.
    revert s ev. induction later as [|hs later IH]; intros s ev HI; cbn [extend_all].
    - eexists _, _, _. split; [reflexivity|]. split; [auto|constructor].
    - destruct (extend_spec s ev hs HI) as (ev1 & hs1 & s1 & E & I1 & H). rewrite E. cbn [obind].
      destruct (IH s1 ev1 I1) as (ev2 & l2 & s2 & E2 & I2 & G). rewrite E2. cbn [obind]. eexists _, _, _. split; [reflexivity|]. split; [auto|].
      destruct H as [(-> & ->)|(h & -> & Hin & Hp & Hn)]; [now constructor|econstructor; eauto].
  Qed.

  Lemma off_sum_spec s o ev acc : Inv s -> let r := off_sum dist s o ev acc in
    Inv (snd r) /\ exists ds, Forall2 (can o) ev ds /\ fst r = fold_left add32 ds acc.
  Proof.
    revert s acc. induction ev as [|h ev IH]; intros s acc HI; cbn [off_sum]; [cbn; split; [auto|exists []; auto]|].
    destruct (dist_can s o h HI) as (H1 & H2). destruct (dist s o h) as [d s']. cbn [fst snd] in H1, H2.
    destruct (IH s' (add32 acc d) H1) as (I & ds & F & E). cbv zeta. split; [exact I|]. exists (d :: ds). split; [now constructor|exact E].
  Qed.
  (** The mean distance of [o] to the event may be [m]. *)
  Definition mean_distance (o : hit) (ev : list hit) (m : f32) : Prop :=
    exists ds, Forall2 (can o) ev ds /\ m = div32 (fold_left add32 ds (f32_of_Z 0)) (f32_of_Z (zlen ev)).
  Lemma times_off_spec s ev offs : Inv s -> let r := times_off dist s ev offs in
    Inv (snd r) /\ 0 <= fst r /\ (fst r = 0 -> forall o, In o offs -> exists m, mean_distance o ev m /\ f32lt m fifty = false).
  Proof.
    revert s. induction offs as [|o offs IH]; intros s HI; cbn [times_off]; [cbn; repeat split; auto; [lia|tauto]|].
    destruct (off_sum_spec s o ev (f32_of_Z 0) HI) as (I1 & ds & F & E). destruct (off_sum dist s o ev (f32_of_Z 0)) as [sum s1]. cbn [fst snd] in I1, E.
    destruct (IH s1 I1) as (I2 & Hk & H). destruct (times_off dist s1 ev offs) as [k s2]. cbn [fst snd] in *. cbv zeta. cbn [fst snd].
    destruct (f32lt (div32 sum (f32_of_Z (zlen ev))) fifty) eqn:L; repeat split; auto; try lia.
    intros G o' [<-|Ho]; [exists (div32 sum (f32_of_Z (zlen ev))); split; [exists ds; split; [auto|now subst]|exact L]|apply H; [lia|auto]].
  Qed.

  (** What is reported: a growth of a starting hit with no off-target match. *)
  Definition reported (sp : span) (start : hit) (ev : list hit) (offs : list hit) (e : event) : Prop :=
    e = averaged start sp ev /\ 1 < zlen ev /\ forall o, In o offs -> exists m, mean_distance o ev m /\ f32lt m fifty = false.

  (** The history of one scan as starting point. *)
  Inductive from1 (sp : span) (offs : list hit) : list hit -> list (list hit) -> list event -> list (list hit) -> Prop :=
  | from1_nil later : from1 sp offs [] later [] later
  | from1_keep h starts later ev later1 later2 e evs : grows later [h] ev later1 -> reported sp h ev offs e ->
      from1 sp offs starts later1 evs later2 -> from1 sp offs (h :: starts) later (e :: evs) later2
  | from1_drop h starts later ev later1 later2 evs : grows later [h] ev later1 ->
      from1 sp offs starts later1 evs later2 -> from1 sp offs (h :: starts) later evs later2.
  Lemma from_scan_spec sp offs starts : forall s later, Inv s ->
    exists evs later' s', from_scan dist s sp starts later offs = Ok (evs, later', s') /\ Inv s' /\ from1 sp offs starts later evs later'.
  Proof.
    induction starts as [|h starts IH]; intros s later HI; cbn [from_scan].
    - eexists _, _, _. split; [reflexivity|]. split; [auto|constructor].
    - destruct (extend_all_spec s [h] later HI) as (ev & l1 & s1 & E & I1 & G). rewrite E. cbn [obind].
      destruct (times_off_spec s1 ev offs I1) as (I2 & Hk & H). destruct (times_off dist s1 ev offs) as [k s2]. cbn [fst snd] in *.
      destruct (IH s2 l1 I2) as (evs & l2 & s3 & E3 & I3 & F). rewrite E3. cbn [obind]. eexists _, _, _. split; [reflexivity|]. split; [auto|].
      destruct ((1 <? zlen ev) && (k =? 0)) eqn:B; cbn [app]; [|now apply from1_drop with ev l1].
      apply andb_prop in B as (B1 & B2). eapply from1_keep; [exact G| |exact F]. split; [reflexivity|]. split; [lia|]. apply H. lia.
  Qed.
  Inductive fromall (offs : list hit) : list span -> list (list hit) -> list event -> Prop :=
  | fromall_nil on : fromall offs [] on []
  | fromall_nil' sps : fromall offs sps [] []
  | fromall_scan sp sps starts later later' evs evs' : from1 sp offs starts later evs later' -> fromall offs sps later' evs' ->
      fromall offs (sp :: sps) (starts :: later) (evs ++ evs').
  Lemma from_scans_spec offs sps : forall s on, Inv s -> exists evs s', from_scans dist s sps on offs = Ok (evs, s') /\ Inv s' /\ fromall offs sps on evs.
  Proof.
    induction sps as [|sp sps IH]; intros s on HI; cbn [from_scans]; [eexists _, _; split; [reflexivity|split; [auto|constructor]]|].
    destruct on as [|starts later]; [eexists _, _; split; [reflexivity|split; [auto|constructor]]|].
    destruct (from_scan_spec sp offs starts s later HI) as (evs & l' & s' & E & I & F). rewrite E. cbn [obind].
    destruct (IH s' l' I) as (evs' & s2 & E2 & I2 & F2). rewrite E2. cbn [obind fst snd]. eexists _, _. split; [reflexivity|]. split; [auto|]. econstructor; eauto.
  Qed.

  (** ** Consequences *)
  (** Hits are only moved. *)
  Lemma grows_perm later ev ev' later' : grows later ev ev' later' -> Permutation (ev' ++ concat later') (ev ++ concat later).
  Proof.
    induction 1 as [|hs l ev ev' l' G IH|hs hs' h l ev ev' l' Hin Hp Hn G IH]; [reflexivity| |]; cbn [concat].
    - rewrite !app_assoc, !(Permutation_app_comm _ hs), <- !app_assoc. now apply Permutation_app_head.
    - rewrite app_assoc, (Permutation_app_comm ev' hs'), <- app_assoc, IH, <- Hp, <- app_assoc. cbn [app].
      rewrite (Permutation_app_comm hs' (ev ++ _)), <- app_assoc. apply Permutation_app_head. cbn [app]. constructor. apply Permutation_app_comm.
  Qed.
  Lemma from1_perm sp offs starts later evs later' : from1 sp offs starts later evs later' ->
    exists lost, Permutation (flat_map ev_hits evs ++ lost ++ concat later') (starts ++ concat later).
  Proof.
    induction 1 as [later|h starts later ev l1 l2 e evs G R F (lost & IH)|h starts later ev l1 l2 evs G F (lost & IH)].
    - exists []. reflexivity.
    - exists lost. cbn [flat_map]. destruct R as (-> & _). cbn [averaged ev_hits]. rewrite <- app_assoc, IH.
      rewrite app_assoc, (Permutation_app_comm ev starts), <- app_assoc, (grows_perm _ _ _ _ G). cbn [app]. symmetry. apply Permutation_middle.
    - exists (ev ++ lost). rewrite <- app_assoc, app_assoc, (Permutation_app_comm _ ev), <- app_assoc, IH.
      rewrite app_assoc, (Permutation_app_comm ev starts), <- app_assoc, (grows_perm _ _ _ _ G). cbn [app]. symmetry. apply Permutation_middle.
  Qed.
  Lemma fromall_perm offs sps on evs : fromall offs sps on evs -> exists lost, Permutation (flat_map ev_hits evs ++ lost) (concat on).
  Proof.
    induction 1 as [on|sps|sp sps starts later l' evs evs' F _ (lost & IH)]; [now exists (concat on)|exists []; reflexivity|].
    destruct (from1_perm _ _ _ _ _ _ F) as (lost1 & P). exists (lost1 ++ lost). cbn [concat]. rewrite <- P, flat_map_app, <- !app_assoc. apply Permutation_app_head.
    rewrite app_assoc, (Permutation_app_comm _ lost1), <- app_assoc. now apply Permutation_app_head.
  Qed.

  (** [ev] extends [ev0] by at most one hit of each scan of [later], in scan order, each near an earlier hit. *)
  Inductive picks : list (list hit) -> list hit -> list hit -> Prop :=
  | picks_nil ev : picks [] ev ev
  | picks_skip hs l ev ev' : picks l ev ev' -> picks (hs :: l) ev ev'
  | picks_take hs h l ev ev' : In h hs -> near_event ev h fifty -> picks l (ev ++ [h]) ev' -> picks (hs :: l) ev ev'.
  Lemma picks_more l l' ev ev' : Forall2 (@incl hit) l l' -> picks l ev ev' -> picks l' ev ev'.
  Proof.
    intros H P. revert l' H. induction P as [|hs l ev ev' P IH|hs h l ev ev' Hin Hn P IH]; intros l' H; inversion H; subst;
      [constructor|apply picks_skip; auto|eapply picks_take; eauto].
  Qed.
  Lemma grows_picks later ev ev' later' : grows later ev ev' later' -> picks later ev ev' /\ Forall2 (@incl hit) later' later.
  Proof.
    induction 1 as [|hs l ev ev' l' G (IH1 & IH2)|hs hs' h l ev ev' l' Hin Hp Hn G (IH1 & IH2)].
    - split; constructor.
    - split; [now constructor|]. constructor; [apply incl_refl|auto].
    - split; [eapply picks_take; eauto|]. constructor; [|auto]. intros x Hx. eapply Permutation_in; [exact Hp|]. now right.
  Qed.
  Lemma incl_all_trans (a b c : list (list hit)) : Forall2 (@incl hit) a b -> Forall2 (@incl hit) b c -> Forall2 (@incl hit) a c.
  Proof.
    intros H. revert c. induction H; intros c' G; inversion G; subst; constructor; auto. eapply incl_tran; eauto.
  Qed.
  Lemma incl_all_refl (a : list (list hit)) : Forall2 (@incl hit) a a.
  Proof. induction a; constructor; auto. apply incl_refl. Qed.
  Lemma from1_events sp offs starts later evs later' : from1 sp offs starts later evs later' ->
    Forall2 (@incl hit) later' later /\
    forall e, In e evs -> exists h ev, In h starts /\ picks later [h] ev /\ reported sp h ev offs e.
  Proof.
    induction 1 as [later|h starts later ev l1 l2 e evs G R F (I & IH)|h starts later ev l1 l2 evs G F (I & IH)].
    - split; [apply incl_all_refl|]. intros e [].
    - destruct (grows_picks _ _ _ _ G) as (P & I1). split; [eapply incl_all_trans; eauto|].
      intros e' [<-|He]; [exists h, ev; split; [now left|auto]|]. destruct (IH e' He) as (h' & ev' & A & B & C). exists h', ev'.
      split; [now right|]. split; [eapply picks_more; eauto|auto].
    - destruct (grows_picks _ _ _ _ G) as (P & I1). split; [eapply incl_all_trans; eauto|].
      intros e' He. destruct (IH e' He) as (h' & ev' & A & B & C). exists h', ev'. split; [now right|]. split; [eapply picks_more; eauto|auto].
  Qed.
  (** An event starts with a hit of some scan [k] and goes on with hits of later scans. *)
  Definition event_ok (offs : list hit) (sps : list span) (on : list (list hit)) (e : event) : Prop :=
    exists k sp starts h ev, nth_error sps k = Some sp /\ nth_error on k = Some starts /\ In h starts /\
      picks (skipn (Datatypes.S k) on) [h] ev /\ reported sp h ev offs e.
  Lemma fromall_events offs sps on evs : fromall offs sps on evs -> forall e, In e evs -> event_ok offs sps on e.
  Proof.
    induction 1 as [on|sps|sp sps starts later l' evs evs' F G IH]; intros e He; [destruct He|destruct He|].
    destruct (from1_events _ _ _ _ _ _ F) as (I & H). apply in_app_or in He as [He|He].
    - destruct (H e He) as (h & ev & A & B & C). exists O, sp, starts, h, ev. auto.
    - destruct (IH e He) as (k & sp' & st & h & ev & A & B & C & D & E).
      exists (Datatypes.S k), sp'. 
      assert (Hn : exists st', nth_error later k = Some st' /\ incl st st' /\ Forall2 (@incl hit) (skipn (Datatypes.S k) l') (skipn (Datatypes.S k) later)).
      { clear - I B. revert k B. induction I as [|x y l l' Hxy I IH]; intros [|k] B; try discriminate; [injection B as <-; exists y; auto|].
        apply IH in B. exact B. }
      destruct Hn as (st' & N1 & N2 & N3). exists st', h, ev. split; [auto|]. split; [exact N1|]. split; [auto|]. split; [eapply picks_more; eauto|auto].
  Qed.
End Events.

(** ** The distance cache *)
(** Pairs the map cannot tell apart. *)
Definition same_key (p q : hit * hit) : Prop := cache_ltb p q = false /\ cache_ltb q p = false.
Lemma hit_eqb_refl h : no_nan h -> hit_eqb h h = true.
Proof. intros H. now apply hit_eqb_key. Qed.
Lemma hit_eqb_sym a b : no_nan a -> no_nan b -> hit_eqb a b = hit_eqb b a.
Proof.
  intros Ha Hb. destruct (hit_eqb a b) eqn:E; symmetry.
  - apply hit_eqb_key in E; auto. now apply hit_eqb_key.
  - destruct (hit_eqb b a) eqn:E'; auto. apply hit_eqb_key in E'; auto. assert (hit_eqb a b = true) by now apply hit_eqb_key. congruence.
Qed.
Lemma hit_total a b : no_nan a -> no_nan b -> hit_ltb a b = true \/ hit_eqb a b = true \/ hit_ltb b a = true.
Proof. intros Ha Hb. rewrite !hit_ltb_key, hit_eqb_key by auto. apply lex_total. Qed.
Lemma same_key_pair a b c d : no_nan a -> no_nan b -> no_nan c -> no_nan d ->
  same_key (a, b) (c, d) <-> (hit_eqb a c = true /\ hit_eqb b d = true) \/ (hit_eqb a d = true /\ hit_eqb b c = true).
Proof.
  intros Ha Hb Hc Hd. unfold same_key, cache_ltb. cbn [fst snd]. rewrite (hit_eqb_sym c a), (hit_eqb_sym d b), (hit_eqb_sym c b), (hit_eqb_sym d a) by auto.
  destruct (hit_eqb a c) eqn:E1, (hit_eqb b d) eqn:E2, (hit_eqb a d) eqn:E3, (hit_eqb b c) eqn:E4; cbn [andb]; split; intros H;
    auto; try (destruct H as [(? & ?)|(? & ?)]; discriminate); exfalso; destruct H as (H1 & H2); unfold hpair_ltb in H1, H2; cbn [fst snd] in H1, H2;
    apply orb_false_elim in H1 as (H1 & H1'); apply orb_false_elim in H2 as (H2 & H2');
    destruct (hit_total a c Ha Hc) as [T|[T|T]]; try congruence; rewrite H1 in H2' ; rewrite H2 in H1'; cbn [negb andb] in *;
    destruct (hit_total b d Hb Hd) as [T'|[T'|T']]; congruence.
Qed.
