(** Segmentation theorems for the two component searches. *)
From Verif Require Export CcProofs NdProofs NdProofs2.
From Coq Require Import ZifyBool ZifyNat.
Local Open Scope Z_scope.

Lemma reachable_ext free free' adj adj' from (P : coord -> Prop) :
  (forall c, P c -> (free c <-> free' c)) -> (forall c d, adj c d <-> adj' c d) ->
  (forall c, In c from -> P c) -> (forall c d, adj c d -> P d) ->
  forall x, reachable free adj from x <-> reachable free' adj' from x.
Proof.
  intros Hf Ha Hs Hp x. split.
  - induction 1 as [y Hin Hy|y z Hy IH Hadj Hz].
    + apply reach_start; [auto|]. apply Hf; auto.
    + eapply reach_step; [eauto|now apply Ha|]. apply Hf; [eapply Hp; eauto|auto].
  - induction 1 as [y Hin Hy|y z Hy IH Hadj Hz].
    + apply reach_start; [auto|]. apply Hf; auto.
    + apply Ha in Hadj. eapply reach_step; [eauto|exact Hadj|]. apply Hf; [eapply Hp; eauto|auto].
Qed.

Lemma in_nbrs D N offsets c d : In d (nbrs_of D N offsets c) <-> near_by D N offsets c d.
Proof.
  unfold nbrs_of, near_by. rewrite filter_In, in_map_iff, in_grid_bin. unfold move. split.
  - intros ((o & E & Ho) & Hb). split; [auto|]. subst d. cbn.
    replace (fst c + fst o - fst c, snd c + snd o - snd c) with o; [auto|]. destruct o. cbn. f_equal; lia.
  - intros (Hb & Ho). split; [|auto]. eexists. split; [|exact Ho]. destruct d. cbn. f_equal; lia.
Qed.

Lemma claimed_app segs s ms c : claimed (segs ++ [(s, ms)]) c <-> claimed segs c \/ In c ms.
Proof.
  unfold claimed. split.
  - intros (x & H & Hc). apply in_app_iff in H as [H|[<-|[]]]; [left; eauto|now right].
  - intros [(x & H & Hc)|H]; [exists x; split; [apply in_app_iff; now left|auto]|].
    exists (s, ms). split; [apply in_app_iff; right; now left|auto].
Qed.

Lemma app_snoc_inv {A} (l pre : list A) x y post : l ++ [x] = pre ++ y :: post ->
  (post = [] /\ l = pre /\ x = y) \/ exists post', post = post' ++ [x] /\ l = pre ++ y :: post'.
Proof.
  intros H. destruct post as [|z post _] using rev_ind.
  - left. apply app_inj_tail in H as (-> & ->). auto.
  - right. exists post. rewrite app_comm_cons, app_assoc in H. apply app_inj_tail in H as (-> & ->). auto.
Qed.

Section Step.
  Variables (D N : Z) (above ok : coord -> bool) (prune : bool) (offsets : list coord).
  Hypothesis HN : 0 < N.
  Hypothesis Hao : forall c, bin D N c -> above c = true -> ok c = true.
  Notation seg k V segs := (seg_upto D N above ok (near_by D N offsets) k V segs).

  Lemma index_of k c : 0 <= k < D * N -> bin D N c -> fst c * N + snd c = k -> c = coord_at N k.
  Proof. intros Hk Hc <-. symmetry. apply (index_coord D); auto. Qed.

  Lemma seg_skip k V segs : 0 <= k < D * N -> seg k V segs ->
    (V (coord_at N k) = true \/ above (coord_at N k) = false) -> seg (k + 1) V segs.
  Proof.
    intros Hk (H1 & H2 & H3 & H4) Hor. split; [exact H1|]. split; [|auto]. intros c Hc Ha Hlt.
    destruct (Z_lt_ge_dec (fst c * N + snd c) k) as [H|H]; [now apply H2|].
    assert (c = coord_at N k) by (apply index_of; auto; lia). subst c.
    destruct Hor as [Hv|Hv]; [|congruence]. apply H3; auto.
  Qed.

  Lemma seg_add fuel k V segs V' ms : 0 <= k < D * N -> seg k V segs ->
    V (coord_at N k) = false -> above (coord_at N k) = true ->
    flood (nbrs_of D N offsets) ok prune fuel V [coord_at N k] [] = Some (V', ms) ->
    seg (k + 1) V' (segs ++ [(coord_at N k, ms)]).
  Proof.
    intros Hk (H1 & H2 & H3 & H4) Hv Ha Hfl. set (s := coord_at N k) in *.
    assert (Hs : bin D N s) by now apply coord_at_bin.
    destruct (flood_spec _ _ _ _ _ _ _ _ _ Hfl) as (ms' & E & Hnd & Hr & Hv'). cbn in E. subst ms'.
    assert (Hns : ~ claimed segs s).
    { intros Hc. apply H3 in Hc; [congruence|now apply Hao|auto]. }
    assert (Hr' : forall c, In c ms <-> reachable (fun c => ok c = true /\ ~ claimed segs c) (near_by D N offsets) [s] c).
    { intros c. rewrite Hr. apply reachable_ext with (P := bin D N).
      - intros x Hx. unfold free. split; intros (A & B).
        + split; [auto|]. intros Hc. apply H3 in Hc; auto. congruence.
        + split; [|auto]. destruct (V x) eqn:Ev; [|auto]. apply H3 in Ev; [tauto|auto|auto].
      - intros x y. apply in_nbrs.
      - intros x [<-|[]]. auto.
      - intros x y Hy. apply in_nbrs in Hy. apply Hy. }
    assert (Hmb : forall c, In c ms -> bin D N c /\ ok c = true).
    { intros c Hc. apply Hr' in Hc. destruct Hc as [y [<-|[]] (Hy & _)|x y _ Hy (Ho & _)]; [auto|]. split; [apply Hy|auto]. }
    assert (Hsm : In s ms).
    { apply Hr'. apply reach_start; [now left|]. split; [now apply Hao|auto]. }
    split; [|split; [|split]].
    - intros pre s' ms' post Heq. apply app_snoc_inv in Heq as [(-> & <- & Heq)|(post' & -> & Heq)].
      + injection Heq as <- <-. repeat split; auto; try apply Hs.
        * intros Hc. now apply Hr'.
        * intros Hc. now apply Hr'.
        * intros c Hc Hca He. apply H2; auto. unfold s in He. now apply (earlier_index D).
      + eapply H1; eauto.
    - intros c Hc Hca Hlt. rewrite claimed_app. destruct (Z_lt_ge_dec (fst c * N + snd c) k) as [H|H]; [left; now apply H2|].
      assert (c = s) by (apply index_of; auto; lia). subst c. now right.
    - intros c Ho Hc. rewrite (Hv' c Ho), claimed_app. rewrite (H3 c Ho Hc). tauto.
    - intros c Hc. apply claimed_app in Hc as [Hc|Hc]; [now apply H4|now apply Hmb].
  Qed.

End Step.

Section Enough.
  Variables (D N : Z) (ok : coord -> bool) (prune : bool) (offsets : list coord).
  Hypothesis HN : 0 < N.
  Definition univ : list coord := map (coord_at N) (zrange (D * N)).
  Lemma in_univ c : bin D N c -> In c univ.
  Proof.
    intros Hc. apply in_map_iff. exists (fst c * N + snd c). split; [now apply (index_coord D)|].
    apply in_zrange. destruct Hc as (Hd & Hf). nia.
  Qed.

  Definition enough : nat := (1 + Z.to_nat (D * N) * S (length offsets))%nat.

  Lemma flood_enough fuel V c acc : (enough <= fuel)%nat -> bin D N c ->
    exists r, flood (nbrs_of D N offsets) ok prune fuel V [c] acc = Some r.
  Proof.
    intros Hf Hc. apply (flood_total _ _ _ univ (length offsets)).
    - intros x y Hy. apply in_nbrs in Hy. apply in_univ, Hy.
    - intros x. unfold nbrs_of. eapply Nat.le_trans; [|apply (Nat.eq_le_incl _ _ (map_length (move x) offsets))].
      generalize (map (move x) offsets) as l. induction l as [|y l IH]; cbn; [lia|]. destruct (in_grid D N y); cbn; lia.
    - intros x [<-|[]]. now apply in_univ.
    - assert (Hu : (unv univ V <= Z.to_nat (D * N))%nat).
      { unfold unv, univ. eapply Nat.le_trans with (length (map (coord_at N) (zrange (D * N)))).
        - generalize (map (coord_at N) (zrange (D * N))) as l. induction l as [|y l IH]; cbn; [lia|]. destruct (negb (V y)); cbn; lia.
        - rewrite map_length. unfold zrange. rewrite map_length, seq_length. lia. }
      unfold enough in Hf. cbn [length]. nia.
  Qed.
End Enough.

(** From the scan invariant to the specification. *)
Lemma seg_done D N above ok adj V segs :
  seg_upto D N above ok adj (D * N) V segs ->
  segmentation D N (fun c => above c = true) (fun c => ok c = true) adj segs.
Proof.
  intros (H1 & H2 & _ & _). split; [exact H1|]. intros c Hc Ha. apply H2; auto. destruct Hc as (Hd & Hf). nia.
Qed.

Lemma seg_start D N above ok adj (V : coord -> bool) : 0 < N ->
  (forall c, ok c = true -> bin D N c -> V c = false) -> seg_upto D N above ok adj 0 V [].
Proof.
  intros HN HV. split; [|split; [|split]].
  - intros pre s ms post H. destruct pre; discriminate.
  - intros c (Hd & Hf) _ Hlt. nia.
  - intros c Ho Hc. rewrite HV by auto. split; [discriminate|]. intros (x & [] & _).
  - intros c (x & [] & _).
Qed.

Lemma lin_dense D N c : lin (dense [D; N]) c = fst c * N + snd c.
Proof. unfold lin, dense. cbn. lia. Qed.

Lemma lin_dense_inj D N c d : bin D N c -> bin D N d -> lin (dense [D; N]) c = lin (dense [D; N]) d -> c = d.
Proof.
  intros Hc Hd. rewrite !lin_dense. intros H.
  assert (HN : 0 < N) by (destruct Hc; lia).
  rewrite <- (index_coord D N c), <- (index_coord D N d) by auto. now rewrite H.
Qed.

Lemma coord_at_0 N : 0 < N -> coord_at N 0 = (0, 0).
Proof. intros H. unfold coord_at. rewrite Z.div_0_l, Z.mod_0_l by lia. reflexivity. Qed.

Lemma numel_2d D N : 0 <= D -> 0 <= N -> D * N < 2 ^ 31 -> numel_of [D; N] = D * N \/ N = 0.
Proof.
  intros HD HN H. destruct (Z.eq_dec N 0) as [|Hn]; [now right|left].
  unfold numel_of. cbn [fold_left]. assert (D <= D * N) by nia. unfold to_int32.
  rewrite (Z.mod_small (1 * D + 2 ^ 31)) by lia. replace (1 * D + 2 ^ 31 - 2 ^ 31) with D by ring.
  rewrite Z.mod_small by nia. ring.
Qed.

(** ** Binary masks *)
Theorem mask_components_correct fuel junk lm (mask : mem Z) D N offsets X :
  wf lm -> l_shape lm = [D; N] -> 0 <= D -> 0 < N -> D * N < 2 ^ 31 -> inside lm (zlen mask) ->
  (forall c, bin D N c -> elt mask lm [fst c; snd c] = Some (X c)) ->
  (enough D N offsets <= fuel)%nat ->
  exists segs, mask_components fuel junk lm mask offsets = Some (Ok (map snd segs)) /\
    segmentation D N (fun c => 0 < X c) (fun c => 0 < X c) (near_by D N offsets) segs.
Proof.
  intros Hwf Hsh HD HN Hsz Hin HX Hfuel. unfold mask_components. rewrite Hsh.
  assert (Hjl : zlen (map junk (zrange (D * N))) = D * N).
  { unfold zlen. rewrite map_length. pose proof (zrange_length (D * N)). unfold zlen in *. nia. }
  destruct (assign_slice_correct (fun x : Z => x) (dense [D; N]) lm (map junk (zrange (D * N))) mask) as (data & Ed & Hdl & Helt & _); auto.
  { apply dense_wf. }
  { split; [repeat constructor; cbn; lia|]. unfold zprod. cbn. lia. }
  { rewrite Hjl. replace (D * N) with (zprod [D; N]) by (unfold zprod; cbn; lia). apply dense_inside. }
  { apply dense_separate. }
  rewrite Ed. cbn [lift rbind].
  assert (Hdata : forall c, bin D N c -> znth data (lin (dense [D; N]) c) = Some (X c)).
  { intros c Hc. assert (Hr : in_range (l_shape (dense [D; N])) [fst c; snd c]).
    { repeat constructor; apply Hc. }
    destruct (Helt _ Hr) as (x & Ex & Ey). rewrite HX in Ex by auto. injection Ex as <-.
    unfold elt, cell in Ey. cbn in Ey. rewrite lin_dense. rewrite <- Ey. f_equal. lia. }
  set (pos := fun c => 0 <? X c).
  set (body := fun c (s : mem Z * list (list coord)) => _).
  assert (Hnum : numel (dense [D; N]) = D * N).
  { unfold numel. destruct (numel_2d D N HD ltac:(lia) Hsz) as [E|E]; [exact E|lia]. }
  rewrite Hnum.
  set (rep := represents D N (dense [D; N]) mask_taken (fun _ => 0)).
  set (Inv := fun k (s : mem Z * list (list coord)) => exists V segs, rep (fst s) V /\
     snd s = map snd segs /\ seg_upto D N pos pos (near_by D N offsets) k V segs /\
     (forall c, bin D N c -> pos c = false -> V c = true) /\
     (forall c v, bin D N c -> V c = false -> znth (fst s) (lin (dense [D; N]) c) = Some v -> 0 < v)).
  assert (Hm : forall v, mask_taken v = false -> mask_taken 0 = true /\ (mask_taken 0 = false -> mask_taken 0 = true)).
  { intros v _. split; reflexivity || auto. }
  destruct (scan_inv body N Inv (D * N) HN) with (n := Z.to_nat (D * N)) (k := 0) (s := (data, @nil (list coord))) as (s' & Es & (V & segs & _ & Hc & Hseg & _)).
  - intros k (vis & comps) Hk (V & segs & Hrep & Hcomp & Hseg & Hz & Hpos). cbn [fst snd] in *.
    assert (Hb : bin D N (coord_at N k)) by now apply coord_at_bin.
    unfold body. cbn [fst snd]. destruct (load_rep _ _ _ _ _ vis V _ Hrep Hb) as (v & El & Ht). rewrite El. cbn [lift rbind].
    unfold mask_taken in Ht. destruct (0 <? v) eqn:Ev; cbn in Ht.
    + assert (Hp : pos (coord_at N k) = true).
      { destruct (pos (coord_at N k)) eqn:Ep; [auto|]. rewrite Hz in Ht by auto. discriminate. }
      destruct (flood_enough D N pos false offsets HN fuel V (coord_at N k) [] Hfuel Hb) as ((V' & ms) & Efl).
      pose proof (queue_refines D N (dense [D; N]) mask_taken (fun _ => 0) false offsets (fun _ => Ok true) (fun c acc => Ok (acc ++ [c]))
                  (fun _ => true) (fun c acc => acc ++ [c])) as Q.
      specialize (Q (fun _ _ => eq_refl) (fun _ _ _ => eq_refl) (lin_dense_inj D N) Hm fuel vis V [coord_at N k] [] [] Hrep).
      assert (Hq : forall c, In c [coord_at N k] -> bin D N c) by (intros c [<-|[]]; auto).
      specialize (Q Hq).
      (* the loop does not test membership; taken bins are exactly the unset ones *)
      assert (Esame : flood (nbrs_of D N offsets) (fun _ => true) false fuel V [coord_at N k] [] = flood (nbrs_of D N offsets) pos false fuel V [coord_at N k] []).
      { clear -Hz Hq. assert (G : forall fuel V q acc, (forall c, bin D N c -> pos c = false -> V c = true) -> (forall c, In c q -> bin D N c) ->
          flood (nbrs_of D N offsets) (fun _ => true) false fuel V q acc = flood (nbrs_of D N offsets) pos false fuel V q acc).
        { clear. induction fuel as [|fuel IH]; intros V q acc Hz Hq; destruct q as [|c q]; cbn [flood]; auto.
          destruct (V c) eqn:Ev; [apply IH; auto; intros; apply Hq; now right|].
          destruct (pos c) eqn:Ep; [|rewrite Hz in Ev; [discriminate|apply Hq; now left|auto]].
          cbv zeta. apply IH.
          - intros d Hd Hp. unfold mark_c. destruct (ceqb c d); auto.
          - intros d Hd. apply in_app_iff in Hd as [Hd|Hd]; [apply Hq; now right|]. apply in_nbrs in Hd. apply Hd. }
        apply G; auto. }
      rewrite Esame, Efl in Q. destruct Q as (new & vis' & E & Hrep' & Eq). cbn in E. subst new.
      rewrite Eq. cbn [rbind fst snd]. eexists. split; [reflexivity|].
      exists V', (segs ++ [(coord_at N k, ms)]). cbn [fst snd]. split; [exact Hrep'|]. split.
      { rewrite map_app, Hcomp. cbn. f_equal. f_equal.
        assert (G : forall l a, fold_left (fun (acc : list coord) c => acc ++ [c]) l a = a ++ l).
        { induction l as [|x l IHl]; intros a; cbn; [now rewrite app_nil_r|]. rewrite IHl, <- app_assoc. reflexivity. }
        rewrite G. reflexivity. }
      split; [apply (seg_add D N pos pos false offsets HN (fun c _ H => H) fuel k V segs V' ms); auto|].
      split.
      { intros c Hcb Hp0. specialize (Hz c Hcb Hp0).
        assert (G : forall fuel V q acc V' acc', V c = true -> flood (nbrs_of D N offsets) pos false fuel V q acc = Some (V', acc') -> V' c = true).
        { clear. induction fuel as [|fuel IH]; intros V q acc V' acc' Hv H; destruct q as [|x q]; cbn [flood] in H; try discriminate; try (injection H as <- <-; auto).
          destruct (V x); [eapply IH; eauto|]. cbv zeta in H. destruct (pos x); (eapply IH; [|exact H]); unfold mark_c; destruct (ceqb x c); auto. }
        eapply G; eauto. }
      intros c u Hcb Hv Hu. destruct (Hrep' c Hcb) as (u' & Eu & Htu & _). rewrite Hu in Eu. injection Eu as <-. rewrite Hv in Htu. unfold mask_taken in Htu. lia.
    + eexists. split; [reflexivity|]. exists V, segs. cbn [fst snd]. split; [auto|]. split; [auto|]. split; [|auto].
      apply (seg_skip D N pos pos offsets HN (fun c _ H => H) k V segs Hk Hseg). left. now symmetry.
  - lia.
  - lia.
  - exists (fun c => negb (pos c)), []. cbn [fst snd]. split.
    { intros c Hcb. exists (X c). split; [auto|]. split; [unfold mask_taken, pos; auto|]. intros; reflexivity. }
    split; [reflexivity|]. split.
    { apply seg_start; [auto|]. intros c Hp _. now rewrite Hp. }
    split; [intros c _ ->; reflexivity|]. intros c v Hcb Hv Hz. rewrite Hdata in Hz by auto. injection Hz as <-. unfold pos in Hv. lia.
  - rewrite coord_at_0 in Es by auto. rewrite Es. cbn [rbind]. exists segs. split; [now rewrite Hc|].
    apply seg_done in Hseg. destruct Hseg as (S1 & S2). split.
    + intros pre s ms post Heq. destruct (S1 pre s ms post Heq) as (A & B & C & E & F & G). unfold pos in *.
      repeat split; auto; try apply A; try lia.
      * intros Hin0. apply E in Hin0. revert Hin0. apply reachable_ext with (P := fun _ => True); auto; [|tauto]. intros x _. rewrite Z.ltb_lt. tauto.
      * intros Hre. apply E. revert Hre. apply reachable_ext with (P := fun _ => True); auto; [|tauto]. intros x _. rewrite Z.ltb_lt. tauto.
      * intros c Hcb Ha He. apply F; auto. lia.
    + intros c Hcb Ha. apply S2; auto. unfold pos. lia.
Qed.
