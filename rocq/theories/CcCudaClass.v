(** Classification of one bin by the GPU kernel, against the specification. *)
From Verif Require Export CcCudaMerge CcProofs2 CcProofs3 LmProofs.
From Coq Require Import ZifyBool ZifyNat Permutation Sorted.
Ltac Zify.zify_post_hook ::= Z.div_mod_to_equations.
Local Open Scope Z_scope.

Definition scan_before (a b : coord) : Prop := snd a < snd b \/ snd a = snd b /\ fst a < fst b.

Lemma sorted_app {A} (R : A -> A -> Prop) l m : StronglySorted R l -> StronglySorted R m ->
  (forall x y, In x l -> In y m -> R x y) -> StronglySorted R (l ++ m).
Proof.
  induction 1 as [|a l Hl IH Ha]; intros Hm H; cbn; [auto|]. constructor.
  - apply IH; [auto|]. intros; apply H; [now right|auto].
  - apply Forall_app. split; [auto|]. apply Forall_forall. intros y Hy. apply H; [now left|auto].
Qed.
Lemma sorted_split {A} (R : A -> A -> Prop) pre x post : StronglySorted R (pre ++ x :: post) ->
  (forall y, In y pre -> R y x) /\ (forall y, In y post -> R x y).
Proof.
  induction pre as [|a pre IH]; cbn; intros H; inversion H as [|? ? H1 H2]; subst.
  - split; [intros y []|]. now apply Forall_forall.
  - destruct (IH H1) as (I1 & I2). split; [|auto]. intros y [<-|Hy]; [|auto].
    rewrite Forall_forall in H2. apply H2. rewrite in_app_iff. right. now left.
Qed.
Lemma zspan_sorted a b : StronglySorted Z.lt (zspan a b).
Proof.
  unfold zspan, zrange. generalize 0%nat as k. generalize (Z.to_nat (b - a)) as m.
  induction m as [|m IH]; intros k; cbn; constructor; [apply IH|].
  apply Forall_forall. intros y Hy. apply in_map_iff in Hy as (i & <- & Hi). apply in_map_iff in Hi as (j & <- & Hj). apply in_seq in Hj. lia.
Qed.
Lemma offsets_sorted L : StronglySorted scan_before (l1_offsets L).
Proof.
  unfold l1_offsets. generalize (zspan_sorted (- L) L). induction 1 as [|fo l Hl IH Ha]; cbn; [constructor|].
  apply sorted_app; [|exact IH|].
  - generalize (zspan_sorted (- L + Z.abs fo) (L - Z.abs fo)). induction 1 as [|dr l' Hl' IH' Ha']; cbn; constructor; [auto|].
    rewrite Forall_forall in *. intros y Hy. apply in_map_iff in Hy as (d & <- & Hd). right. cbn. split; [auto|]. apply Ha'. auto.
  - intros x y Hx Hy. apply in_map_iff in Hx as (d & <- & _). apply in_flat_map in Hy as (f & Hf & Hy).
    apply in_map_iff in Hy as (d' & <- & _). left. cbn. rewrite Forall_forall in Ha. auto.
Qed.
Lemma in_offsets L o : In o (l1_offsets L) <->
  - L <= snd o < L /\ - L + Z.abs (snd o) <= fst o < L - Z.abs (snd o).
Proof.
  unfold l1_offsets. rewrite in_flat_map. destruct o as (dr & fo). cbn [fst snd]. split.
  - intros (f & Hf & H). apply in_zspan in Hf. apply in_map_iff in H as (d & E & Hd). injection E as -> ->.
    apply in_zspan in Hd. auto.
  - intros (Hf & Hd). exists fo. split; [now apply in_zspan|]. apply in_map_iff. exists dr. split; [auto|now apply in_zspan].
Qed.
Lemma nb_move L c d : nb L c d <-> exists o, In o (l1_offsets L) /\ d = move c o.
Proof.
  unfold nb. destruct c as (cd & cf), d as (dd & df). cbn [fst snd]. split.
  - intros H. exists (dd - cd, df - cf). split; [now apply in_offsets|]. unfold move. cbn. f_equal; lia.
  - intros ((od & of) & Ho & E). apply in_offsets in Ho. unfold move in E. cbn in *. injection E as -> ->.
    replace (cf + of - cf) with of by lia. replace (cd + od - cd) with od by lia. auto.
Qed.

Lemma coord_ix D N c : bin D N c -> coord_of N (index_of_coord N c) = c.
Proof.
  destruct c as (d & f). unfold bin, coord_of, index_of_coord. cbn [fst snd]. intros (Hd & Hf).
  rewrite Z.quot_div_nonneg, Z.rem_mod_nonneg by nia. rewrite (Z.add_comm (d * N)), Z.div_add, Z.mod_add, Z.div_small, Z.mod_small by lia. f_equal.
Qed.
Lemma ix_range D N c : bin D N c -> 0 <= index_of_coord N c < D * N.
Proof. destruct c as (d & f). unfold bin, index_of_coord. cbn [fst snd]. nia. Qed.
Lemma coord_bin D N n : 0 < N -> 0 <= n < D * N -> bin D N (coord_of N n).
Proof.
  intros HN Hn. unfold bin, coord_of. cbn [fst snd]. rewrite Z.quot_div_nonneg, Z.rem_mod_nonneg by lia.
  split; [|apply Z.mod_pos_bound; lia]. split; [apply Z.div_pos; lia|]. apply Z.div_lt_upper_bound; lia.
Qed.
Lemma ix_coord D N n : 0 < N -> 0 <= n < D * N -> index_of_coord N (coord_of N n) = n.
Proof.
  intros HN Hn. unfold index_of_coord, coord_of. cbn [fst snd]. rewrite Z.quot_div_nonneg, Z.rem_mod_nonneg by lia.
  pose proof (Z.div_mod n N). lia.
Qed.

Section Class.
  Context {F : Type}.
  Variables (snr : F -> F -> F) (gt : F -> F -> bool) (thr half : F) (D N L : Z) (spec noise : list F).
  Variables (X : coord -> F) (W : Z -> F).
  Hypothesis HX : plane_holds (dense [D; N]) spec D N X.
  Hypothesis HW : forall d, 0 <= d < D -> znth noise d = Some (W d).
  Definition Sx (c : coord) : F := snr (X c) (W (fst c)).
  Hypothesis HN : 0 < N.
  Hypothesis HL : 0 < L.
  Hypothesis Hord : ordered gt D N Sx.
  Notation ix := (index_of_coord N).

  Lemma snr_at c : bin D N c -> bin_snr snr (dense [D; N]) spec noise c = Ok (X c, W (fst c), Sx c).
  Proof.
    intros Hc. destruct HX as (_ & H). specialize (H c Hc). unfold bin_snr. rewrite (load_some _ _ _ H). cbn [obind].
    unfold zget. rewrite HW by apply Hc. reflexivity.
  Qed.
  Lemma steepest_spec c offs : forall b ismax, bin D N b ->
    (forall o, In o offs -> bin D N (move c o)) ->
    exists r, steepest snr gt D N spec noise c offs (Sx b) (ix b) ismax = Ok (Some r) /\
      (r = (ismax, ix b) /\ (forall o, In o offs -> gt (Sx (move c o)) (Sx b) = false) \/
       exists pre o post, offs = pre ++ o :: post /\ r = (false, ix (move c o)) /\
         gt (Sx (move c o)) (Sx b) = true /\
         (forall o', In o' pre -> gt (Sx (move c o)) (Sx (move c o')) = true) /\
         (forall o', In o' post -> gt (Sx (move c o')) (Sx (move c o)) = false)).
  Proof.
    destruct Hord as (Hirr & Htr & Hweak).
    induction offs as [|o offs IH]; intros b ismax Hb Hin; cbn [steepest].
    - eexists. split; [reflexivity|]. left. split; [reflexivity|]. intros o [].
    - assert (Ho : bin D N (move c o)) by (apply Hin; now left). pose proof (proj2 (in_grid_bin D N _) Ho) as Eg. rewrite Eg.
      rewrite (snr_at _ Ho). cbn [obind snd].
      assert (Hin' : forall o, In o offs -> bin D N (move c o)) by (intros; apply Hin; now right).
      destruct (gt (Sx (move c o)) (Sx b)) eqn:G.
      + destruct (IH (move c o) false Ho Hin') as (r & E & Hr). exists r. split; [exact E|]. right.
        destruct Hr as [(-> & Hr)|(pre & o1 & post & -> & -> & G1 & G2 & G3)].
        * exists [], o, offs. split; [reflexivity|]. split; [reflexivity|]. split; [auto|]. split; [intros o' []|auto].
        * exists (o :: pre), o1, post. split; [reflexivity|]. split; [reflexivity|]. split; [eapply Htr; eauto|].
          split; [|auto]. intros o' [<-|Ho']; auto.
      + destruct (IH b ismax Hb Hin') as (r & E & Hr). exists r. split; [exact E|].
        destruct Hr as [(-> & Hr)|(pre & o1 & post & -> & -> & G1 & G2 & G3)].
        * left. split; [reflexivity|]. intros o' [<-|Ho']; auto.
        * right. exists (o :: pre), o1, post. split; [reflexivity|]. split; [reflexivity|]. split; [auto|]. split; [|auto].
          intros o' [<-|Ho']; [|auto]. destruct (Hweak (move c o1) b (move c o)) as [E1|E1]; auto; [|congruence].
          apply Hin'. rewrite in_app_iff. right. now left.
  Qed.
  (** Some neighbour is outside. *)
  Lemma steepest_out c offs : forall best bi ismax, (exists o, In o offs /\ ~ bin D N (move c o)) ->
    steepest snr gt D N spec noise c offs best bi ismax = Ok None.
  Proof.
    induction offs as [|o offs IH]; intros best bi ismax (o' & Ho & Hb); [destruct Ho|]. cbn [steepest].
    destruct (in_grid D N (move c o)) eqn:E; [|reflexivity]. apply in_grid_bin in E. rewrite (snr_at _ E). cbn [obind snd].
    destruct Ho as [->|Ho]; [tauto|]. destruct (gt _ _); apply IH; eauto.
  Qed.

  Notation lit := (lit gt half D N L Sx).
  Notation peak := (peak gt thr half D N L Sx).
  Notation uphill := (uphill gt half D N L Sx).
  Lemma all_in_dec c : (forall d, nb L c d -> bin D N d) \/ exists o, In o (l1_offsets L) /\ ~ bin D N (move c o).
  Proof.
    assert (G : forall offs, (forall o, In o offs -> bin D N (move c o)) \/ exists o, In o offs /\ ~ bin D N (move c o)).
    { induction offs as [|o offs IH]; [left; intros o []|]. destruct (in_grid D N (move c o)) eqn:E.
      - apply in_grid_bin in E. destruct IH as [H|(o' & H1 & H2)]; [left; intros o' [<-|]; auto|right; exists o'; split; [now right|auto]].
      - right. exists o. split; [now left|]. intros H. apply in_grid_bin in H. congruence. }
    destruct (G (l1_offsets L)) as [H|H]; [left|auto]. intros d Hd. apply nb_move in Hd as (o & Ho & ->). auto.
  Qed.

  Definition meaning (n : Z) (k : cls) : Prop :=
    match k with
    | Peak => peak (coord_of N n)
    | Under j => exists d, uphill (coord_of N n) d /\ bin D N d /\ j = ix d
    | Skip => ~ peak (coord_of N n) /\ forall d, ~ uphill (coord_of N n) d
    end.
  Theorem classify_spec n : 0 <= n < D * N -> exists k, classify snr gt thr half D N L spec noise n = Ok k /\ meaning n k.
  Proof.
    intros Hn. pose proof (coord_bin D N n HN Hn) as Hc. unfold classify, meaning. set (c := coord_of N n) in *. rewrite (snr_at c Hc). cbn [obind snd].
    destruct (gt (Sx c) half) eqn:Gh.
    2:{ exists Skip. split; [reflexivity|]. split; [intros (((_ & _ & H) & _) & _)|intros d ((_ & _ & H) & _)]; congruence. }
    destruct (all_in_dec c) as [Hall|Hout].
    2:{ rewrite (steepest_out c _ _ _ _ Hout). cbn [obind]. exists Skip. split; [reflexivity|]. destruct Hout as (o & Ho & Hb).
        assert (Hno : ~ lit c) by (intros (_ & H & _); apply Hb, H; apply nb_move; eauto).
        split; [intros ((H & _) & _); auto|intros d (H & _); auto]. }
    assert (Hlit : lit c) by (split; [auto|split; auto]).
    destruct (steepest_spec c (l1_offsets L) c true Hc) as (r & E & Hr).
    { intros o Ho. apply Hall, nb_move. eauto. }
    rewrite E. cbn [obind]. destruct Hr as [(-> & Hmax)|(pre & o & post & Eo & -> & G1 & G2 & G3)].
    - assert (Htop : forall d, nb L c d -> gt (Sx d) (Sx c) = false) by (intros d Hd; apply nb_move in Hd as (o & Ho & ->); auto).
      eexists. split; [reflexivity|]. destruct (gt (Sx c) thr) eqn:Gt; cbn beta iota.
      + split; [split; auto|auto].
      + split; [intros (_ & H); congruence|]. intros d (_ & H1 & H2 & _). rewrite Htop in H2 by auto. discriminate.
    - eexists. split; [reflexivity|]. cbn beta iota. exists (move c o).
      assert (Hd : nb L c (move c o)) by (apply nb_move; exists o; split; [rewrite Eo, in_app_iff; right; now left|auto]).
      split; [|split; [auto|reflexivity]]. split; [auto|]. split; [auto|]. split; [auto|]. intros e He.
      apply nb_move in He as (o' & Ho' & ->). rewrite Eo in Ho'. pose proof (offsets_sorted L) as Hs. rewrite Eo in Hs.
      apply sorted_split in Hs as (S1 & S2). destruct Hord as (Hirr & Htr & _).
      apply in_app_iff in Ho' as [Ho'|[<-|Ho']].
      + specialize (G2 _ Ho'). split; [|congruence]. destruct (gt (Sx (move c o')) (Sx (move c o))) eqn:B; [|auto].
        pose proof (Htr _ _ _ B G2) as B'. rewrite Hirr in B'. discriminate.
      + split; [apply Hirr|]. intros _. right. lia.
      + split; [auto|]. intros _. specialize (S2 _ Ho'). destruct S2 as [S2|S2]; unfold move; cbn [fst snd]; [left|right]; lia.
  Qed.

  (** Specification relations are functional. *)
  Lemma uphill_fun c d d' : uphill c d -> uphill c d' -> d = d'.
  Proof.
    clear HX HW Hord. intros (H0 & H1 & H2 & H3) (_ & H1' & H2' & H3'). destruct (H3 d' H1') as (A1 & A2). destruct (H3' d H1) as (B1 & B2).
    specialize (A2 B1). specialize (B2 A1). destruct d, d'; cbn [fst snd] in *. f_equal; lia.
  Qed.
  Lemma peak_not_uphill c d : peak c -> ~ uphill c d.
  Proof. intros ((_ & H) & _) (_ & H1 & H2 & _). rewrite H in H2 by auto. discriminate. Qed.
  Notation owned := (owned gt thr half D N L Sx).
  Lemma owned_fun c p p' : owned c p -> owned c p' -> p = p'.
  Proof.
    induction 1 as [p Hp|c d p Hu Ho IH]; intros H'; inversion H' as [? Hp'|? d' ? Hu' Ho']; subst; auto.
    - exfalso. eapply peak_not_uphill; eauto.
    - exfalso. eapply peak_not_uphill; eauto.
    - apply IH. now rewrite (uphill_fun _ _ _ Hu Hu').
  Qed.
  Lemma owned_lit c p : owned c p -> lit c /\ peak p.
  Proof. induction 1 as [p Hp|c d p Hu Ho IH]; [split; [apply Hp|auto]|]. split; [apply Hu|tauto]. Qed.
  Lemma uphill_bin c d : uphill c d -> bin D N c /\ bin D N d.
  Proof. intros ((H1 & H2 & _) & H3 & _). auto. Qed.
End Class.
