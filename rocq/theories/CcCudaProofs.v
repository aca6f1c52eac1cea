(** The three kernels together: what survives, whatever the schedule. *)
From Verif Require Export CcCudaInit.
From Coq Require Import ZifyBool ZifyNat Permutation Relation_Operators.
Ltac Zify.zify_post_hook ::= Z.div_mod_to_equations.
Local Open Scope Z_scope.

Section Whole.
  Context {F : Type}.
  Variables (snr : F -> F -> F) (gt : F -> F -> bool) (thr half : F) (D N L : Z) (spec noise : list F).
  Variables (X : coord -> F) (W : Z -> F).
  Hypothesis HX : plane_holds (dense [D; N]) spec D N X.
  Hypothesis HW : forall d, 0 <= d < D -> znth noise d = Some (W d).
  Hypothesis HD : 0 <= D.
  Hypothesis HN : 0 < N.
  Hypothesis HL : 2 <= L.
  Notation Sx := (Sx snr X W).
  Hypothesis Hord : ordered gt D N Sx.
  Notation ix := (index_of_coord N).
  Notation lit := (lit gt half D N L Sx).
  Notation peak := (peak gt thr half D N L Sx).
  Notation uphill := (uphill gt half D N L Sx).
  Notation owned := (owned gt thr half D N L Sx).
  Notation touch := (touch gt thr half D N L Sx).
  Notation group := (group gt thr half D N L Sx).
  Notation winner := (winner gt thr half D N L Sx).
  Lemma peak_bin p : peak p -> bin D N p. Proof. intros (((Hb & _) & _) & _). exact Hb. Qed.
  Lemma lit_bin p : lit p -> bin D N p. Proof. intros (Hb & _). exact Hb. Qed.
  Lemma owned_bin c p : owned c p -> bin D N c /\ bin D N p.
  Proof. intros Ho. apply (owned_lit snr gt thr half D N L X W) in Ho as (H1 & H2). split; [now apply lit_bin|now apply peak_bin]. Qed.
  Definition nmax := Z.quot (D * N) (L * L).
  Hypothesis Hroom : forall ps, NoDup ps -> (forall c, In c ps -> peak c) -> 8 + zlen ps <= nmax.

  Definition kind (n : Z) : cls := match classify snr gt thr half D N L spec noise n with Ok k => k | _ => Skip end.
  Lemma kind_ok n : 0 <= n < D * N -> classify snr gt thr half D N L spec noise n = Ok (kind n).
  Proof.
    intros Hn. destruct (classify_spec snr gt thr half D N L spec noise X W HX HW HN Hord n Hn) as (k & E & _). unfold kind. now rewrite E.
  Qed.
  Lemma kind_means n : 0 <= n < D * N -> meaning snr gt thr half D N L X W n (kind n).
  Proof.
    intros Hn. destruct (classify_spec snr gt thr half D N L spec noise X W HX HW HN Hord n Hn) as (k & E & M). unfold kind. now rewrite E.
  Qed.
  Lemma kind_peak n : 0 <= n < D * N -> kind n = Peak <-> peak (coord_of N n).
  Proof.
    intros Hn. pose proof (kind_means n Hn) as M. split; [intros E; rewrite E in M; exact M|].
    intros Hp. destruct (kind n) as [| |j]; cbn in M; [tauto|auto|]. destruct M as (d & Hu & _). exfalso. eapply peak_not_uphill; eauto.
  Qed.
  Lemma room : 8 + zlen (peaks D N kind) <= nmax.
  Proof.
    replace (zlen (peaks D N kind)) with (zlen (map (coord_of N) (peaks D N kind))) by apply zlen_map. apply Hroom.
    - assert (G : forall l, NoDup l -> (forall n, In n l -> 0 <= n < D * N) -> NoDup (map (coord_of N) l)).
      { induction 1 as [|a l Ha Hl IH]; intros Hb; cbn; constructor; [|apply IH; intros; apply Hb; now right].
        intros Hi. apply in_map_iff in Hi as (b & E & Hi). apply Ha. assert (a = b); [|congruence].
        rewrite <- (ix_coord D N a HN), <- (ix_coord D N b HN), E; auto; apply Hb; [now right|now left]. }
      apply G; [apply NoDup_filter, zrange_nodup|]. intros n Hi. apply filter_In in Hi as (Hi & _). now apply in_zrange.
    - intros c Hc. apply in_map_iff in Hc as (n & <- & Hi). apply filter_In in Hi as (Hi & Hk). apply in_zrange in Hi.
      apply kind_peak; [auto|]. unfold is_peak in Hk. destruct (kind n); congruence.
  Qed.
  Lemma nmax_8 : 8 <= nmax.
  Proof. pose proof room. unfold zlen in H. lia. Qed.
  Lemma table : table_size D N L = Ok nmax.
  Proof. unfold table_size. destruct (Z.eqb_spec (L * L) 0); [nia|reflexivity]. Qed.

  Lemma not_first c d : uphill c d -> ix d <> 0.
  Proof.
    intros (Hl & Hd & _). destruct Hl as (_ & Hall & _).
    assert (B1 : bin D N (fst c - L, snd c)) by (apply Hall; unfold nb; cbn [fst snd]; lia).
    assert (B2 : bin D N (fst c - 1, snd c - (L - 1))) by (apply Hall; unfold nb; cbn [fst snd]; lia).
    assert (B3 : bin D N d) by auto. destruct c as (cd & cf), d as (dd & df). unfold bin, nb, index_of_coord in *. cbn [fst snd] in *. nia.
  Qed.
  Definition above (c : coord) : nat := length (filter (fun n => gt (Sx (coord_of N n)) (Sx c)) (zrange (D * N))).
  Lemma above_lt c d : uphill c d -> (above d < above c)%nat.
  Proof.
    intros Hu. destruct (uphill_bin snr gt half D N L X W c d Hu) as (_ & Hb). destruct Hord as (Hirr & Htr & _).
    unfold above. apply filter_lt with (a := ix d).
    - apply in_zrange. now apply ix_range.
    - rewrite coord_ix with (D := D) by auto. apply Hirr.
    - rewrite coord_ix with (D := D) by auto. apply Hu.
    - intros n _ H. eapply Htr; [exact H|apply Hu].
  Qed.

  (** *** After the first kernel *)
  Section After.
    Variable m : gmem.
    Hypothesis Hm : initialised D N nmax kind m.
    Let claims := g_claims m.
    Notation lab1 := (g_labels m).
    Lemma claim_peak i n : znth claims i = Some n -> 0 <= n < D * N /\ peak (coord_of N n) /\ znth (g_max m) (8 + i) = Some (Some n) /\ znth (g_inv m) (8 + i) = Some 0.
    Proof.
      intros E. destruct Hm as (_ & _ & _ & Hnd & _ & Hin & Hlab). pose proof (proj1 (Hin n) (znth_in _ _ _ E)) as (Hn & Hk).
      split; [auto|]. split; [now apply kind_peak|]. specialize (Hlab n Hn). rewrite Hk in Hlab. destruct Hlab as (i' & Ei & A & B & _).
      rewrite (nodup_znth _ _ _ _ Hnd E Ei). auto.
    Qed.
    Lemma peak_claim p : peak p -> exists i, znth claims i = Some (ix p) /\ znth lab1 (ix p) = Some (8 + i).
    Proof.
      intros Hp. assert (Hb : bin D N p) by now apply peak_bin. destruct Hm as (_ & _ & _ & Hnd & _ & Hin & Hlab).
      pose proof (ix_range D N p Hb) as Hr. specialize (Hlab _ Hr). assert (Hk : kind (ix p) = Peak) by (apply kind_peak; [auto|rewrite coord_ix with (D := D); auto]).
      rewrite Hk in Hlab. destruct Hlab as (i & A & _ & _ & B). eauto.
    Qed.
    Lemma chains c : bin D N c ->
      (exists p i k, owned c p /\ znth claims i = Some (ix p) /\ chain nmax lab1 (ix c) (8 + i) k) \/
      ((forall p, ~ owned c p) /\ exists k, chain nmax lab1 (ix c) 0 k).
    Proof.
      remember (above c) as k eqn:Ek. revert c Ek. induction k as [k IH] using lt_wf_ind. intros c Ek Hc.
      pose proof (ix_range D N c Hc) as Hr. pose proof (coord_ix D N c Hc) as Ec. pose proof (kind_means (ix c) Hr) as M.
      assert (Hm' := Hm). destruct Hm' as (_ & _ & _ & Hnd & Hle & Hin & Hlab). specialize (Hlab _ Hr). pose proof room as Hroom'.
      destruct (kind (ix c)) as [| |j]; cbn [meaning] in M; rewrite Ec in M.
      - right. destruct M as (M1 & M2). split.
        + intros p Hp. inversion Hp; subst; [tauto|eapply M2; eauto].
        + exists O. apply chain_end; [exact Hlab|]. pose proof nmax_8. lia.
      - left. destruct Hlab as (i & A & _ & _ & B). exists c, i, O. split; [now constructor|]. split; [auto|].
        apply chain_end; [exact B|]. apply znth_bounds in A. unfold claims in A. lia.
      - destruct M as (d & Hu & Hd & ->). pose proof (above_lt c d Hu) as Hlt. rewrite <- Ek in Hlt. pose proof (not_first c d Hu) as Hnz.
        pose proof (ix_range D N d Hd) as Hrd. assert (Ej : nmax + ix d - nmax = ix d) by lia.
        destruct (IH _ Hlt d eq_refl Hd) as [(p & i & k' & Ho & Hi & Hch)|(Hno & k' & Hch)].
        + left. exists p, i, (S k'). split; [econstructor; eauto|]. split; [auto|]. eapply chain_next; [exact Hlab|lia|]. now rewrite Ej.
        + right. split.
          * intros p Hp. inversion Hp as [? Hpk|? d' ? Hu' Ho']; subst; [eapply peak_not_uphill; eauto|].
            rewrite (uphill_fun snr gt half D N L X W _ _ _ Hu' Hu) in Ho'. eapply Hno; eauto.
          * exists (S k'). eapply chain_next; [exact Hlab|lia|]. now rewrite Ej.
    Qed.

      Notation count := (zlen claims).
      Notation vid := (valid count).
      (** The peak of a table entry. *)
      Definition pk (id : Z) : coord := match znth claims (id - 8) with Some n => coord_of N n | None => (0, 0) end.
      Lemma pk_peak id : vid id -> peak (pk id) /\ znth claims (id - 8) = Some (ix (pk id)) /\
        znth (g_max m) id = Some (Some (ix (pk id))) /\ znth (g_inv m) id = Some 0.
      Proof.
        intros Hv. destruct (znth_some claims (id - 8)) as (n & E); [unfold valid in Hv; lia|].
        destruct (claim_peak _ _ E) as (Hn & Hp & A & B). unfold pk. rewrite E. replace (8 + (id - 8)) with id in * by lia.
        rewrite (ix_coord D N n HN Hn). auto.
      Qed.
      Lemma pk_inj p q : vid p -> vid q -> pk p = pk q -> p = q.
      Proof.
        intros Hp Hq E. destruct (pk_peak p Hp) as (_ & A & _). destruct (pk_peak q Hq) as (_ & B & _). rewrite E in A.
        assert (p - 8 = q - 8); [|lia]. eapply nodup_znth; [|exact A|exact B]. apply Hm.
      Qed.
      Lemma id_of p : peak p -> exists id, vid id /\ pk id = p.
      Proof.
        intros Hp. destruct (peak_claim p Hp) as (i & E & _). exists (8 + i). pose proof (znth_bounds _ _ _ E). split; [unfold valid; lia|].
        unfold pk. replace (8 + i - 8) with i by lia. rewrite E. apply coord_ix with (D := D). now apply peak_bin.
      Qed.

    (** *** After the second kernel *)
    Section Resolved.
      Variable lab : list Z.
      Hypothesis Hlen : zlen lab = zlen lab1.
      Hypothesis Hlab : forall n r k, 0 <= n < zlen lab1 -> chain nmax lab1 n r k -> znth lab n = Some r.
      Lemma len1 : zlen lab1 = D * N. Proof. apply Hm. Qed.
      Lemma label_owned c : bin D N c -> forall v, znth lab (ix c) = Some v ->
        8 <= v /\ (exists p, owned c p /\ znth claims (v - 8) = Some (ix p)) \/ v = 0 /\ forall p, ~ owned c p.
      Proof.
        intros Hc v Ev. pose proof (ix_range D N c Hc) as Hr. assert (Hr' : 0 <= ix c < zlen lab1) by (rewrite len1; lia).
        destruct (chains c Hc) as [(p & i & k & Ho & Hi & Hch)|(Hno & k & Hch)]; pose proof (Hlab _ _ _ Hr' Hch) as E.
        - assert (v = 8 + i) by congruence. subst v. left. pose proof (znth_bounds _ _ _ Hi). split; [lia|]. exists p. split; [auto|]. now replace (8 + i - 8) with i by lia.
        - assert (v = 0) by congruence. auto.
      Qed.
      Lemma label_some c : bin D N c -> exists v, znth lab (ix c) = Some v.
      Proof. intros Hc. apply znth_some. rewrite Hlen, len1. now apply ix_range. Qed.

      Definition better (p q : Z) : bool :=
        gt (Sx (pk p)) (Sx (pk q)) || (negb (gt (Sx (pk q)) (Sx (pk p))) && (ix (pk p) <? ix (pk q))).
      Lemma ix_inj c d : bin D N c -> bin D N d -> ix c = ix d -> c = d.
      Proof. intros Hc Hd E. rewrite <- (coord_ix D N c Hc), <- (coord_ix D N d Hd). congruence. Qed.
      Lemma ix_earlier c d : bin D N c -> bin D N d -> ix c < ix d <-> earlier c d.
      Proof. destruct c as (a & b), d as (a' & b'). unfold bin, earlier, index_of_coord. cbn [fst snd]. intros. split; [intros; nia|intros [|(-> & ?)]; nia]. Qed.
      Lemma better_beats p q : vid p -> vid q -> better p q = true <-> beats gt Sx (pk p) (pk q).
      Proof.
        intros Hp Hq. pose proof (peak_bin _ (proj1 (pk_peak p Hp))) as B1. pose proof (peak_bin _ (proj1 (pk_peak q Hq))) as B2.
        unfold better, beats. rewrite orb_true_iff, andb_true_iff, negb_true_iff, Z.ltb_lt, (ix_earlier _ _ B1 B2). tauto.
      Qed.
      Lemma better_irr p : vid p -> better p p = false.
      Proof. intros _. unfold better. destruct Hord as (Hirr & _). rewrite Hirr. cbn. lia. Qed.
      Lemma better_tr p q r : vid p -> vid q -> vid r -> better p q = true -> better q r = true -> better p r = true.
      Proof.
        intros Hp Hq Hr. pose proof (peak_bin _ (proj1 (pk_peak p Hp))) as B1. pose proof (peak_bin _ (proj1 (pk_peak q Hq))) as B2.
        pose proof (peak_bin _ (proj1 (pk_peak r Hr))) as B3.
        rewrite !better_beats by auto. unfold beats. destruct Hord as (Hirr & Htr & Hweak).
        rewrite <- !ix_earlier by auto. intros [G1|(G1 & E1)] [G2|(G2 & E2)].
        - left. eapply Htr; eauto.
        - left. destruct (Hweak (pk p) (pk q) (pk r)) as [H|H]; auto. congruence.
        - left. destruct (Hweak (pk q) (pk r) (pk p)) as [H|H]; auto. congruence.
        - right. split; [|lia]. destruct (gt (Sx (pk r)) (Sx (pk p))) eqn:G; [|auto].
          destruct (Hweak (pk r) (pk p) (pk q)) as [H|H]; auto; congruence.
      Qed.
      Lemma better_tot p q : vid p -> vid q -> p <> q -> better p q = true \/ better q p = true.
      Proof.
        intros Hp Hq Hne. pose proof (peak_bin _ (proj1 (pk_peak p Hp))) as B1. pose proof (peak_bin _ (proj1 (pk_peak q Hq))) as B2.
        assert (Hi : ix (pk p) <> ix (pk q)) by (intros E; apply Hne, pk_inj; auto; now apply ix_inj).
        unfold better. destruct (gt (Sx (pk p)) (Sx (pk q))) eqn:G1, (gt (Sx (pk q)) (Sx (pk p))) eqn:G2; cbn [negb andb orb]; auto.
        destruct (Z.ltb_spec (ix (pk p)) (ix (pk q))); [auto|right; lia].
      Qed.
      Lemma entry_at id : vid id -> entry snr D N spec noise (g_max m) id = Ok (Sx (pk id), ix (pk id)).
      Proof.
        intros Hv. destruct (pk_peak id Hv) as (Hp & _ & E & _). unfold entry, zget. rewrite E. cbn [obind].
        rewrite (coord_ix D N (pk id)) by now apply peak_bin. rewrite (snr_at snr D N spec noise X W HX HW) by now apply peak_bin. reflexivity.
      Qed.
      Lemma pick_at p q : vid p -> vid q -> p <> q ->
        pick snr gt D N spec noise (g_max m) p q = Ok (if better p q then (q, p) else (p, q)).
      Proof.
        intros Hp Hq Hne. unfold pick. rewrite !entry_at by auto. cbn [obind fst snd].
        pose proof (peak_bin _ (proj1 (pk_peak p Hp))) as B1. pose proof (peak_bin _ (proj1 (pk_peak q Hq))) as B2.
        assert (Hi : ix (pk p) <> ix (pk q)) by (intros E; apply Hne, pk_inj; auto; now apply ix_inj).
        unfold better. destruct (gt (Sx (pk p)) (Sx (pk q))), (gt (Sx (pk q)) (Sx (pk p))); cbn [negb andb orb]; try reflexivity.
        destruct (Z.ltb_spec (ix (pk q)) (ix (pk p))), (Z.ltb_spec (ix (pk p)) (ix (pk q))); try lia; reflexivity.
      Qed.

      (** Neighbours visited by the merge. *)
      Lemma seen_drifts_in c fo drs d : In d (seen_drifts D c fo drs) -> exists dr, In dr drs /\ d = move c (dr, fo) /\ 0 <= fst d < D.
      Proof.
        induction drs as [|dr drs IH]; cbn [seen_drifts]; [intros []|]. destruct (_ && _) eqn:E; [|intros []].
        intros [<-|H]; [exists dr; split; [now left|]; split; [auto|unfold move; cbn; lia]|].
        destruct (IH H) as (x & Hx & Ex). exists x. split; [now right|auto].
      Qed.
      Lemma seen_in c fos d : In d (seen D N L c fos) -> exists fo dr, In fo fos /\ In dr (zspan (- L + Z.abs fo) (L - Z.abs fo)) /\ d = move c (dr, fo) /\ bin D N d.
      Proof.
        induction fos as [|fo fos IH]; cbn [seen]; [intros []|]. destruct (_ && _) eqn:E; [|intros []].
        intros H. apply in_app_iff in H as [H|H].
        - apply seen_drifts_in in H as (dr & Hdr & -> & Hd). exists fo, dr. split; [now left|]. split; [auto|]. split; [auto|].
          unfold bin, move in *. cbn [fst snd] in *. lia.
        - destruct (IH H) as (x & y & Hx & Ex). exists x, y. split; [now right|auto].
      Qed.
      Lemma seen_drifts_all c fo drs dr : (forall x, In x drs -> 0 <= fst c + x < D) -> In dr drs -> In (move c (dr, fo)) (seen_drifts D c fo drs).
      Proof.
        induction drs as [|x drs IH]; intros Hall Hin; [destruct Hin|]. cbn [seen_drifts].
        assert (Hx : 0 <= fst c + x < D) by (apply Hall; now left). replace ((0 <=? fst c + x) && (fst c + x <? D)) with true by lia.
        destruct Hin as [->|Hin]; [now left|right]. apply IH; [|auto]. intros; apply Hall; now right.
      Qed.
      Lemma seen_all c fos fo dr : (forall x, In x fos -> -L <= x < L) -> bin D N c ->
        (forall d, nb L c d -> bin D N d) -> L <= snd c -> In fo fos -> In dr (zspan (- L + Z.abs fo) (L - Z.abs fo)) ->
        In (move c (dr, fo)) (seen D N L c fos).
      Proof.
        intros Hr Hc Hall Hedge. induction fos as [|x fos IH]; intros Hin Hdr; [destruct Hin|]. cbn [seen].
        assert (Hx : 0 <= snd c + x < N).
        { specialize (Hr x ltac:(now left)). destruct (Z.eq_dec x (- L)) as [->|Hne]; [unfold bin in Hc; lia|].
          assert (B : bin D N (fst c + (- L + Z.abs x), snd c + x)) by (apply Hall; unfold nb; cbn [fst snd]; lia). apply B. }
        replace ((0 <=? snd c + x) && (snd c + x <? N)) with true by lia. apply in_app_iff.
        destruct Hin as [->|Hin].
        - left. apply seen_drifts_all; [|auto]. intros y Hy. apply in_zspan in Hy.
          assert (B : bin D N (fst c + y, snd c + fo)); [|apply B]. apply Hall. unfold nb. cbn [fst snd]. specialize (Hr fo ltac:(now left)). lia.
        - right. apply IH; auto. intros; apply Hr; now right.
      Qed.
      Lemma seen_looks c d : In d (seen D N L c (zspan (- L) L)) -> looks L c d /\ bin D N d.
      Proof.
        intros H. assert (He : L <= snd c).
        { unfold zspan in H. replace (L - - L) with (2 * L) in H by lia. rewrite zrange_cons in H by lia. cbn [map seen] in H.
          destruct (_ && _) eqn:E in H; [lia|destruct H]. }
        apply seen_in in H as (fo & dr & Hf & Hd & -> & Hb). apply in_zspan in Hf, Hd. split; [split; [|auto]|auto].
        apply nb_move. exists (dr, fo). split; [apply in_offsets; cbn [fst snd]; lia|auto].
      Qed.
      Lemma looks_seen c d : lit c -> looks L c d -> In d (seen D N L c (zspan (- L) L)).
      Proof.
        intros (Hc & Hall & _) (Hnb & He). apply nb_move in Hnb as ((dr & fo) & Ho & ->). apply in_offsets in Ho. cbn [fst snd] in Ho.
        apply seen_all; auto; try (apply in_zspan; lia); intros x Hx; apply in_zspan in Hx; lia.
      Qed.
      Definition labels_of (ns : list Z) : list Z := map (label lab) ns.
      Lemma load_all_ok ns : (forall k, In k ns -> 0 <= k < D * N) -> load_all lab ns = Ok (labels_of ns).
      Proof.
        induction ns as [|k ns IH]; intros H; [reflexivity|]. cbn [load_all labels_of map].
        destruct (znth_some lab k) as (v & E); [rewrite Hlen, len1; apply H; now left|]. rewrite (load_some _ _ _ E). cbn [obind].
        rewrite IH by (intros; apply H; now right). cbn [obind]. unfold label at 1. now rewrite E.
      Qed.
      Definition ids_of (b : Z) : list Z := filter (Z.leb 8) (labels_of (neighbours D N L b)).
      Notation dom := (zrange (D * N)).
      Lemma nbrs_range b : forall k, In k (neighbours D N L b) -> 0 <= k < D * N.
      Proof. intros k Hk. apply in_map_iff in Hk as (d & <- & Hd). apply seen_looks in Hd as (_ & Hd). now apply ix_range. Qed.
      (** A label of at least 8 is the entry of the peak that owns the bin. *)
      Lemma label_meaning c id : bin D N c -> label lab (ix c) = id -> 8 <= id -> vid id /\ owned c (pk id).
      Proof.
        intros Hc E H8. destruct (label_some c Hc) as (v & Ev). unfold label in E. rewrite Ev in E. subst v.
        destruct (label_owned c Hc _ Ev) as [(_ & p & Ho & Hp)|(-> & _)]; [|lia].
        pose proof (znth_bounds _ _ _ Hp). assert (Hv : vid id) by (unfold valid; lia). split; [auto|].
        unfold pk. rewrite Hp. rewrite (coord_ix D N p); [auto|]. apply owned_bin in Ho. tauto.
      Qed.
      Lemma owner_label c id : vid id -> owned c (pk id) -> bin D N c /\ label lab (ix c) = id.
      Proof.
        intros Hv Ho. assert (Hc : bin D N c) by (apply owned_bin in Ho; tauto). split; [auto|].
        destruct (label_some c Hc) as (v & Ev). unfold label. rewrite Ev.
        destruct (label_owned c Hc _ Ev) as [(H8 & p & Ho' & Hp)|(-> & Hno)]; [|exfalso; eapply Hno; eauto].
        rewrite <- (owned_fun snr gt thr half D N L X W _ _ _ Ho Ho') in Hp. destruct (pk_peak id Hv) as (_ & Hi & _).
        assert (v - 8 = id - 8); [|lia]. eapply nodup_znth; [|exact Hp|exact Hi]. apply Hm.
      Qed.
      Lemma labels_valid b : In b dom -> exists v, znth lab b = Some v /\
        (v < 8 \/ vid v /\ exists vs, load_all lab (neighbours D N L b) = Ok vs /\ ids_of b = filter (Z.leb 8) vs /\
           forall q, In q (ids_of b) -> vid q).
      Proof.
        intros Hb. apply in_zrange in Hb. pose proof (coord_bin D N b HN Hb) as Hc. pose proof (ix_coord D N b HN Hb) as Ei.
        destruct (label_some _ Hc) as (v & Ev). rewrite Ei in Ev. exists v. split; [auto|].
        destruct (Z_lt_le_dec v 8) as [H8|H8]; [auto|right].
        split; [apply (label_meaning (coord_of N b) v Hc); [rewrite Ei; unfold label; now rewrite Ev|auto]|].
        exists (labels_of (neighbours D N L b)). split; [apply load_all_ok, nbrs_range|]. split; [reflexivity|].
        intros q Hq. apply filter_In in Hq as (Hq & H8'). apply in_map_iff in Hq as (k & E & Hk). apply in_map_iff in Hk as (d & <- & Hd).
        apply seen_looks in Hd as (_ & Hd). apply (label_meaning d q Hd); [auto|lia].
      Qed.
      Notation adj := (adj_ids lab dom ids_of).
      Lemma adj_touch p q : adj p q <-> vid p /\ vid q /\ touch (pk p) (pk q).
      Proof.
        split.
        - intros (b & Hb & Hpq). apply in_zrange in Hb. unfold pairs in Hpq. destruct (Z.leb_spec 8 (label lab b)) as [H8|H8]; [|destruct Hpq].
          apply in_map_iff in Hpq as (q' & E & Hq). injection E as <- <-. apply filter_In in Hq as (Hq & Hq8).
          apply in_map_iff in Hq as (k & Eq & Hk). apply in_map_iff in Hk as (d & <- & Hd). apply seen_looks in Hd as (Hlk & Hd).
          pose proof (coord_bin D N b HN Hb) as Hc. pose proof (ix_coord D N b HN Hb) as Ei.
          destruct (label_meaning (coord_of N b) (label lab b) Hc) as (V1 & O1); [now rewrite Ei|auto|].
          destruct (label_meaning d q' Hd Eq) as (V2 & O2); [lia|]. split; [auto|]. split; [auto|]. exists (coord_of N b), d. auto.
        - intros (V1 & V2 & c & d & O1 & O2 & Hlk). destruct (owner_label c p V1 O1) as (Hc & E1). destruct (owner_label d q V2 O2) as (Hd & E2).
          exists (ix c). split; [apply in_zrange; now apply ix_range|]. unfold pairs. rewrite E1. replace (8 <=? p) with true by (unfold valid in V1; lia).
          apply in_map_iff. exists q. split; [auto|]. apply filter_In. split; [|unfold valid in V2; lia].
          apply in_map_iff. exists (ix d). split; [auto|]. apply in_map. rewrite (coord_ix D N c Hc). apply looks_seen; [|auto].
          apply (owned_lit snr gt thr half D N L X W) in O1. tauto.
      Qed.
      Notation grp := (clos_refl_sym_trans Z adj).
      Lemma grp_group p q : grp p q -> p = q \/ vid p /\ vid q /\ group (pk p) (pk q).
      Proof.
        induction 1 as [p q H|p|p q _ IH|p q r _ IH1 _ IH2].
        - right. apply adj_touch in H as (A & B & C). split; [auto|]. split; [auto|]. now apply group_touch.
        - auto.
        - destruct IH as [->|(A & B & C)]; [auto|right]. split; [auto|]. split; [auto|]. now apply group_sym.
        - destruct IH1 as [->|(A & B & C)]; [auto|]. destruct IH2 as [->|(A' & B' & C')]; [auto|right].
          split; [auto|]. split; [auto|]. eapply group_trans; eauto.
      Qed.
      Lemma group_peaks x y : group x y -> peak x /\ peak y.
      Proof.
        induction 1 as [p Hp|p q (c & d & O1 & O2 & _)|p q _ IH|p q r _ IH1 _ IH2]; try tauto.
        apply (owned_lit snr gt thr half D N L X W) in O1, O2. tauto.
      Qed.
      Lemma group_grp x y : group x y -> forall p q, vid p -> vid q -> pk p = x -> pk q = y -> grp p q.
      Proof.
        induction 1 as [x Hx|x y H|x y _ IH|x y z Hxy IH1 Hyz IH2]; intros p q Vp Vq Ep Eq.
        - assert (p = q) by (apply pk_inj; auto; congruence). subst. apply rst_refl.
        - apply rst_step. apply adj_touch. rewrite Ep, Eq. auto.
        - apply rst_sym. auto.
        - destruct (id_of y) as (r & Vr & Er); [apply (group_peaks _ _ Hxy)|]. eapply rst_trans; [apply (IH1 p r)|apply (IH2 r q)]; auto.
      Qed.

      (** *** After the third kernel *)
      Variable todos : list (list Z).
      Hypothesis Htodo : Permutation (concat todos) dom.
      Notation mstp := (merge_step snr gt D N L spec noise lab (g_max m)).
      Theorem merged : always_ends mstp (g_inv m, map MIdle todos) /\
        forall o, msteps mstp (g_inv m, map MIdle todos) o ->
          exists inv ss, o = Ok (inv, ss) /\
            (halted mstp (inv, ss) -> zlen inv = zlen (g_inv m) /\
               forall p, vid p -> exists v, znth inv p = Some v /\ (v = 0 <-> winner (pk p))).
      Proof.
        destruct (merge_all snr gt D N L spec noise lab (g_max m) (g_inv m) count better) with (dom := dom) (ids_of := ids_of) (todos := todos) as (H1 & H2).
        - intros p Hp. apply (pk_peak p Hp).
        - intros p q Hp Hq Hne. now apply pick_at.
        - apply better_irr.
        - apply better_tr.
        - apply better_tot.
        - apply labels_valid.
        - intros b. split; apply Permutation_in; [auto|now symmetry].
        - split; [exact H1|]. intros o Ho. destruct (H2 o Ho) as (inv & ss & -> & Hh). exists inv, ss. split; [reflexivity|]. intros Hx.
          destruct (Hh Hx) as (G1 & G2). split; [auto|]. intros p Hp. destruct (G2 p Hp) as (v & Ev & Hv). exists v. split; [auto|]. rewrite Hv. clear Hv Ev v.
          split.
          + intros Hbest. split; [apply (pk_peak p Hp)|]. intros y Hy. destruct (id_of y) as (q & Vq & <-); [apply (group_peaks _ _ Hy)|].
            destruct (Hbest q Vq) as [->|Hb]; [eapply group_grp; eauto|auto|]. right. now apply better_beats.
          + intros (_ & Hbest) q Vq Hg. destruct (grp_group _ _ Hg) as [->|(_ & _ & Hgr)]; [auto|].
            destruct (Hbest _ Hgr) as [E|Hb]; [left; now apply pk_inj|right; now apply better_beats].
      Qed.
    End Resolved.
  End After.

  Variable G : Z.
  Hypothesis HG : 0 < G.
  Lemma HDN : 0 <= D * N. Proof. apply Z.mul_nonneg_nonneg; [exact HD|apply Z.lt_le_incl; exact HN]. Qed.
  Lemma init_part : always_ends (init_step snr gt thr half D N L spec noise nmax) (fresh_mem D N nmax, map IIdle (work D N G)) /\
    forall o, msteps (init_step snr gt thr half D N L spec noise nmax) (fresh_mem D N nmax, map IIdle (work D N G)) o ->
      exists m ss, o = Ok (m, ss) /\ (halted (init_step snr gt thr half D N L spec noise nmax) (m, ss) -> initialised D N nmax kind m).
  Proof. apply init_all; [exact kind_ok|pose proof nmax_8; lia|now apply work_spread|exact HDN|exact room]. Qed.
  Lemma work_in b : In b (concat (work D N G)) <-> 0 <= b < D * N.
  Proof. rewrite <- in_zrange. split; apply Permutation_in; [|symmetry]; now apply work_spread. Qed.
  Lemma resolve_part m : initialised D N nmax kind m ->
    always_ends (resolve_step nmax) (g_labels m, map RIdle (work D N G)) /\
    forall o, msteps (resolve_step nmax) (g_labels m, map RIdle (work D N G)) o ->
      exists lab ss, o = Ok (lab, ss) /\
        (halted (resolve_step nmax) (lab, ss) -> zlen lab = zlen (g_labels m) /\
           forall n r k, 0 <= n < zlen (g_labels m) -> chain nmax (g_labels m) n r k -> znth lab n = Some r).
  Proof.
    intros Hm. assert (El : zlen (g_labels m) = D * N) by apply Hm. apply resolve_chains.
    - apply nmax_8.
    - intros n Hn. rewrite El in Hn. pose proof (chains m Hm (coord_of N n) (coord_bin D N n HN Hn)) as H. rewrite (ix_coord D N n HN Hn) in H.
      destruct H as [(p & i & k & _ & _ & H)|(_ & k & H)]; eauto.
    - intros b. rewrite El. apply work_in.
  Qed.

  Lemma nodup_map_in {A B} (f : A -> B) l : NoDup l -> (forall a b, In a l -> In b l -> f a = f b -> a = b) -> NoDup (map f l).
  Proof.
    induction 1 as [|a l Ha Hl IH]; intros Hi; cbn; constructor; [|apply IH; intros; apply Hi; auto; now right].
    intros H. apply in_map_iff in H as (b & E & Hb). apply Ha. rewrite (Hi a b); auto; [now left|now right].
  Qed.

  (** Every complete run reports exactly the winners, once each. *)
  Theorem run_reports m : cuda_run snr gt thr half D N L spec noise G m ->
    exists ps, survivors m = map (fun p => Some (ix p)) ps /\ NoDup ps /\ forall c, In c ps <-> winner c.
  Proof.
    intros H. inversion H as [nm m1 ss1 lab ss2 inv ss3 Et R1 H1 R2 H2 R3 H3]; subst. rewrite table in Et. injection Et as <-.
    destruct (proj2 init_part _ R1) as (m' & ss' & E & Hm). injection E as <- <-. specialize (Hm H1).
    destruct (proj2 (resolve_part m1 Hm) _ R2) as (lab' & ss' & E & Hl). injection E as <- <-. destruct (Hl H2) as (Hl1 & Hl2).
    destruct (proj2 (merged m1 Hm lab Hl1 Hl2 _ (work_spread D N G HG)) _ R3) as (inv' & ss' & E & Hi). injection E as <- <-. destruct (Hi H3) as (Hi1 & Hi2).
    set (ids := filter (fun id => match znth inv id with Some v => v =? 0 | None => false end) (map (fun i => 8 + i) (zrange (zlen (g_claims m1))))).
    assert (Hids : forall id, In id ids <-> valid (zlen (g_claims m1)) id /\ winner (pk m1 id)).
    { intros id. unfold ids. rewrite filter_In, (in_valid (zlen (g_claims m1))). split; intros (V & B); destruct (Hi2 id V) as (v & Ev & Hv); rewrite Ev in *;
        split; auto; [apply Hv; lia|apply Hv in B; lia]. }
    exists (map (pk m1) ids). split; [|split].
    - unfold survivors. cbn [g_max g_inv g_claims]. fold ids. rewrite map_map. apply map_ext_in. intros id Hin. apply Hids in Hin as (V & _).
      destruct (pk_peak m1 Hm id V) as (_ & _ & E & _). now rewrite E.
    - apply nodup_map_in.
      + apply NoDup_filter. apply nodup_map_in; [apply zrange_nodup|]. intros; lia.
      + intros a b Ha Hb E. apply Hids in Ha as (Va & _). apply Hids in Hb as (Vb & _). eapply pk_inj; eauto.
    - intros c. rewrite in_map_iff. split.
      + intros (id & <- & Hin). now apply Hids in Hin.
      + intros Hw. destruct (id_of m1 Hm c) as (id & V & E); [apply Hw|]. exists id. split; [auto|]. apply Hids. rewrite E. auto.
  Qed.

  (** The table at the end: every claimed entry holds a peak, and is valid exactly if that peak wins. *)
  Theorem run_table m : cuda_run snr gt thr half D N L spec noise G m -> forall i, 0 <= i < zlen (g_claims m) ->
    exists p v, peak p /\ znth (g_max m) (8 + i) = Some (Some (ix p)) /\ znth (g_inv m) (8 + i) = Some v /\ (v = 0 <-> winner p).
  Proof.
    intros H i Hi. inversion H as [nm m1 ss1 lab ss2 inv ss3 Et R1 H1 R2 H2 R3 H3]; subst. rewrite table in Et. injection Et as <-. cbn [g_claims g_max g_inv] in *.
    destruct (proj2 init_part _ R1) as (m' & ss' & E & Hm). injection E as <- <-. specialize (Hm H1).
    destruct (proj2 (resolve_part m1 Hm) _ R2) as (lab' & ss' & E & Hl). injection E as <- <-. destruct (Hl H2) as (Hl1 & Hl2).
    destruct (proj2 (merged m1 Hm lab Hl1 Hl2 _ (work_spread D N G HG)) _ R3) as (inv' & ss' & E & Hi'). injection E as <- <-. destruct (Hi' H3) as (_ & Hi2).
    assert (V : valid (zlen (g_claims m1)) (8 + i)) by (unfold valid; lia).
    destruct (Hi2 _ V) as (v & Ev & Hv). destruct (pk_peak m1 Hm _ V) as (P1 & _ & P2 & _). exists (pk m1 (8 + i)), v. auto.
  Qed.

  (** Labels at the end: each bin carries the table entry of the peak it climbs to. *)
  Theorem run_labels m : cuda_run snr gt thr half D N L spec noise G m -> forall c, bin D N c ->
    exists v, znth (g_labels m) (ix c) = Some v /\
      ((exists p, owned c p /\ 8 <= v /\ znth (g_max m) v = Some (Some (ix p))) \/ v = 0 /\ forall p, ~ owned c p).
  Proof.
    intros H c Hc. inversion H as [nm m1 ss1 lab ss2 inv ss3 Et R1 H1 R2 H2 R3 H3]; subst. rewrite table in Et. injection Et as <-. cbn [g_labels g_max].
    destruct (proj2 init_part _ R1) as (m' & ss' & E & Hm). injection E as <- <-. specialize (Hm H1).
    destruct (proj2 (resolve_part m1 Hm) _ R2) as (lab' & ss' & E & Hl). injection E as <- <-. destruct (Hl H2) as (Hl1 & Hl2).
    destruct (label_some m1 Hm lab Hl1 c Hc) as (v & Ev). exists v. split; [auto|].
    destruct (label_owned m1 Hm lab Hl2 c Hc v Ev) as [(H8 & p & Ho & Hp)|Hno]; [left|auto].
    exists p. split; [auto|]. split; [auto|]. destruct (claim_peak m1 Hm _ _ Hp) as (_ & _ & A & _). now replace (8 + (v - 8)) with v in A by lia.
  Qed.

  (** No schedule goes wrong or runs forever, so a complete run exists. *)
  Theorem never_wrong : ~ cuda_wrong snr gt thr half D N L spec noise G.
  Proof.
    intros H. destruct H as [Et|nm Et R|nm m1 ss1 Et R1 H1 R2|nm m1 ss1 lab ss2 Et R1 H1 R2 H2 R3]; rewrite table in Et; try discriminate; injection Et as <-.
    - destruct (proj2 init_part _ R) as (m' & ss' & E & Hm). discriminate.
    - destruct (proj2 init_part _ R1) as (m' & ss' & E & Hm). injection E as <- <-. specialize (Hm H1).
      destruct (proj2 (resolve_part m1 Hm) _ R2) as (lab' & ss' & E & Hl). discriminate.
    - destruct (proj2 init_part _ R1) as (m' & ss' & E & Hm). injection E as <- <-. specialize (Hm H1).
      destruct (proj2 (resolve_part m1 Hm) _ R2) as (lab' & ss' & E & Hl). injection E as <- <-. destruct (Hl H2) as (Hl1 & Hl2).
      destruct (proj2 (merged m1 Hm lab Hl1 Hl2 _ (work_spread D N G HG)) _ R3) as (inv' & ss' & E & Hi). discriminate.
  Qed.
  Lemma end_exists {M St} (step : M -> St -> option (outcome (M * St))) c : always_ends step c ->
    (forall o, msteps step c o -> exists c', o = Ok c') -> exists c', msteps step c (Ok c') /\ halted step c'.
  Proof.
    intros Ha. induction Ha as [c _ IH]. intros Hok. destruct (not_halted_moves step c) as [Hh|(o & Ho)]; [exists c; split; [constructor|auto]|].
    destruct o as [c1|e|].
    - destruct (IH c1 Ho) as (c' & R & Hh); [intros o Ho'; apply Hok; eapply mss_step; eauto|]. exists c'. split; [eapply mss_step; eauto|auto].
    - destruct (Hok (Throw e)) as (c' & E); [|discriminate]. apply mss_bad; [auto|]. discriminate.
    - destruct (Hok UB) as (c' & E); [|discriminate]. apply mss_bad; [auto|]. discriminate.
  Qed.
  Theorem run_exists : exists m, cuda_run snr gt thr half D N L spec noise G m.
  Proof.
    destruct (end_exists _ _ (proj1 init_part)) as ((m1 & ss1) & R1 & H1); [intros o Ho; destruct (proj2 init_part o Ho) as (a & b & -> & _); eauto|].
    destruct (proj2 init_part _ R1) as (m' & ss' & E & Hm). injection E as <- <-. specialize (Hm H1).
    destruct (end_exists _ _ (proj1 (resolve_part m1 Hm))) as ((lab & ss2) & R2 & H2); [intros o Ho; destruct (proj2 (resolve_part m1 Hm) o Ho) as (a & b & -> & _); eauto|].
    destruct (proj2 (resolve_part m1 Hm) _ R2) as (lab' & ss' & E & Hl). injection E as <- <-. destruct (Hl H2) as (Hl1 & Hl2).
    pose proof (merged m1 Hm lab Hl1 Hl2 _ (work_spread D N G HG)) as (M1 & M2).
    destruct (end_exists _ _ M1) as ((inv & ss3) & R3 & H3); [intros o Ho; destruct (M2 o Ho) as (a & b & -> & _); eauto|].
    eexists. eapply Cuda_run; [exact table|exact R1|exact H1|exact R2|exact H2|exact R3|exact H3].
  Qed.
End Whole.

(** More peaks than room: the first kernel writes past the table, whatever the schedule. *)
Theorem overflow {F} (snr : F -> F -> F) gt (thr half : F) D N L spec noise X W G ps :
  plane_holds (dense [D; N]) spec D N X -> (forall d, 0 <= d < D -> znth noise d = Some (W d)) ->
  0 <= D -> 0 < N -> 1 <= L -> 0 < G -> ordered gt D N (Sx snr X W) ->
  NoDup ps -> ps <> [] -> (forall c, In c ps -> peak gt thr half D N L (Sx snr X W) c) -> Z.quot (D * N) (L * L) < 8 + zlen ps ->
  cuda_wrong snr gt thr half D N L spec noise G /\ forall m, ~ cuda_run snr gt thr half D N L spec noise G m.
Proof.
  intros HX HW HD HN HL HG Hord Hnd Hne Hps Hx.
  assert (Ht : table_size D N L = Ok (Z.quot (D * N) (L * L))) by (unfold table_size; destruct (Z.eqb_spec (L * L) 0); [nia|reflexivity]).
  assert (HDN' : 0 <= D * N) by nia. assert (Hnn : 0 <= Z.quot (D * N) (L * L)) by (apply Z.quot_pos; nia).
  set (kd := kind snr gt thr half D N L spec noise).
  assert (Hk : forall n, 0 <= n < D * N -> classify snr gt thr half D N L spec noise n = Ok (kd n)) by (apply kind_ok with X W; auto).
  assert (Hpk : forall n, 0 <= n < D * N -> kd n = Peak <-> peak gt thr half D N L (Sx snr X W) (coord_of N n)) by (apply kind_peak; auto).
  assert (Hin : forall c, In c ps -> In (index_of_coord N c) (peaks D N kd)).
  { intros c Hc. pose proof (Hps c Hc) as Hp. pose proof (peak_bin _ _ _ _ _ _ _ _ _ _ Hp) as Hb. apply filter_In. split; [apply in_zrange; now apply ix_range|].
    unfold is_peak. rewrite (proj2 (Hpk _ (ix_range D N c Hb))); [reflexivity|]. rewrite (coord_ix D N c Hb). auto. }
  assert (Hle : zlen ps <= zlen (peaks D N kd)).
  { replace (zlen ps) with (zlen (map (index_of_coord N) ps)) by apply zlen_map. unfold zlen. apply inj_le, NoDup_incl_length.
    - apply nodup_map_in; [auto|]. intros a b Ha Hb E.
      rewrite <- (coord_ix D N a (peak_bin _ _ _ _ _ _ _ _ _ _ (Hps a Ha))), <- (coord_ix D N b (peak_bin _ _ _ _ _ _ _ _ _ _ (Hps b Hb))). congruence.
    - intros n Hn. apply in_map_iff in Hn as (c & <- & Hc). auto. }
  assert (Hne' : peaks D N kd <> []).
  { destruct ps as [|p ps]; [congruence|]. intros E. specialize (Hin p ltac:(now left)). rewrite E in Hin. destruct Hin. }
  split.
  - eapply Wrong_init; [exact Ht|]. apply (init_fails snr gt thr half D N L spec noise _ kd Hk Hnn _ (work_spread D N G HG) HDN'); [lia|auto].
  - intros m Hr. inversion Hr as [nm m1 ss1 lab ss2 inv ss3 Et R1 H1 R2 H2 R3 H3]; subst. rewrite Ht in Et. injection Et as <-.
    destruct (init_fits snr gt thr half D N L spec noise _ kd Hk Hnn _ (work_spread D N G HG) HDN' _ _ R1 H1) as [E|E]; [auto|lia].
Qed.

(** *** One schedule, for examples: the first thread that can move moves. *)
Fixpoint first_move {M St} (step : M -> St -> option (outcome (M * St))) (m : M) (ss : list St) : option (outcome (M * list St)) :=
  match ss with
  | [] => None
  | s :: rest => match step m s with
                 | Some (Ok (m', s')) => Some (Ok (m', s' :: rest))
                 | Some (Throw e) => Some (Throw e)
                 | Some UB => Some UB
                 | None => match first_move step m rest with
                           | Some (Ok (m', rest')) => Some (Ok (m', s :: rest'))
                           | o => o
                           end
                 end
  end.
(** [None]: out of fuel. *)
Fixpoint exec {M St} (step : M -> St -> option (outcome (M * St))) (fuel : nat) (c : M * list St) : option (outcome (M * list St)) :=
  match fuel with
  | O => None
  | S fuel' => match first_move step (fst c) (snd c) with
               | None => Some (Ok c)
               | Some (Ok c') => exec step fuel' c'
               | o => o
               end
  end.
Lemma first_move_mstep {M St} (step : M -> St -> option (outcome (M * St))) m ss o :
  first_move step m ss = Some o -> mstep step (m, ss) o.
Proof.
  revert o. induction ss as [|s ss IH]; intros o H; cbn in H; [discriminate|].
  destruct (step m s) as [[(m' & s')|e|]|] eqn:E.
  - injection H as <-. now apply (ms_ok step m [] s ss).
  - injection H as <-. now apply (ms_throw step m [] s ss).
  - injection H as <-. now apply (ms_ub step m [] s ss).
  - destruct (first_move step m ss) as [o'|]; [|discriminate]. specialize (IH o' eq_refl).
    assert (G : mstep step (m, s :: ss) (match o' with Ok (m', r) => Ok (m', s :: r) | Throw e => Throw e | UB => UB end)).
    { inversion IH; subst; [eapply (ms_ok step m (s :: ss1))|eapply (ms_ub step m (s :: ss1))|eapply (ms_throw step m (s :: ss1))]; eassumption. }
    destruct o' as [(m' & r)|e|]; injection H as <-; exact G.
Qed.
Lemma first_move_none {M St} (step : M -> St -> option (outcome (M * St))) m ss :
  first_move step m ss = None -> halted step (m, ss).
Proof.
  unfold halted. cbn. induction ss as [|s ss IH]; intros H; [constructor|]. cbn in H.
  destruct (step m s) as [[(m' & s')|e|]|] eqn:E; try discriminate. constructor; [auto|]. apply IH.
  destruct (first_move step m ss) as [[(m' & r)|e|]|]; congruence.
Qed.
Lemma exec_run {M St} (step : M -> St -> option (outcome (M * St))) fuel c o :
  exec step fuel c = Some o -> msteps step c o /\ forall c', o = Ok c' -> halted step c'.
Proof.
  revert c. induction fuel as [|fuel IH]; intros (m & ss) H; cbn [exec fst snd] in H; [discriminate|].
  destruct (first_move step m ss) as [[c'|e|]|] eqn:E.
  - destruct (IH _ H) as (A & B). split; [|auto]. eapply mss_step; [apply first_move_mstep; exact E|auto].
  - injection H as <-. split; [|discriminate]. apply mss_bad; [now apply first_move_mstep|discriminate].
  - injection H as <-. split; [|discriminate]. apply mss_bad; [now apply first_move_mstep|discriminate].
  - injection H as <-. split; [constructor|]. intros c' E'. injection E' as <-. now apply first_move_none.
Qed.
