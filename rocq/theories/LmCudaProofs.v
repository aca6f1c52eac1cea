(** The local-maxima search on a GPU. *)
From Verif Require Export LmCudaModel LmProofs GredExact.
From Coq Require Import ZifyBool ZifyNat.
Ltac Zify.zify_post_hook ::= idtac.
Local Open Scope Z_scope.

(** ** What should be found *)
(** [c] exceeds the threshold and no bin at drift offset [dr] and channel offset [fo] in the half-open diamond of size [L] around it is
    outside the plane or stronger. *)
Definition lm_peak {F} (gt : F -> F -> bool) (thr : F) (D N L : Z) (S : coord -> F) (c : coord) : Prop :=
  bin D N c /\ gt (S c) thr = true /\
  forall dr fo, - L <= fo < L -> - L + Z.abs fo <= dr < L - Z.abs fo ->
    bin D N (fst c + dr, snd c + fo) /\ gt (S (fst c + dr, snd c + fo)) (S c) = false.
(** The report of a peak: its own values, and the extent of its descending flanks. *)
Definition lm_report {F} (gt lt : F -> F -> bool) (thr : F) (D N : Z) (S X : coord -> F) (W : Z -> F) (p : protohit F) : Prop :=
  let c := ph_max p in
  ph_snr p = S c /\ ph_power p = X c /\ ph_noise p = Some (W (fst c)) /\ ph_locs p = [] /\ ph_rfi p = None /\
  exists m1 m2, descent lt (fun f => gt (S (fst c, f)) thr) (fun f => X (fst c, f)) N (snd c) (-1) m1 /\
    descent lt (fun f => gt (S (fst c, f)) thr) (fun f => X (fst c, f)) N (snd c) 1 m2 /\
    ph_width p = m1 + m2 + 2 /\ ph_center p = (fst c, (2 * snd c + m2 - m1) / 2).

Lemma in_l1 L o : In o (l1_offsets L) <-> - L <= snd o < L /\ - L + Z.abs (snd o) <= fst o < L - Z.abs (snd o).
Proof.
  unfold l1_offsets. rewrite in_flat_map. split.
  - intros (fo & Hf & Ho). apply in_zspan in Hf. apply in_map_iff in Ho as (dr & <- & Hd). apply in_zspan in Hd. cbn. lia.
  - intros (H1 & H2). exists (snd o). rewrite in_zspan. split; [exact H1|]. apply in_map_iff. exists (fst o). rewrite in_zspan. split; [now destruct o|exact H2].
Qed.

Lemma taken_step rf B n : 0 < B -> n < rf -> taken rf B n = n :: taken rf B (n + B).
Proof.
  intros HB Hn. unfold taken.
  assert (E : iterations n rf B = Datatypes.S (iterations (n + B) rf B)).
  { unfold iterations. replace (rf - n + B - 1) with ((rf - (n + B) + B - 1) + 1 * B) by ring.
    rewrite Z.quot_add by (try lia; nia). 
    destruct (Z.lt_ge_cases (rf - (n + B) + B - 1) 0) as [H|H]; [lia|].
    assert (0 <= Z.quot (rf - (n + B) + B - 1) B) by (apply Z.quot_pos; lia). lia. }
  rewrite E. reflexivity.
Qed.
Lemma taken_done rf B n : 0 < B -> rf <= n -> taken rf B n = [].
Proof.
  intros HB Hn. unfold taken. replace (iterations n rf B) with 0%nat; [reflexivity|]. symmetry.
  destruct (iterations n rf B) as [|k] eqn:E; [reflexivity|]. exfalso. pose proof (iterations_spec n rf B 0 HB ltac:(lia)). lia.
Qed.

Section LmCuda.
  Context {F : Type}.
  Variable snr : F -> F -> F.
  Variables (gt lt : F -> F -> bool) (thr : F).
  Variables (D N L : Z) (spec noise : list F) (X : coord -> F) (W : Z -> F).
  Notation Sn := (fun c => snr (X c) (W (fst c))).
  Notation sig := (fun c => gt (Sn c) thr).
  Hypothesis HX : forall c, bin D N c -> znth spec (fst c * N + snd c) = Some (X c).
  Hypothesis HW : forall d, 0 <= d < D -> znth noise d = Some (W d).
  Hypothesis HD : 0 <= D. Hypothesis HN : 0 < N. Hypothesis Hsz : D * N + 512 <= 2 ^ 31.

  Lemma lg_at_ok c : bin D N c -> lg_at snr N spec noise c = Ok (X c, W (fst c), Sn c).
  Proof. intros H. unfold lg_at, load, zget. rewrite (HX c H), (HW (fst c)) by apply H. reflexivity. Qed.

  Lemma lg_near_ok c offs : exists b, lg_near snr gt D N spec noise c (Sn c) offs = Ok b /\
    (b = true <-> forall o, In o offs -> bin D N (move c o) /\ gt (Sn (move c o)) (Sn c) = false).
  Proof.
    induction offs as [|o offs (b & IH & Hb)]; cbn [lg_near]; [exists true; split; [reflexivity|split; [intros _ o []|reflexivity]]|].
    destruct (in_grid D N (move c o)) eqn:Eg.
    - apply in_grid_bin in Eg. rewrite (lg_at_ok _ Eg). cbn [obind snd]. destruct (gt (Sn (move c o)) (Sn c)) eqn:Et.
      + exists false. split; [reflexivity|]. split; [discriminate|]. intros H. destruct (H o (or_introl eq_refl)) as (_ & H'). congruence.
      + exists b. split; [exact IH|]. rewrite Hb. split.
        * intros H o' [<-|Ho]; auto.
        * intros H o' Ho. apply H. now right.
    - exists false. split; [reflexivity|]. split; [discriminate|]. intros H. destruct (H o (or_introl eq_refl)) as (H' & _).
      apply in_grid_bin in H'. congruence.
  Qed.

  Lemma lg_edge_ok d f sg n : (sg = 1 \/ sg = -1) -> 0 <= d < D -> 0 <= f < N ->
    forall m, 0 <= m -> ~ (0 <= f + sg * (m + n) < N) -> 0 < n -> 0 <= f + sg * m < N ->
    descends lt (fun x => sig (d, x)) (fun x => X (d, x)) N f sg m ->
    exists m', m <= m' /\
      lg_edge snr gt lt thr N spec (W d) d (X (d, f + sg * m)) (map (fun i => f + sg * (m + 1 + i)) (zrange n)) = Ok (f + sg * (m' + 1)) /\
      descent lt (fun x => sig (d, x)) (fun x => X (d, x)) N f sg m'.
  Proof.
    intros Hsg Hd Hf. remember (Z.to_nat n) as nn eqn:En. revert n En.
    induction nn as [|nn IH]; intros n En m Hm Hout Hn Hin Hdes; [lia|].
    rewrite zrange_cons by lia. cbn [map lg_edge].
    replace (f + sg * (m + 1 + 0)) with (f + sg * (m + 1)) by ring.
    destruct ((0 <=? f + sg * (m + 1)) && (f + sg * (m + 1) <? N)) eqn:Eg.
    - assert (Hb : bin D N (d, f + sg * (m + 1))) by (unfold bin; cbn; lia).
      unfold load, zget. rewrite (HX _ Hb : znth spec (d * N + (f + sg * (m + 1))) = _). cbn [obind].
      destruct (gt (snr (X (d, f + sg * (m + 1))) (W d)) thr && lt (X (d, f + sg * (m + 1))) (X (d, f + sg * m))) eqn:Et.
      + apply andb_prop in Et as (Et1 & Et2).
        destruct (Z.eq_dec n 1) as [->|Hn1]; [exfalso; apply Hout; cbn in Hb; unfold bin in Hb; cbn in Hb; lia|].
        destruct (IH (n - 1) ltac:(lia) (m + 1)) as (m' & Hm' & E & Hd'); try lia.
        * intros j Hj. destruct (Z.eq_dec j (m + 1)) as [->|Hj']; [|apply Hdes; lia]. cbn. replace (m + 1 - 1) with m by ring. repeat split; auto; lia.
        * exists m'. split; [lia|]. split; [|exact Hd']. rewrite <- E. f_equal. rewrite map_map. apply map_ext. intros i. lia.
      + exists m. split; [lia|]. split; [reflexivity|]. split; [lia|]. split; [exact Hdes|]. intros Hdes'. destruct (Hdes' (m + 1) ltac:(lia)) as (_ & Q1 & Q2).
        replace (m + 1 - 1) with m in Q2 by ring. cbn in Q1. rewrite Q1, Q2 in Et. discriminate.
    - exists m. split; [lia|]. split; [reflexivity|]. split; [lia|]. split; [exact Hdes|]. intros Hdes'. destruct (Hdes' (m + 1) ltac:(lia)) as (Q & _). lia.
  Qed.

  Definition hit_of (c : coord) (h : dhit F) : Prop :=
    dh_max h = c /\ dh_snr h = Sn c /\ dh_power h = X c /\ dh_noise h = W (fst c) /\
    exists m1 m2, descent lt (fun f => sig (fst c, f)) (fun f => X (fst c, f)) N (snd c) (-1) m1 /\
      descent lt (fun f => sig (fst c, f)) (fun f => X (fst c, f)) N (snd c) 1 m2 /\
      dh_width h = m1 + m2 + 2 /\ dh_center h = (fst c, (2 * snd c + m2 - m1) / 2).
  Notation lghit := (lg_hit snr gt lt thr D N L spec noise).
  Notation at_ n := ((n / N, n mod N) : coord).

  Lemma lg_hit_ok n : 0 <= n < D * N -> exists r, lghit n = Ok r /\
    match r with Some h => lm_peak gt thr D N L Sn (at_ n) /\ hit_of (at_ n) h | None => ~ lm_peak gt thr D N L Sn (at_ n) end.
  Proof.
    intros Hn. set (c := at_ n).
    assert (Hd : 0 <= n / N < D) by (split; [apply Z.div_pos; lia|apply Z.div_lt_upper_bound; lia]).
    assert (Hf : 0 <= n mod N < N) by (apply Z.mod_pos_bound; lia).
    assert (Hb : bin D N c) by (split; assumption).
    unfold lg_hit. fold c. rewrite (lg_at_ok c Hb). cbn [obind].
    destruct (gt (Sn c) thr) eqn:Et; [|exists None; split; [reflexivity|]; intros (_ & H & _); cbn in H, Et; congruence].
    destruct (lg_near_ok c (l1_offsets L)) as (b & Eb & Hbb). rewrite Eb. cbn [obind]. clear Eb.
    assert (Hp : b = true <-> lm_peak gt thr D N L Sn c).
    { rewrite Hbb. unfold lm_peak. split.
      - intros H. split; [exact Hb|]. split; [exact Et|]. intros dr fo H1 H2. apply (H (dr, fo)). apply in_l1. auto.
      - intros (_ & _ & H) o Ho. apply in_l1 in Ho. apply H; apply Ho. }
    destruct b; [|exists None; split; [reflexivity|]; intros H; apply Hp in H; discriminate].
    destruct (lg_edge_ok (n / N) (n mod N) (-1) (n mod N + 1)) with (m := 0) as (m1 & Hm1 & E1 & Hd1); try lia; [intros j Hj; lia|].
    destruct (lg_edge_ok (n / N) (n mod N) 1 (N - n mod N)) with (m := 0) as (m2 & Hm2 & E2 & Hd2); try lia; [intros j Hj; lia|].
    replace (n mod N + -1 * 0) with (n mod N) in E1 by lia. replace (n mod N + 1 * 0) with (n mod N) in E2 by lia.
    replace (map (fun i => n mod N + -1 * (0 + 1 + i)) (zrange (n mod N + 1))) with (down_from (n mod N)) in E1 by (apply map_ext; intros; lia).
    replace (map (fun i => n mod N + 1 * (0 + 1 + i)) (zrange (N - n mod N))) with (up_from N (n mod N)) in E2 by (apply map_ext; intros; lia).
    rewrite (E1 : lg_edge snr gt lt thr N spec (W (fst c)) (fst c) (X c) (down_from (snd c)) = _). cbn [obind].
    rewrite (E2 : lg_edge snr gt lt thr N spec (W (fst c)) (fst c) (X c) (up_from N (snd c)) = _). cbn [obind].
    eexists. split; [reflexivity|]. cbv beta iota. split; [now apply Hp|].
    unfold hit_of. cbn [dh_max dh_snr dh_power dh_noise dh_width dh_center]. repeat (split; [reflexivity|]).
    exists m1, m2. split; [exact Hd1|]. split; [exact Hd2|]. split; [lia|].
    assert (Hl : 0 <= n mod N - m1).
    { destruct (Z.eq_dec m1 0); [lia|]. destruct (proj1 (proj2 Hd1) m1 ltac:(lia)) as (Q & _). lia. }
    f_equal. rewrite Z.quot_div_nonneg by lia. unfold c. cbn [snd]. f_equal. lia.
  Qed.

  Definition hits_at (n : Z) : list (dhit F) := match lghit n with Ok (Some h) => [h] | _ => [] end.
  Definition hits : list (dhit F) := flat_map hits_at (zrange (D * N)).

  (** ** The machine *)
  Variable cap : Z.
  Inductive task := TScan (n : Z) | TFill (k : Z) (ws : list (dslot F -> dslot F)).
  Definition pend (s : lgst F) : list task :=
    match s with LgAt n => [TScan n] | LgFill n k ws => [TFill k ws; TScan (n + 512)] end.
  Definition apply_ws (ws : list (dslot F -> dslot F)) (s : dslot F) : dslot F := fold_left (fun s w => w s) ws s.
  Definition full (h : dhit F) : dslot F :=
    Slot (Some (dh_max h)) (Some (dh_snr h)) (Some (dh_power h)) (Some (dh_noise h)) (Some (dh_width h)) (Some (dh_center h)).
  Lemma apply_full h s : apply_ws (fields h) s = full h.
  Proof. reflexivity. Qed.
  Definition scans (l : list task) : list Z := flat_map (fun t => match t with TScan n => taken (D * N) 512 n | _ => [] end) l.
  Definition keys (l : list task) : list Z := flat_map (fun t => match t with TFill k _ => [k] | _ => [] end) l.
  Definition J (m : lgmem F) (l : list task) : Prop :=
    exists own, zlen own = fst m /\ Permutation (own ++ flat_map hits_at (scans l)) hits /\
      NoDup (keys l) /\ (forall k ws, In (TFill k ws) l -> 0 <= k < fst m) /\
      (forall n, In (TScan n) l -> 0 <= n) /\
      (forall k h, znth own k = Some h -> (forall ws, In (TFill k ws) l -> apply_ws ws (snd m k) = full h) /\
         (snd m k = full h \/ In k (keys l))) /\
      (forall k, snd m k = blank \/ 0 <= k < cap).

  Lemma in_keys k l : In k (keys l) <-> exists ws, In (TFill k ws) l.
  Proof.
    unfold keys. rewrite in_flat_map. split.
    - intros ([n|k' ws] & H & Hk); [destruct Hk|]. destruct Hk as [->|[]]. eauto.
    - intros (ws & H). exists (TFill k ws). split; [auto|now left].
  Qed.
  Lemma Jperm m l l' : Permutation l l' -> J m l -> J m l'.
  Proof.
    intros HP (own & H1 & H2 & H3 & H4 & H5 & H6 & H7). exists own. split; [exact H1|].
    assert (HI : forall t, In t l' <-> In t l) by (intros t; split; apply Permutation_in; [now apply Permutation_sym|exact HP]).
    split; [rewrite <- H2; apply Permutation_app_head, Permutation_flat_map, Permutation_flat_map; now apply Permutation_sym|].
    split; [eapply Permutation_NoDup; [|exact H3]; now apply Permutation_flat_map|].
    split; [intros k ws Hk; apply (H4 k ws), HI, Hk|]. split; [intros n Hn; apply H5, HI, Hn|]. split; [|exact H7].
    intros k h Hk. destruct (H6 k h Hk) as (Q1 & Q2). split; [intros ws Hw; apply Q1, HI, Hw|].
    destruct Q2 as [Q2|Q2]; [now left|right]. apply in_keys in Q2 as (ws & Q2). apply in_keys. exists ws. now apply HI.
  Qed.
  Notation step := (lg_step snr gt lt thr D N L spec noise cap).
  Lemma hits_at_cases n : 0 <= n < D * N -> (lghit n = Ok None /\ hits_at n = []) \/ exists h, lghit n = Ok (Some h) /\ hits_at n = [h].
  Proof. intros Hn. destruct (lg_hit_ok n Hn) as ([h|] & E & _); unfold hits_at; rewrite E; eauto. Qed.
  Lemma next_ok n : n < D * N -> lg_next n = Ok (n + 512).
  Proof. intros H. unfold lg_next. now replace (n + 512 <? 2 ^ 31) with true by lia. Qed.

  Definition lo (_ : lgmem F) (s : lgst F) : Prop := match s with LgAt n => 0 <= n | LgFill n k _ => 0 <= n < D * N end.
  Lemma step_scan m n rest : n < D * N -> hits_at n = [] -> J m (TScan n :: rest) -> J m (TScan (n + 512) :: rest).
  Proof.
    intros Hn Hh (own & H1 & H2 & H3 & H4 & H5 & H6 & H7). exists own. split; [exact H1|]. split.
    { unfold scans in *. cbn [flat_map] in *. rewrite taken_step in H2 by lia. cbn [app flat_map] in H2. rewrite Hh in H2. exact H2. }
    split; [exact H3|]. split; [intros k ws [Q|Hk]; [discriminate|eapply H4; right; eauto]|].
    split. { intros k [Q|Hk]; [injection Q as <-; specialize (H5 n (or_introl eq_refl)); lia|apply H5; now right]. }
    split; [|exact H7]. intros k h Hk. destruct (H6 k h Hk) as (Q1 & Q2). split; [|exact Q2].
    intros ws [Q|Hw]; [discriminate|apply Q1; now right].
  Qed.
  Lemma J_claim m n h rest : n < D * N -> hits_at n = [h] -> J m (TScan n :: rest) ->
    J (fst m + 1, snd m) (TFill (fst m) (fields h) :: TScan (n + 512) :: rest).
  Proof.
    intros Hn Hh (own & H1 & H2 & H3 & H4 & H5 & H6 & H7).
    assert (H0 : 0 <= fst m) by (rewrite <- H1; unfold zlen; lia).
    exists (own ++ [h]). cbn [fst snd]. split; [unfold zlen in *; rewrite app_length; cbn [length]; lia|]. split.
    { unfold scans in *. cbn [flat_map app] in *. rewrite taken_step in H2 by lia. cbn [app flat_map] in H2. rewrite Hh in H2.
      rewrite <- app_assoc. exact H2. }
    split. { cbn [keys flat_map app]. constructor; [|exact H3]. intros Hk. apply (in_keys (fst m) rest) in Hk as (ws & Hk). specialize (H4 _ _ (or_intror Hk)). lia. }
    split. { intros k ws [Q|[Q|Hk]]; [injection Q as <- <-; lia|discriminate|]. specialize (H4 _ _ (or_intror Hk)). lia. }
    split. { intros k [Q|[Q|Hk]]; [discriminate|injection Q as <-; specialize (H5 n (or_introl eq_refl)); lia|apply H5; now right]. }
    split; [|exact H7]. intros k h' Hk.
    assert (Hkk : 0 <= k < zlen own + 1) by (apply znth_bounds in Hk; unfold zlen in *; rewrite app_length in Hk; cbn [length] in Hk; lia).
    destruct (Z.eq_dec k (fst m)) as [->|Hne].
    - assert (Eh : h' = h). { rewrite <- H1 in Hk. unfold znth, zlen in Hk. replace (Z.of_nat (length own) <? 0) with false in Hk by lia.
        rewrite Nat2Z.id, nth_error_app2, Nat.sub_diag in Hk by lia. now injection Hk. }
      subst h'. split.
      + intros ws [Q|[Q|Hw]]; [injection Q as <-; reflexivity|discriminate|]. specialize (H4 _ _ (or_intror Hw)). lia.
      + right. cbn. now left.
    - assert (Hk' : znth own k = Some h').
      { unfold znth, zlen in *. replace (k <? 0) with false in * by lia. rewrite nth_error_app1 in Hk by lia. exact Hk. }
      destruct (H6 k h' Hk') as (Q1 & Q2). split.
      + intros ws [Q|[Q|Hw]]; [injection Q as Q _; congruence|discriminate|apply Q1; now right].
      + destruct Q2 as [Q2|Q2]; [now left|right]. cbn [keys flat_map app]. right. exact Q2.
  Qed.
  Lemma J_write m k w ws rest : 0 <= k < cap -> J m (TFill k (w :: ws) :: rest) ->
    J (fst m, fun i => if i =? k then w (snd m i) else snd m i) (TFill k ws :: rest).
  Proof.
    intros Hk (own & H1 & H2 & H3 & H4 & H5 & H6 & H7). exists own. cbn [fst snd]. split; [exact H1|]. split; [exact H2|]. split; [exact H3|].
    split. { intros k' ws' [Q|Hw]; [injection Q as <- <-; eapply H4; now left|eapply H4; right; eauto]. }
    split. { intros n [Q|Hn]; [discriminate|apply H5; now right]. }
    inversion H3 as [|? ? Hni Hnd]; subst. split.
    - intros k' h Hh. destruct (H6 k' h Hh) as (Q1 & Q2). destruct (k' =? k) eqn:E.
      + apply Z.eqb_eq in E. subst k'. split.
        * intros ws' [Q|Hw]; [|exfalso; apply Hni, in_keys; eauto]. injection Q as <-. apply (Q1 (w :: ws)). now left.
        * right. now left.
      + split; [|exact Q2]. intros ws' [Q|Hw]; [injection Q as Q _; lia|apply Q1; now right].
    - intros k'. destruct (k' =? k) eqn:E; [right; lia|apply H7].
  Qed.
  Lemma J_close m k rest : J m (TFill k [] :: rest) -> J m rest.
  Proof.
    intros (own & H1 & H2 & H3 & H4 & H5 & H6 & H7). exists own. split; [exact H1|]. split; [exact H2|].
    inversion H3 as [|? ? Hni Hnd]; subst. split; [exact Hnd|]. split; [intros; eapply H4; right; eauto|]. split; [intros; apply H5; now right|].
    split; [|exact H7]. intros k' h Hh. destruct (H6 k' h Hh) as (Q1 & Q2). split; [intros ws Hw; apply Q1; now right|].
    destruct Q2 as [Q2|[<-|Q2]]; [now left| |now right]. left. apply (Q1 []). now left.
  Qed.

  Lemma step_ok m s o rest : step m s = Some o -> lo m s -> J m (pend s ++ rest) ->
    (o = UB /\ cap < zlen hits) \/ exists m' s', o = Ok (m', s') /\ lo m' s' /\ J m' (pend s' ++ rest) /\ (forall s2, lo m s2 -> lo m' s2).
  Proof.
    intros Hs Hl HJ. destruct s as [n|n k ws]; cbn [lg_step pend app lo] in *.
    - destruct (n <? D * N) eqn:En; [|discriminate]. injection Hs as <-. right.
      destruct (hits_at_cases n ltac:(lia)) as [(E & Eh)|(h & E & Eh)]; rewrite E; cbn [obind].
      + rewrite next_ok by lia. cbn [obind]. eexists _, _. split; [reflexivity|]. split; [cbn; lia|]. split; [apply step_scan; auto; lia|auto].
      + eexists _, _. split; [reflexivity|]. split; [cbn; lia|]. split; [apply J_claim; auto; lia|auto].
    - destruct ws as [|w ws].
      + injection Hs as <-. right. rewrite next_ok by lia. cbn [obind]. eexists _, _. split; [reflexivity|]. split; [cbn; lia|]. split; [now apply J_close in HJ|auto].
      + injection Hs as <-. destruct ((0 <=? k) && (k <? cap)) eqn:Ek.
        * right. eexists _, _. split; [reflexivity|]. split; [cbn; lia|]. split; [apply J_write; [lia|exact HJ]|auto].
        * left. split; [reflexivity|]. destruct HJ as (own & H1 & H2 & _ & H4 & _). specialize (H4 k (w :: ws) (or_introl eq_refl)).
          apply Permutation_length in H2. rewrite app_length in H2. unfold zlen in *. lia.
  Qed.

  Lemma J_init : J (0, fun _ => blank) (flat_map pend lg_threads).
  Proof.
    exists []. cbn [fst snd]. split; [reflexivity|]. unfold lg_threads. rewrite flat_map_map.
    assert (Es : forall l, scans (flat_map (fun x => pend (LgAt x)) l) = flat_map (taken (D * N) 512) l).
    { induction l as [|x l IH]; [reflexivity|]. cbn [flat_map pend app scans] in *. unfold scans in *. cbn [flat_map app]. now rewrite IH. }
    assert (Ek : forall l, keys (flat_map (fun x => pend (LgAt x)) l) = []) by (induction l as [|x l IH]; [reflexivity|exact IH]).
    split; [rewrite Es; cbn [app]; apply Permutation_flat_map, taken_once; nia|]. rewrite Ek. split; [constructor|].
    assert (HI : forall t, In t (flat_map (fun x => pend (LgAt x)) (zrange 512)) -> exists n, t = TScan n /\ 0 <= n).
    { intros t Ht. apply in_flat_map in Ht as (n & Hn & [<-|[]]). apply in_zrange in Hn. exists n. split; [reflexivity|lia]. }
    split; [intros k ws Hk; destruct (HI _ Hk) as (n & Q & _); discriminate|].
    split; [intros n Hk; destruct (HI _ Hk) as (n' & Q & H); injection Q as ->; exact H|].
    split; [intros k h Hk; apply znth_bounds in Hk; unfold zlen in Hk; cbn in Hk; lia|auto].
  Qed.
  Notation init := ((0, fun _ => blank), lg_threads).
  Lemma minv_init : minv pend J lo init.
  Proof.
    split; [apply J_init|]. apply Forall_map, Forall_forall. intros n Hn. apply in_zrange in Hn. cbn. lia.
  Qed.

  Definition mu (s : lgst F) : nat :=
    match s with LgAt n => Z.to_nat (9 * (D * N - n)) | LgFill n _ ws => Z.to_nat (9 * (D * N - n)) - 8 + length ws + 1 end.
  Lemma ends : always_ends step init.
  Proof.
    apply ends_by_measure with (mu := mu). intros m s m' s' Hs. destruct s as [n|n k ws]; cbn [lg_step] in Hs.
    - destruct (n <? D * N) eqn:En; [|discriminate]. injection Hs as Hs. destruct (lghit n) as [[h|]|e|]; cbn [obind] in Hs; try discriminate.
      + injection Hs as <- <-. cbn [mu fields length]. lia.
      + unfold lg_next in Hs. destruct (n + 512 <? 2 ^ 31); [|discriminate]. injection Hs as <- <-. cbn [mu]. lia.
    - destruct ws as [|w ws].
      + injection Hs as Hs. unfold lg_next in Hs. destruct (n + 512 <? 2 ^ 31); [|discriminate]. injection Hs as <- <-. cbn [mu length]. lia.
      + destruct (_ && _); [|discriminate]. injection Hs as <- <-. cbn [mu length]. lia.
  Qed.
End LmCuda.

Lemma list_by_znth {A} (l l' : list A) : zlen l = zlen l' -> (forall i x, znth l' i = Some x -> znth l i = Some x) -> l = l'.
Proof.
  revert l'. induction l as [|a l IH]; intros [|b l'] HL H; try (unfold zlen in HL; cbn in HL; lia); [reflexivity|].
  pose proof (H 0 b eq_refl) as H0. injection H0 as ->. f_equal. apply IH; [unfold zlen in *; cbn in HL; lia|].
  intros i x Hi. pose proof (znth_bounds _ _ _ Hi) as Hb. specialize (H (i + 1) x). unfold znth in *.
  replace (i + 1 <? 0) with false in H by lia. replace (i <? 0) with false in * by lia.
  replace (Z.to_nat (i + 1)) with (Datatypes.S (Z.to_nat i)) in H by lia. cbn in H. auto.
Qed.

Definition to_ph {F} (h : dhit F) : protohit F := Protohit (dh_max h) (dh_center h) (dh_snr h) (dh_power h) (Some (dh_noise h)) (dh_width h) [] None.
Section LmEnd.
  Context {F : Type}.
  Variable snr : F -> F -> F.
  Variables (gt lt : F -> F -> bool) (thr : F).
  Variables (D N L : Z) (spec noise : list F) (X : coord -> F) (W : Z -> F).
  Notation Sn := (fun c => snr (X c) (W (fst c))).
  Hypothesis HX : forall c, bin D N c -> znth spec (fst c * N + snd c) = Some (X c).
  Hypothesis HW : forall d, 0 <= d < D -> znth noise d = Some (W d).
  Hypothesis HD : 0 <= D. Hypothesis HN : 0 < N. Hypothesis Hsz : D * N + 512 <= 2 ^ 31.
  Variable cap : Z.
  Hypothesis Hcap : 0 <= cap.
  Notation hits := (hits snr gt lt thr D N L spec noise).
  Notation J := (J snr gt lt thr D N L spec noise cap).
  Notation step := (lg_step snr gt lt thr D N L spec noise cap).
  Notation init := (((0, fun _ => blank) : lgmem F), (lg_threads : list (lgst F))).

  Lemma halted_end m ss : halted step (m, ss) -> minv pend J (lo D N) (m, ss) ->
    exists own, Permutation own hits /\ zlen own = fst m /\ forall k h, znth own k = Some h -> snd m k = full h /\ 0 <= k < cap.
  Proof.
    intros Hh ((own & H1 & H2 & H3 & H4 & H5 & H6 & H7) & Hl). unfold halted in Hh. cbn [fst snd] in *.
    assert (A : forall s, In s ss -> exists n, s = LgAt n /\ D * N <= n).
    { intros s Hs. rewrite Forall_forall in Hh. specialize (Hh s Hs). destruct s as [n|n k [|w ws]]; cbn in Hh; try discriminate.
      exists n. split; [reflexivity|]. destruct (n <? D * N) eqn:E; [discriminate|lia]. }
    assert (E1 : scans D N (flat_map (@pend F) ss) = []).
    { clear - A HN HD. induction ss as [|s ss IH]; [reflexivity|]. destruct (A s (or_introl eq_refl)) as (n & -> & Hn).
      cbn [flat_map pend app]. unfold scans in *. cbn [flat_map]. rewrite taken_done by lia. apply IH. intros; apply A; now right. }
    assert (E2 : keys (flat_map (@pend F) ss) = []).
    { clear - A. induction ss as [|s ss IH]; [reflexivity|]. destruct (A s (or_introl eq_refl)) as (n & -> & Hn).
      cbn [flat_map pend app keys]. apply IH. intros; apply A; now right. }
    rewrite E1 in H2. rewrite E2 in H6. cbn [flat_map] in H2. rewrite app_nil_r in H2.
    exists own. split; [exact H2|]. split; [exact H1|]. intros k h Hk. destruct (H6 k h Hk) as (_ & [Q|[]]). split; [exact Q|].
    destruct (H7 k) as [B|B]; [rewrite Q in B; discriminate|exact B].
  Qed.

  Lemma inv_partial c : msteps step init (Ok c) -> minv pend J (lo D N) c.
  Proof.
    intros Hs. eapply minv_partial with (step := step); [apply Jperm| |apply minv_init with (W := W); auto|exact Hs|reflexivity].
    intros m s m' s' rest E Hl HJ. destruct (step_ok snr gt lt thr D N L spec noise X W HX HW HN Hsz cap m s _ rest E Hl HJ) as [(Q & _)|(m1 & s1 & Q & H)]; [discriminate|].
    injection Q as <- <-. exact H.
  Qed.

  Theorem lg_fits : zlen hits <= cap -> forall o, msteps step init o -> exists c, o = Ok c /\
    (halted step c -> Permutation (lg_export (fst c)) (map Some (map to_ph hits))).
  Proof.
    intros Hc o Hs.
    destruct (minv_steps step pend J (lo D N) (Jperm snr gt lt thr D N L spec noise cap)) with (c := init) (o := o) as (c & -> & Hi).
    - intros m s o' rest E Hl HJ. destruct (step_ok snr gt lt thr D N L spec noise X W HX HW HN Hsz cap m s _ rest E Hl HJ) as [(_ & Q)|H]; [lia|exact H].
    - apply minv_init with (W := W); auto.
    - exact Hs.
    - exists c. split; [reflexivity|]. intros Hh. destruct c as (m & ss). destruct (halted_end m ss Hh Hi) as (own & HP & HL & Ho).
      cbn [fst]. apply Permutation_trans with (map Some (map to_ph own)); [|do 2 apply Permutation_map; exact HP].
      replace (lg_export m) with (map Some (map to_ph own)); [apply Permutation_refl|]. symmetry. unfold lg_export.
      apply list_by_znth; [pose proof (zrange_length (fst m)); unfold zlen in *; rewrite !map_length; lia|].
      intros i x Hx. pose proof (znth_bounds _ _ _ Hx) as Hb. assert (Hb' : 0 <= i < fst m) by (unfold zlen in *; rewrite !map_length in Hb; lia).
      rewrite znth_map_zrange by exact Hb'. unfold znth in Hx. destruct (i <? 0) eqn:Ei; [lia|]. rewrite !nth_error_map in Hx.
      destruct (nth_error own (Z.to_nat i)) as [h|] eqn:Eh; [|discriminate]. injection Hx as <-.
      assert (Ez : znth own i = Some h) by (unfold znth; rewrite Ei; exact Eh). rewrite (proj1 (Ho i h Ez)). reflexivity.
  Qed.

  Theorem lg_overflows : cap < zlen hits -> msteps step init UB /\ forall c, msteps step init (Ok c) -> ~ halted step c.
  Proof.
    intros Hc. assert (HH : forall c, msteps step init (Ok c) -> ~ halted step c).
    { intros (m & ss) Hs Hh. destruct (halted_end m ss Hh (inv_partial _ Hs)) as (own & HP & HL & Ho).
      destruct (znth_some own cap) as (h & Eh); [apply Permutation_length in HP; unfold zlen in *; lia|]. destruct (Ho cap h Eh) as (_ & Q). lia. }
    split; [|exact HH].
    assert (G : forall c, always_ends step c -> msteps step init (Ok c) -> msteps step c UB).
    { intros c Ha. induction Ha as [c _ IH]. intros Hs. destruct (not_halted_moves step c) as [Hh|(o & Ho)]; [exfalso; eapply HH; eauto|].
      assert (Hcase : o = UB \/ exists c', o = Ok c').
      { pose proof (inv_partial _ Hs) as (HJ & HL). inversion Ho; subst; [eauto|auto|]. exfalso. cbn [fst snd] in HJ, HL.
        apply Forall_app in HL as (_ & HL). inversion HL; subst. rewrite flat_map_app in HJ. cbn [flat_map] in HJ.
        destruct (step_ok snr gt lt thr D N L spec noise X W HX HW HN Hsz cap m s _ (flat_map pend ss1 ++ flat_map pend ss2) H) as [(Q & _)|(m1 & s1 & Q & _)]; try discriminate; auto.
        eapply Jperm; [|exact HJ]. rewrite !app_assoc. apply Permutation_app_tail, Permutation_app_comm. }
      destruct Hcase as [->|(c' & ->)]; [apply mss_bad; [exact Ho|discriminate]|].
      eapply mss_step; [exact Ho|]. apply IH; [exact Ho|]. clear - Hs Ho.
      remember (Ok c) as o eqn:E. revert E. generalize init Hs. intros i Hi. induction Hi as [x|x y o H1 H2 IH|x o H1 H2]; intros E.
      - injection E as <-. eapply mss_step; [exact Ho|apply mss_refl].
      - eapply mss_step; [exact H1|]. apply IH; auto.
      - subst. exfalso. eapply H2. reflexivity. }
    apply G; [apply ends with (W := W); auto|apply mss_refl].
  Qed.

  Lemma hits_spec : (forall c, lm_peak gt thr D N L Sn c <-> In c (map ph_max (map to_ph hits))) /\ NoDup (map ph_max (map to_ph hits)) /\
    Forall (lm_report gt lt thr D N Sn X W) (map to_ph hits).
  Proof.
    assert (HA : forall n h, 0 <= n < D * N -> In h (hits_at snr gt lt thr D N L spec noise n) -> lm_peak gt thr D N L Sn (n / N, n mod N) /\ hit_of snr gt lt thr N X W (n / N, n mod N) h).
    { intros n h Hn Hh. unfold hits_at in Hh. destruct (lg_hit_ok snr gt lt thr D N L spec noise X W HX HW HN n Hn) as ([h'|] & E & H); rewrite E in Hh; [destruct Hh as [<-|[]]; exact H|destruct Hh]. }
    assert (HM : map ph_max (map to_ph hits) = map dh_max hits) by (rewrite map_map; reflexivity).
    split; [|split].
    - intros c. rewrite HM, in_map_iff. split.
      + intros Hp. pose proof Hp as ((Hd & Hf) & _). set (n := fst c * N + snd c).
        assert (Hn : 0 <= n < D * N) by (unfold n; nia).
        assert (Ec : (n / N, n mod N) = c).
        { destruct c as (d & f). unfold n. cbn [fst snd] in *. f_equal; [rewrite Z.add_comm, Z.div_add, Z.div_small by lia; lia|rewrite Z.add_comm, Z.mod_add, Z.mod_small by lia; lia]. }
        destruct (lg_hit_ok snr gt lt thr D N L spec noise X W HX HW HN n Hn) as ([h|] & E & H); rewrite Ec in H; [|contradiction].
        exists h. split; [apply H|]. apply in_flat_map. exists n. split; [now apply in_zrange|]. unfold hits_at. rewrite E. now left.
      + intros (h & <- & Hh). apply in_flat_map in Hh as (n & Hn & Hh). apply in_zrange in Hn. destruct (HA n h Hn Hh) as (H1 & H2).
        rewrite (proj1 H2). exact H1.
    - rewrite HM. unfold LmCudaProofs.hits. rewrite flat_map_concat_map, concat_map, map_map, <- flat_map_concat_map. apply nodup_flat; [apply zrange_nodup| |].
      + intros n Hn. unfold hits_at. destruct (lg_hit _ _ _ _ _ _ _ _ _ n) as [[h|]|e|]; cbn; repeat constructor; auto.
      + intros n n' c Hn Hn' H H'. apply in_zrange in Hn, Hn'. apply in_map_iff in H as (h & Eh & H), H' as (h' & Eh' & H').
        destruct (HA n h Hn H) as (_ & Q & _), (HA n' h' Hn' H') as (_ & Q' & _). rewrite <- Eh' in Eh. rewrite Q, Q' in Eh. injection Eh as E1 E2.
        rewrite (Z.div_mod n N), (Z.div_mod n' N) by lia. congruence.
    - apply Forall_map, Forall_forall. intros h Hh. apply in_flat_map in Hh as (n & Hn & Hh). apply in_zrange in Hn. destruct (HA n h Hn Hh) as (_ & H1 & H2 & H3 & H4 & H5).
      unfold lm_report, to_ph. cbn [ph_max ph_snr ph_power ph_noise ph_locs ph_rfi ph_width ph_center]. rewrite H1, H2, H3, H4. repeat (split; [reflexivity|]). exact H5.
  Qed.
End LmEnd.
