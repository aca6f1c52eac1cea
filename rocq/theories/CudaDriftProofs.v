(** The CUDA drift kernel: result under every schedule and launch geometry, and comparison with the
    CPU kernel. *)
From Verif Require Export DriftProofs ThreadProofs.
From Coq Require Import ZifyBool ZifyNat.
Ltac Zify.zify_post_hook ::= Z.div_mod_to_equations.
Local Open Scope Z_scope.

Lemma addr_eqb_spec x y : addr_eqb x y = true <-> x = y.
Proof.
  destruct x as (b & i), y as (c & j). unfold addr_eqb. cbn [fst snd].
  rewrite andb_true_iff, Z.eqb_eq. split.
  - intros (H & ->). destruct b, c; try discriminate; reflexivity.
  - intros H. injection H as -> ->. split; [destruct c; reflexivity|reflexivity].
Qed.

Lemma in_grid_stride G N fuel : forall f0 f, 0 < G ->
  In f (grid_stride fuel f0 G N) <-> exists q, 0 <= q < Z.of_nat fuel /\ f = f0 + q * G /\ f < N.
Proof.
  induction fuel as [|fuel IH]; intros f0 f HG; cbn [grid_stride In].
  - split; [tauto|]. intros (q & H & _). lia.
  - destruct (f0 <? N) eqn:E; cbn [In].
    + rewrite IH by auto. split.
      * intros [->|(q & Hq & -> & Hn)]; [exists 0; lia|]. exists (q + 1). split; [lia|]. split; [ring|lia].
      * intros (q & Hq & -> & Hn). destruct (Z.eq_dec q 0) as [->|Hne]; [left; lia|].
        right. exists (q - 1). split; [lia|]. split; [ring|lia].
    + split; [tauto|]. intros (q & Hq & -> & Hn). nia.
Qed.

Lemma tids_eq blocks bdim : 0 <= blocks -> 0 <= bdim ->
  flat_map (fun b => map (fun x => b * bdim + x) (zrange bdim)) (zrange blocks) = zrange (blocks * bdim).
Proof.
  intros Hb Hd. revert blocks Hb.
  apply (natlike_ind (fun blocks => flat_map (fun b => map (fun x => b * bdim + x) (zrange bdim)) (zrange blocks) = zrange (blocks * bdim))).
  - reflexivity.
  - intros n Hn IH. replace (Z.succ n) with (n + 1) by lia. rewrite zrange_snoc, flat_map_app, IH by lia.
    cbn [flat_map]. rewrite app_nil_r. replace ((n + 1) * bdim) with (n * bdim + bdim) by ring.
    rewrite zrange_app by nia. reflexivity.
Qed.

Lemma map_split2 {X Y} (g : X -> Y) l l1 w1 l2 w2 l3 : NoDup l -> map g l = l1 ++ w1 :: l2 ++ w2 :: l3 ->
  exists i j, i <> j /\ In i l /\ In j l /\ w1 = g i /\ w2 = g j.
Proof.
  intros Hn E. apply map_eq_app in E as (a1 & a2 & -> & E1 & E2).
  apply map_eq_cons in E2 as (i & a3 & -> & E3 & E4).
  apply map_eq_app in E4 as (a4 & a5 & -> & E5 & E6).
  apply map_eq_cons in E6 as (j & a6 & -> & E7 & E8).
  exists i, j. split.
  - intros ->. apply NoDup_remove_2 in Hn. apply Hn. rewrite !in_app_iff. cbn. auto.
  - rewrite !in_app_iff. cbn. rewrite !in_app_iff. cbn. auto 10.
Qed.

Section Cuda.
  Context {F : Type} (fzero : F) (fadd : F -> F -> F) (fdivz : F -> Z -> F).
  Variables (spec : mem F) (mask : mem Z) (junk : Z -> F) (T N : Z) (S : Z -> Z -> F) (M : Z -> Z -> Z).
  Variable rates : list rate.
  Hypothesis Hsp : holds (dense [T; N]) spec T N S.
  Hypothesis Hm : holds (dense [T; N]) mask T N M.
  Hypothesis HN : 0 <= N.

  Let cells := zlen rates * N.
  Let m0 := cuda_init spec mask junk cells.
  Definition read_only (a : addr) : Prop := fst a = BSpec \/ fst a = BMask.

  Definition acc_step (acc : accs) (tc : Z * Z) : accs :=
    Accs (fadd (c_sum acc) (S (fst tc) (snd tc))) (c_bins acc + 1)
         (bump flag_low_sk (M (fst tc) (snd tc)) (c_low acc))
         (bump flag_high_sk (M (fst tc) (snd tc)) (c_high acc))
         (bump flag_rolloff (M (fst tc) (snd tc)) (c_roll acc)).
  Definition in_band (tc : Z * Z) : bool := (0 <=? snd tc) && (snd tc <? N).
  Definition met (f : Z) (offs : list (Z * Z)) : list (Z * Z) :=
    filter in_band (map (fun to => (fst to, f + snd to)) offs).

  Lemma spec_cell t c : 0 <= t < T -> 0 <= c < N -> m0 (BSpec, t * N + c) = Some (CF (S t c)).
  Proof.
    intros Ht Hc. unfold m0, cuda_init. pose proof (holds_read _ _ _ _ _ Hsp t c Ht Hc) as E.
    change (stride (dense [T; N]) 1) with 1 in E. change (stride (dense [T; N]) 0) with (1 * N) in E.
    replace (t * N + c) with (t * (1 * N) + c * 1) by ring. rewrite E. reflexivity.
  Qed.
  Lemma mask_cell t c : 0 <= t < T -> 0 <= c < N -> m0 (BMask, t * N + c) = Some (CB (M t c)).
  Proof.
    intros Ht Hc. unfold m0, cuda_init. pose proof (holds_read _ _ _ _ _ Hm t c Ht Hc) as E.
    change (stride (dense [T; N]) 1) with 1 in E. change (stride (dense [T; N]) 0) with (1 * N) in E.
    replace (t * N + c) with (t * (1 * N) + c * 1) by ring. rewrite E. reflexivity.
  Qed.
  Lemma out_cell b i : b <> BSpec -> b <> BMask -> 0 <= i < cells -> m0 (b, i) <> None.
  Proof.
    intros H1 H2 Hi. unfold m0, cuda_init.
    assert (E : znth (zrange cells) i = Some i).
    { unfold znth. replace (i <? 0) with false by lia. now apply nth_error_zrange. }
    destruct b; try congruence; rewrite E; cbn; congruence.
  Qed.

  Lemma solo_bins f : forall offs acc k ws n,
    (forall to, In to offs -> 0 <= fst to < T) ->
    solo read_only m0 (k (fold_left acc_step (met f offs) acc)) ws n ->
    exists n', solo read_only m0 (cuda_bins fzero fadd N f offs acc k) ws n'.
  Proof.
    induction offs as [|(t & off) offs IH]; intros acc k ws n Ht Hk.
    - cbn in *. eauto.
    - assert (H0 : 0 <= t < T) by (apply (Ht (t, off)); cbn; auto).
      cbn [cuda_bins]. cbv zeta. unfold met in Hk. cbn [map filter fst snd] in Hk. unfold in_band at 1 in Hk. cbn [fst snd] in Hk.
      destruct ((0 <=? f + off) && (f + off <? N)) eqn:E.
      + cbn [fold_left] in Hk. destruct (IH (acc_step acc (t, f + off)) k ws n) as (n' & Hn'); [intros; apply Ht; cbn; auto|exact Hk|].
        eexists. eapply solo_rd; [left; reflexivity|apply spec_cell; lia|].
        eapply solo_rd; [right; reflexivity|apply mask_cell; lia|]. exact Hn'.
      + eapply IH; [intros; apply Ht; cbn; auto|exact Hk].
  Qed.

  Definition bin_accs (r : rate) (f : Z) : accs := fold_left acc_step (met f (cuda_offsets T r)) (Accs fzero 0 0 0 0).

  Definition bin_writes (f : Z) (dr : Z * rate) : list (addr * cellv) :=
    let acc := bin_accs (snd dr) f in let i := fst dr * N + f in
    if c_bins acc =? 0 then [((BPlane, i), CF fzero)]
    else [((BPlane, i), CF (fdivz (c_sum acc) (c_bins acc))); ((BLow, i), CB (c_low acc));
          ((BHigh, i), CB (c_high acc)); ((BRoll, i), CB (c_roll acc))].

  Lemma cuda_offsets_time r to : In to (cuda_offsets T r) -> 0 <= fst to < T.
  Proof.
    unfold cuda_offsets. intros H. apply in_flat_map in H as (t & Ht & H). apply in_zrange in Ht.
    apply in_map_iff in H as (k & <- & _). exact Ht.
  Qed.

  Lemma ro_out b i : b <> BSpec -> b <> BMask -> ~ read_only (b, i).
  Proof. intros H1 H2 [H|H]; cbn in H; auto. Qed.

  Lemma solo_bin f d r rest ws n : 0 <= f < N -> 0 <= d < zlen rates ->
    solo read_only m0 rest ws n ->
    exists n', solo read_only m0 (cuda_bin fzero fadd fdivz N T f d r rest) (bin_writes f (d, r) ++ ws) n'.
  Proof.
    intros Hf Hd Hr. unfold cuda_bin.
    assert (Hi : 0 <= d * N + f < cells) by (unfold cells; nia).
    assert (G : exists n0, solo read_only m0
       ((fun acc : accs =>
      let i := d * N + f in
      if c_bins acc =? 0
      then Wr (BPlane, i) (CF fzero) rest
      else Wr (BPlane, i) (CF (fdivz (c_sum acc) (c_bins acc)))
            (Wr (BLow, i) (CB (c_low acc)) (Wr (BHigh, i) (CB (c_high acc)) (Wr (BRoll, i) (CB (c_roll acc)) rest))))
        (fold_left acc_step (met f (cuda_offsets T r)) (Accs fzero 0 0 0 0))) (bin_writes f (d, r) ++ ws) n0).
    { cbv beta zeta. unfold bin_writes. cbn [fst snd]. fold (bin_accs r f).
      destruct (c_bins (bin_accs r f) =? 0); cbn [app].
      - eexists. eapply solo_wr; [apply ro_out; congruence|apply out_cell; [congruence|congruence|auto]|eauto].
      - eexists. repeat (eapply solo_wr; [apply ro_out; congruence|apply out_cell; [congruence|congruence|auto]|]). eauto. }
    destruct G as (n0 & G). eapply solo_bins; [apply cuda_offsets_time|exact G].
  Qed.

  Definition channel_writes (f : Z) : list (addr * cellv) :=
    flat_map (bin_writes f) (combine (zrange (zlen rates)) rates).

  Lemma solo_channel f rest ws n : 0 <= f < N -> solo read_only m0 rest ws n ->
    exists n', solo read_only m0 (cuda_channel fzero fadd fdivz N T f rates rest) (channel_writes f ++ ws) n'.
  Proof.
    intros Hf Hr. unfold cuda_channel, channel_writes.
    assert (G : forall l, (forall d r, In (d, r) l -> 0 <= d < zlen rates) ->
      exists n', solo read_only m0 (fold_right (fun dr rest => cuda_bin fzero fadd fdivz N T f (fst dr) (snd dr) rest) rest l)
                      (flat_map (bin_writes f) l ++ ws) n').
    { induction l as [|(d & r) l IH]; intros Hl; cbn [fold_right flat_map]; [eauto|].
      destruct IH as (n' & IH); [intros; eapply Hl; cbn; eauto|]. rewrite <- app_assoc. cbn [fst snd].
      eapply solo_bin; [auto|eapply Hl; cbn; eauto|exact IH]. }
    apply G. intros d r Hin. apply in_combine_zrange in Hin. eapply znth_len; eauto.
  Qed.

  Definition thread_writes (G tid : Z) : list (addr * cellv) :=
    flat_map channel_writes (grid_stride (Z.to_nat N) tid G N).

  Lemma solo_thread G tid : 0 < G -> 0 <= tid ->
    exists n, solo read_only m0 (cuda_thread fzero fadd fdivz N T G tid rates) (thread_writes G tid) n.
  Proof.
    intros HG Ht. unfold cuda_thread, thread_writes.
    assert (G1 : forall l, (forall f, In f l -> 0 <= f < N) ->
      exists n', solo read_only m0 (fold_right (fun f rest => cuda_channel fzero fadd fdivz N T f rates rest) Ret l)
                      (flat_map channel_writes l) n').
    { induction l as [|f l IH]; intros Hl; cbn [fold_right flat_map]; [eexists; constructor|].
      destruct IH as (n' & IH); [intros; apply Hl; cbn; auto|].
      eapply solo_channel; [apply Hl; cbn; auto|exact IH]. }
    apply G1. intros f Hf. apply in_grid_stride in Hf as (q & Hq & -> & Hlt); [nia|auto].
  Qed.

  Lemma in_channel_writes f b i v : In ((b, i), v) (channel_writes f) ->
    exists d r, znth rates d = Some r /\ i = d * N + f /\ In ((b, i), v) (bin_writes f (d, r)).
  Proof.
    unfold channel_writes. intros H. apply in_flat_map in H as ((d & r) & H1 & H2).
    apply in_combine_zrange in H1. exists d, r. split; [auto|]. split; [|auto].
    unfold bin_writes in H2. cbn [fst snd] in H2.
    destruct (c_bins (bin_accs r f) =? 0); cbn [In] in H2;
      repeat match goal with H : _ \/ _ |- _ => destruct H as [H|H] end; try contradiction; congruence.
  Qed.

  Lemma in_thread_writes G tid b i v : 0 < G -> 0 <= tid -> In ((b, i), v) (thread_writes G tid) ->
    exists d r f q, znth rates d = Some r /\ 0 <= f < N /\ i = d * N + f /\ 0 <= q /\ f = tid + q * G /\
      In ((b, i), v) (bin_writes f (d, r)).
  Proof.
    intros HG Ht H. unfold thread_writes in H. apply in_flat_map in H as (f & Hf & H).
    apply in_grid_stride in Hf as (q & Hq & Ef & Hlt); [|auto].
    apply in_channel_writes in H as (d & r & Hd & Hi & H). exists d, r, f, q. repeat split; auto; nia.
  Qed.

  Lemma index_split d f d' f' : 0 <= f < N -> 0 <= f' < N -> d * N + f = d' * N + f' -> d = d' /\ f = f'.
  Proof.
    intros H1 H2 E. assert (d = d'); [|subst; lia].
    destruct (Z.lt_trichotomy d d') as [Hl|[Hl|Hl]]; [|auto|].
    - assert ((d + 1) * N <= d' * N) by (apply Z.mul_le_mono_nonneg_r; lia). lia.
    - assert ((d' + 1) * N <= d * N) by (apply Z.mul_le_mono_nonneg_r; lia). lia.
  Qed.

  Lemma threads_disjoint G : 0 < G -> disjoint_writes (map (thread_writes G) (zrange G)).
  Proof.
    intros HG l1 w1 l2 w2 l3 E (b & i) v v' I1 I2.
    destruct (map_split2 _ _ _ _ _ _ _ (zrange_nodup G) E) as (x & y & Hne & Hx & Hy & -> & ->).
    apply in_zrange in Hx, Hy.
    apply in_thread_writes in I1 as (d1 & r1 & f1 & q1 & _ & Hf1 & E1 & Hq1 & Ef1 & _); [|lia|lia].
    apply in_thread_writes in I2 as (d2 & r2 & f2 & q2 & _ & Hf2 & E2 & Hq2 & Ef2 & _); [|lia|lia].
    rewrite E2 in E1. destruct (index_split _ _ _ _ Hf2 Hf1 E1) as (_ & Ef). subst f1 f2.
    apply Hne. assert (x = (x + q1 * G) mod G) by (rewrite Z.mod_add by lia; symmetry; apply Z.mod_small; lia).
    assert (y = (y + q2 * G) mod G) by (rewrite Z.mod_add by lia; symmetry; apply Z.mod_small; lia). congruence.
  Qed.

  (** Invariant of every execution. *)
  Lemma cuda_inv blocks bdim : 0 < blocks -> 0 < bdim ->
    inv addr_eqb read_only m0 (map (thread_writes (blocks * bdim)) (zrange (blocks * bdim)))
        (m0, cuda_threads fzero fadd fdivz N T blocks bdim rates).
  Proof.
    intros Hb Hd. set (G := blocks * bdim). assert (HG : 0 < G) by (unfold G; nia).
    assert (Et : cuda_threads fzero fadd fdivz N T blocks bdim rates
                 = map (fun tid => cuda_thread fzero fadd fdivz N T G tid rates) (zrange G)).
    { unfold cuda_threads. unfold G at 2. rewrite <- tids_eq, map_flat_map by lia.
      apply flat_map_ext. intros b. rewrite map_map. reflexivity. }
    rewrite Et.
    assert (Gn : forall l, (forall x, In x l -> 0 <= x) -> exists ns, length ns = length l /\
      Forall2 (fun p wn => solo read_only m0 p (fst wn) (snd wn))
        (map (fun tid => cuda_thread fzero fadd fdivz N T G tid rates) l) (combine (map (thread_writes G) l) ns)).
    { induction l as [|x l IH]; intros Hl.
      - exists []. split; [reflexivity|constructor].
      - destruct IH as (ns & L & H); [intros; apply Hl; cbn; auto|].
        destruct (solo_thread G x HG) as (n & Hn); [apply Hl; cbn; auto|].
        exists (n :: ns). cbn. split; [lia|]. constructor; auto. }
    destruct (Gn (zrange G)) as (ns & L & H). { intros x Hx. apply in_zrange in Hx. lia. }
    apply (inv_init addr_eqb read_only m0 _ _ ns); [exact H| | |now apply threads_disjoint].
    - rewrite !map_length. reflexivity.
    - rewrite map_length. exact L.
  Qed.

  (** Values of one bin, in terms of the in-band part of the track. *)
  Lemma met_track r f : met f (cuda_offsets T r) = track_in_band N T r f.
  Proof.
    unfold met, track_in_band, in_band. f_equal. unfold cuda_offsets, track_steps. rewrite map_flat_map.
    assert (E : forall (l m : list Z), list_prod l m = flat_map (fun x => map (pair x) m) l).
    { induction l as [|x l IH]; intros m; cbn; [reflexivity|]. now rewrite IH. }
    rewrite E, map_flat_map. apply flat_map_ext. intros t. rewrite !map_map. apply map_ext. intros k. cbn [fst snd].
    unfold track_channel. destruct (r_nonneg r); f_equal; ring.
  Qed.

  Lemma fold_accs l : forall acc, 0 <= c_low acc < 256 -> 0 <= c_high acc < 256 -> 0 <= c_roll acc < 256 ->
    let a := fold_left acc_step l acc in
    c_sum a = lsum fadd (c_sum acc) (map (fun tc => S (fst tc) (snd tc)) l) /\
    c_bins a = c_bins acc + zlen l /\
    c_low a = (c_low acc + flagged flag_low_sk M l) mod 256 /\
    c_high a = (c_high acc + flagged flag_high_sk M l) mod 256 /\
    c_roll a = (c_roll acc + flagged flag_rolloff M l) mod 256.
  Proof.
    assert (Hb : forall fl m c, 0 <= c < 256 -> 0 <= bump fl m c < 256).
    { intros fl m c Hc. unfold bump, to_uint8. destruct (_ =? 0); [auto|]. apply Z.mod_pos_bound. lia. }
    assert (Hf : forall fl tc l c, 0 <= c < 256 ->
       (bump fl (M (fst tc) (snd tc)) c + flagged fl M l) mod 256 = (c + flagged fl M (tc :: l)) mod 256).
    { intros fl tc l' c Hc. unfold flagged, bump. cbn [filter]. destruct (Z.land _ fl =? 0); cbn [negb]; [reflexivity|].
      unfold to_uint8, zlen. cbn [length]. rewrite Zplus_mod_idemp_l. f_equal. lia. }
    induction l as [|tc l IH]; intros acc H1 H2 H3; cbn zeta.
    - cbn. unfold flagged, zlen. cbn. rewrite !Z.add_0_r, !Z.mod_small by lia. auto.
    - cbn [fold_left]. destruct (IH (acc_step acc tc)) as (I1 & I2 & I3 & I4 & I5); try (apply Hb; auto).
      rewrite I1, I2, I3, I4, I5. cbn [acc_step c_sum c_bins c_low c_high c_roll map lsum fold_left].
      rewrite !Hf by auto. unfold zlen. cbn [length]. repeat split; lia.
  Qed.

  Definition cuda_value (r : rate) (f : Z) : F :=
    let bins := track_in_band N T r f in
    if zlen bins =? 0 then fzero
    else fdivz (lsum fadd fzero (map (fun tc => S (fst tc) (snd tc)) bins)) (zlen bins).

  Lemma bin_writes_eq d r f : bin_writes f (d, r) =
    let bins := track_in_band N T r f in let i := d * N + f in
    ((BPlane, i), CF (cuda_value r f)) ::
    if zlen bins =? 0 then []
    else [((BLow, i), CB (flagged flag_low_sk M bins mod 256)); ((BHigh, i), CB (flagged flag_high_sk M bins mod 256));
          ((BRoll, i), CB (flagged flag_rolloff M bins mod 256))].
  Proof.
    unfold bin_writes, cuda_value. cbn [fst snd]. unfold bin_accs. rewrite met_track.
    destruct (fold_accs (track_in_band N T r f) (Accs fzero 0 0 0 0)) as (E1 & E2 & E3 & E4 & E5); cbn; try lia.
    rewrite E1, E2, E3, E4, E5. cbn [c_sum c_bins c_low c_high c_roll]. rewrite !Z.add_0_l.
    destruct (zlen _ =? 0); reflexivity.
  Qed.

  (** Writes of the whole launch at a given cell. *)
  Lemma launch_writes G b d r f v : 0 < G -> znth rates d = Some r -> 0 <= f < N ->
    In ((b, d * N + f), v) (concat (map (thread_writes G) (zrange G))) <->
    In ((b, d * N + f), v) (bin_writes f (d, r)).
  Proof.
    intros HG Hd Hf. rewrite in_concat. split.
    - intros (ws & Hw & Hin). apply in_map_iff in Hw as (tid & <- & Ht). apply in_zrange in Ht.
      apply in_thread_writes in Hin as (d' & r' & f' & q & Hd' & Hf' & E & _ & _ & Hin); [|lia|lia].
      destruct (index_split _ _ _ _ Hf Hf' E) as (<- & <-). assert (r' = r) by congruence. now subst.
    - intros Hin. exists (thread_writes G (f mod G)). pose proof (Z.mod_pos_bound f G HG). split.
      + apply in_map_iff. exists (f mod G). split; [reflexivity|]. now apply in_zrange.
      + unfold thread_writes. apply in_flat_map. exists f. split.
        * apply in_grid_stride; [auto|]. exists (f / G). pose proof (Z.div_mod f G). 
          assert (0 <= f / G) by (apply Z.div_pos; lia).
          assert (f / G <= f) by (apply Z.div_le_upper_bound; nia). split; [lia|]. split; [nia|lia].
        * unfold channel_writes. apply in_flat_map. exists (d, r). split; [|auto]. now apply in_combine_zrange.
  Qed.

  Lemma existsb_in (ws : list (addr * @cellv F)) a : existsb (fun w => addr_eqb (fst w) a) ws = true <-> exists v, In (a, v) ws.
  Proof.
    rewrite existsb_exists. split.
    - intros ((b & v) & H & E). cbn in E. apply addr_eqb_spec in E. subst. eauto.
    - intros (v & H). exists (a, v). split; [auto|]. cbn. now apply addr_eqb_spec.
  Qed.

  Lemma final_cell G b d r f v0 : 0 < G -> znth rates d = Some r -> 0 <= f < N ->
    (forall v, In ((b, d * N + f), v) (bin_writes f (d, r)) -> v = v0) ->
    ((exists v, In ((b, d * N + f), v) (bin_writes f (d, r))) \/ m0 (b, d * N + f) = Some v0) ->
    apply_writes addr_eqb (concat (map (thread_writes G) (zrange G))) m0 (b, d * N + f) = Some v0.
  Proof.
    intros HG Hd Hf Hv Hor. rewrite (apply_det addr_eqb addr_eqb_spec _ m0 _ v0).
    - destruct (existsb _ _) eqn:E; [reflexivity|]. destruct Hor as [(v & Hin)|Hor]; [|auto].
      apply (launch_writes G b d r f v HG Hd Hf) in Hin.
      assert (existsb (fun w => addr_eqb (fst w) (b, d * N + f)) (concat (map (thread_writes G) (zrange G))) = true) by (apply existsb_in; eauto).
      congruence.
    - intros v' Hin. apply Hv. now apply (launch_writes G b d r f v' HG Hd Hf).
  Qed.

  Lemma counter_zero b i : b <> BSpec -> b <> BMask -> b <> BPlane -> 0 <= i < cells -> m0 (b, i) = Some (CB 0).
  Proof.
    intros H1 H2 H3 Hi. unfold m0, cuda_init.
    assert (E : znth (zrange cells) i = Some i).
    { unfold znth. replace (i <? 0) with false by lia. now apply nth_error_zrange. }
    destruct b; try congruence; rewrite E; reflexivity.
  Qed.

  (** Every complete execution, for every launch geometry, leaves the same values. *)
  Theorem cuda_exact blocks bdim : 0 < blocks -> 0 < bdim ->
    forall o, gsteps addr_eqb (m0, cuda_threads fzero fadd fdivz N T blocks bdim rates) o ->
    exists m ps, o = Ok (m, ps) /\
      (finished ps \/ exists c', gstep addr_eqb (m, ps) (Ok c')) /\
      (finished ps -> forall d r f, znth rates d = Some r -> 0 <= f < N ->
         let bins := track_in_band N T r f in
         m (BPlane, d * N + f) = Some (CF (cuda_value r f)) /\
         m (BLow, d * N + f) = Some (CB (flagged flag_low_sk M bins mod 256)) /\
         m (BHigh, d * N + f) = Some (CB (flagged flag_high_sk M bins mod 256)) /\
         m (BRoll, d * N + f) = Some (CB (flagged flag_rolloff M bins mod 256))).
  Proof.
    intros Hb Hd o Hg. pose proof (cuda_inv blocks bdim Hb Hd) as Hi.
    destruct (inv_steps addr_eqb addr_eqb_spec _ _ _ _ _ Hi Hg) as ((m & ps) & -> & Hi').
    exists m, ps. split; [reflexivity|]. split.
    { destruct (inv_progress addr_eqb _ _ _ _ Hi') as [H|(o & H)]; [left; exact H|right].
      destruct (inv_step addr_eqb addr_eqb_spec _ _ _ _ _ Hi' H) as (c' & -> & _). eauto. }
    intros Hfin d r f Hd' Hf. cbn zeta. set (bins := track_in_band N T r f).
    set (G := blocks * bdim) in *. assert (HG : 0 < G) by (unfold G; nia).
    pose proof (inv_final addr_eqb _ _ _ _ _ Hi' Hfin) as Hm'. rewrite !Hm'.
    pose proof (znth_len _ _ _ Hd') as Hdl.
    assert (Hic : 0 <= d * N + f < cells) by (unfold cells; nia).
    assert (Hfl : zlen bins = 0 -> forall fl, flagged fl M bins mod 256 = 0).
    { intros E fl. destruct bins; [reflexivity|]. unfold zlen in E. cbn in E. lia. }
    split; [|split; [|split]]; apply (final_cell G _ d r f _ HG Hd' Hf); rewrite bin_writes_eq; cbn zeta; fold bins.
    - intros v [H|H]; [congruence|]. destruct (zlen bins =? 0); cbn in H; [tauto|].
      repeat (destruct H as [H|H]; [discriminate|]); tauto.
    - left. eexists. left. reflexivity.
    - intros v [H|H]; [discriminate|]. destruct (zlen bins =? 0); cbn in H; [tauto|].
      repeat (destruct H as [H|H]; [try discriminate; congruence|]); tauto.
    - destruct (zlen bins =? 0) eqn:E; [right|left; eexists; right; cbn; auto].
      rewrite Hfl by lia. apply counter_zero; congruence || auto.
    - intros v [H|H]; [discriminate|]. destruct (zlen bins =? 0); cbn in H; [tauto|].
      repeat (destruct H as [H|H]; [try discriminate; congruence|]); tauto.
    - destruct (zlen bins =? 0) eqn:E; [right|left; eexists; right; cbn; auto].
      rewrite Hfl by lia. apply counter_zero; congruence || auto.
    - intros v [H|H]; [discriminate|]. destruct (zlen bins =? 0); cbn in H; [tauto|].
      repeat (destruct H as [H|H]; [try discriminate; congruence|]); tauto.
    - destruct (zlen bins =? 0) eqn:E; [right|left; eexists; right; cbn; auto].
      rewrite Hfl by lia. apply counter_zero; congruence || auto.
  Qed.

  Theorem cuda_terminates blocks bdim : 0 < blocks -> 0 < bdim ->
    Acc (fun c' c => gstep addr_eqb c (Ok c')) (m0, cuda_threads fzero fadd fdivz N T blocks bdim rates).
  Proof.
    intros Hb Hd. exact (inv_terminates addr_eqb addr_eqb_spec _ _ _ _ (cuda_inv blocks bdim Hb Hd)).
  Qed.
End Cuda.
