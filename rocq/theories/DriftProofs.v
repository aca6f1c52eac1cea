(** Proofs about the CPU drift kernel. *)
From Verif Require Export DriftSpec BaseFacts NdIndexFacts NdMemFacts.
From Coq Require Import ZifyBool ZifyNat.
Ltac Zify.zify_post_hook ::= Z.div_mod_to_equations.
Local Open Scope Z_scope.

Lemma znth_store {V} (m m' : mem V) i v j :
  store m i v = Ok m' -> znth m' j = if j =? i then Some v else znth m j.
Proof.
  unfold store. destruct ((0 <=? i) && (i <? zlen m)) eqn:E; [|discriminate].
  intros H. injection H as <-. unfold znth, zlen in *. destruct (j <? 0) eqn:Ej.
  - replace (j =? i) with false by lia. reflexivity.
  - destruct (j =? i) eqn:Eij.
    + replace j with i by lia.
      destruct (nth_error m (Z.to_nat i)) eqn:En.
      * erewrite nth_error_upd_same; eauto.
      * apply nth_error_None in En. lia.
    + apply nth_error_upd_other. lia.
Qed.

Lemma store_ok {V} (m : mem V) i v : 0 <= i < zlen m ->
  exists m', store m i v = Ok m' /\ zlen m' = zlen m.
Proof.
  intros H. unfold store. replace ((0 <=? i) && (i <? zlen m)) with true by lia.
  eexists; split; [reflexivity|]. unfold zlen. now rewrite upd_length.
Qed.

Lemma load_ok {V} (m : mem V) i : 0 <= i < zlen m -> exists v, load m i = Ok v /\ znth m i = Some v.
Proof.
  intros H. unfold load, zget, znth. replace (i <? 0) with false by lia.
  destruct (nth_error m (Z.to_nat i)) eqn:E; [eauto|]. apply nth_error_None in E. unfold zlen in *. lia.
Qed.

Lemma load_out {V} (m : mem V) i : ~ (0 <= i < zlen m) -> load m i = UB.
Proof.
  intros H. unfold load, zget, znth. destruct (i <? 0) eqn:E; [reflexivity|].
  destruct (nth_error m (Z.to_nat i)) eqn:En; [|reflexivity].
  assert (Hs : nth_error m (Z.to_nat i) <> None) by congruence. apply nth_error_Some in Hs.
  unfold zlen in *. lia.
Qed.

Definition sized {F} (L : Z) (st : planes F) : Prop :=
  zlen (p_sum st) = L /\ zlen (p_low st) = L /\ zlen (p_high st) = L /\ zlen (p_roll st) = L.

Section Cpu.
  Context {F : Type} (fzero : F) (fadd : F -> F -> F) (fdivz : F -> Z -> F).
  Variables (spec : mem F) (mask : mem Z).
  Let Sf (i : Z) : F := match znth spec i with Some x => x | None => fzero end.
  Let Bf (i : Z) : Z := match znth mask i with Some x => x | None => 0 end.

  Definition good_access (L : Z) (a : access) : Prop :=
    0 <= a_plane a < L /\ 0 <= a_spec a < zlen spec /\ 0 <= a_mask a < zlen mask.

  (** Values of plane cell [i]. *)
  Definition at_cell (st : planes F) (i : Z) (p : F) (l h o : Z) : Prop :=
    znth (p_sum st) i = Some p /\ znth (p_low st) i = Some l /\
    znth (p_high st) i = Some h /\ znth (p_roll st) i = Some o.

  Definition put_sum (acc : F) (a : access) : F := fadd acc (fdivz (Sf (a_spec a)) (a_des a)).
  Definition put_flag (flag : Z) (acc : Z) (a : access) : Z := bump flag (Bf (a_mask a)) acc.

  Lemma visit_ok L st a : sized L st -> good_access L a ->
    exists st', cpu_visit fadd fdivz spec mask st a = Ok st' /\ sized L st' /\
      forall i p l h o, at_cell st i p l h o ->
        if a_plane a =? i
        then at_cell st' i (put_sum p a) (put_flag flag_low_sk l a) (put_flag flag_high_sk h a)
                     (put_flag flag_rolloff o a)
        else at_cell st' i p l h o.
  Proof.
    intros (H1 & H2 & H3 & H4) (Ga & Gs & Gm). unfold cpu_visit.
    destruct (load_ok (p_sum st) (a_plane a)) as (p0 & E0 & Z0); [lia|]. rewrite E0. cbn [obind].
    destruct (load_ok spec (a_spec a)) as (s0 & E1 & Z1); [lia|]. rewrite E1. cbn [obind].
    destruct (store_ok (p_sum st) (a_plane a) (fadd p0 (fdivz s0 (a_des a)))) as (m1 & S1 & L1); [lia|].
    rewrite S1. cbn [obind].
    destruct (load_ok mask (a_mask a)) as (b0 & E2 & Z2); [lia|]. rewrite E2. cbn [obind].
    destruct (load_ok (p_low st) (a_plane a)) as (l0 & E3 & Z3); [lia|]. rewrite E3. cbn [obind].
    destruct (store_ok (p_low st) (a_plane a) (bump flag_low_sk b0 l0)) as (m2 & S2 & L2); [lia|].
    rewrite S2. cbn [obind].
    destruct (load_ok (p_high st) (a_plane a)) as (h0 & E4 & Z4); [lia|]. rewrite E4. cbn [obind].
    destruct (store_ok (p_high st) (a_plane a) (bump flag_high_sk b0 h0)) as (m3 & S3 & L3); [lia|].
    rewrite S3. cbn [obind].
    destruct (load_ok (p_roll st) (a_plane a)) as (o0 & E5 & Z5); [lia|]. rewrite E5. cbn [obind].
    destruct (store_ok (p_roll st) (a_plane a) (bump flag_rolloff b0 o0)) as (m4 & S4 & L4); [lia|].
    rewrite S4. cbn [obind].
    eexists; split; [reflexivity|]. split; [unfold sized; cbn; lia|].
    intros i p l h o (Q1 & Q2 & Q3 & Q4). unfold at_cell. cbn [p_sum p_low p_high p_roll].
    rewrite (znth_store _ _ _ _ _ S1), (znth_store _ _ _ _ _ S2), (znth_store _ _ _ _ _ S3),
      (znth_store _ _ _ _ _ S4). rewrite (Z.eqb_sym i).
    destruct (a_plane a =? i) eqn:Ei; [|auto].
    assert (a_plane a = i) by lia. subst i. unfold put_sum, put_flag, Sf, Bf. rewrite Z1, Z2.
    repeat split; congruence.
  Qed.

  Lemma run_ok L l : forall st, sized L st -> Forall (good_access L) l ->
    exists st', cpu_run fadd fdivz spec mask st l = Ok st' /\ sized L st' /\
      forall i p lo h o, at_cell st i p lo h o ->
        let mine := filter (fun a => a_plane a =? i) l in
        at_cell st' i (fold_left put_sum mine p) (fold_left (put_flag flag_low_sk) mine lo)
                (fold_left (put_flag flag_high_sk) mine h) (fold_left (put_flag flag_rolloff) mine o).
  Proof.
    induction l as [|a l IH]; intros st Hs Hg.
    - exists st. cbn. auto.
    - inversion_clear Hg as [|? ? Ha Hl]. cbn [cpu_run].
      destruct (visit_ok L st a Hs Ha) as (st1 & E1 & S1 & V1). rewrite E1. cbn [obind].
      destruct (IH st1 S1 Hl) as (st2 & E2 & S2 & V2). exists st2. split; [exact E2|]. split; [exact S2|].
      intros i p lo h o Q. specialize (V1 i p lo h o Q). cbn [filter].
      destruct (a_plane a =? i); cbn [fold_left]; apply V2; exact V1.
  Qed.

  (** One access outside the arrays makes the whole run undefined. *)
  Lemma visit_cases st a : cpu_visit fadd fdivz spec mask st a = UB \/
    exists st', cpu_visit fadd fdivz spec mask st a = Ok st' /\ zlen (p_sum st') = zlen (p_sum st).
  Proof.
    unfold cpu_visit, load, zget, store.
    repeat match goal with
    | |- context [match znth ?m ?i with _ => _ end] => destruct (znth m i); cbn [obind]; [|left; reflexivity]
    | |- context [if ?b then Ok _ else UB] => destruct b; cbn [obind]; [|left; reflexivity]
    end.
    right. eexists; split; [reflexivity|]. cbn. unfold zlen. now rewrite upd_length.
  Qed.

  Lemma run_ub l : forall st L, zlen (p_sum st) = L ->
    Exists (fun a => ~ (0 <= a_plane a < L)) l -> cpu_run fadd fdivz spec mask st l = UB.
  Proof.
    induction l as [|a l IH]; intros st L Hl Hex; [inversion Hex|].
    cbn [cpu_run]. destruct (visit_cases st a) as [E|(st' & E & L')]; [now rewrite E|].
    inversion_clear Hex as [? ? H|? ? H].
    - exfalso. unfold cpu_visit in E. rewrite load_out in E by (rewrite Hl; exact H). discriminate.
    - rewrite E. cbn [obind]. apply (IH st' L); [congruence|exact H].
  Qed.
End Cpu.

(** ** The accesses of the CPU kernel *)

Lemma layout2 l T N : l_shape l = [T; N] -> wf l ->
  exists s0 s1 o0 o1, l_strides l = [s0; s1] /\ l_offsets l = [o0; o1].
Proof.
  intros Hs (W1 & W2). rewrite Hs in W1, W2. cbn in W1, W2.
  destruct (l_strides l) as [|s0 [|s1 [|]]]; try discriminate.
  destruct (l_offsets l) as [|o0 [|o1 [|]]]; try discriminate. eauto 10.
Qed.

Lemma holds_cell {V} l (m : mem V) T N S : holds l m T N S ->
  forall t c, cell l [t; c] = t * stride l 0 + c * stride l 1.
Proof.
  intros (Hs & W & Ho & _) t c. destruct (layout2 l T N Hs W) as (s0 & s1 & o0 & o1 & E1 & E2).
  unfold cell, stride. rewrite E1, E2 in *. cbn.
  inversion_clear Ho as [|? ? H1 H2]. inversion_clear H2. lia.
Qed.

Lemma holds_read {V} l (m : mem V) T N S : holds l m T N S ->
  forall t c, 0 <= t < T -> 0 <= c < N -> znth m (t * stride l 0 + c * stride l 1) = Some (S t c).
Proof.
  intros H t c Ht Hc. rewrite <- (holds_cell l m T N S H). destruct H as (_ & _ & _ & H). now apply H.
Qed.

Lemma znth_len {V} (m : mem V) i x : znth m i = Some x -> 0 <= i < zlen m.
Proof.
  unfold znth, zlen. destruct (i <? 0) eqn:E; [discriminate|]. intros H.
  assert (Hs : nth_error m (Z.to_nat i) <> None) by congruence. apply nth_error_Some in Hs. lia.
Qed.

Lemma in_combine_zrange {A} (l : list A) d x :
  In (d, x) (combine (zrange (zlen l)) l) <-> znth l d = Some x.
Proof.
  unfold zrange, zlen. rewrite Nat2Z.id. unfold znth.
  assert (G : forall (l : list A) s, In (d, x) (combine (map Z.of_nat (seq s (length l))) l) <->
             Z.of_nat s <= d /\ nth_error l (Z.to_nat d - s) = Some x).
  { clear. induction l as [|y l IH]; intros s; cbn [length seq map combine In].
    - split; [tauto|]. intros (_ & H). destruct (Z.to_nat d - s)%nat; discriminate.
    - rewrite IH. split.
      + intros [H|(H1 & H2)].
        * injection H as <- <-. split; [lia|]. replace (Z.to_nat (Z.of_nat s) - s)%nat with O by lia. reflexivity.
        * split; [lia|]. replace (Z.to_nat d - s)%nat with (S (Z.to_nat d - S s)) by lia. exact H2.
      + intros (H1 & H2). destruct (Z.eq_dec d (Z.of_nat s)) as [->|Hne].
        * left. replace (Z.to_nat (Z.of_nat s) - s)%nat with O in H2 by lia. cbn in H2. congruence.
        * right. split; [lia|]. replace (Z.to_nat d - s)%nat with (S (Z.to_nat d - S s)) in H2 by lia. exact H2. }
  rewrite G. replace (Z.to_nat d - 0)%nat with (Z.to_nat d) by lia.
  destruct (d <? 0) eqn:E; split; intros H; try discriminate; try tauto; try lia; split; auto; lia.
Qed.

Lemma in_cpu_trace N T ls lm rates a :
  In a (cpu_trace N T ls lm rates) <->
  exists d r t k, znth rates d = Some r /\ 0 <= t < T /\ 0 <= k < r_desmear r /\
                  In a (cpu_inner N ls lm d r t k).
Proof.
  unfold cpu_trace. rewrite in_flat_map. split.
  - intros ((d & r) & H1 & H2). apply in_flat_map in H2 as (t & Ht & H2).
    apply in_flat_map in H2 as (k & Hk & H2). apply in_zrange in Ht, Hk. apply in_combine_zrange in H1.
    exists d, r, t, k. auto.
  - intros (d & r & t & k & H1 & Ht & Hk & H2). exists (d, r). rewrite in_combine_zrange. split; [auto|].
    apply in_flat_map. exists t. rewrite in_zrange. split; [auto|].
    apply in_flat_map. exists k. rewrite in_zrange. auto.
Qed.

(** The window of one (t,k), for safe rates: which channels, which track channel. *)
Lemma window_ok N T r t k ps ss n :
  signed_rate T r -> 0 <= t < T -> 0 <= k -> fits N r t k -> 0 <= N < 2 ^ 63 ->
  cpu_window N r t k = (ps, ss, n) ->
  as_size_t n = n /\ 0 <= n /\ 0 <= ps /\ 0 <= ss /\ ps + n <= N /\ ss + n <= N /\
  (forall f, 0 <= f < N ->
     (0 <= f - ps < n <-> contributes N r f (t, k) = true) /\
     (f - ps + ss = track_channel r f t k)).
Proof.
  intros Hs Ht Hk Hf HN. specialize (Hs t Ht). unfold cpu_window, fits, contributes, track_channel, as_size_t in *.
  cbn [fst snd] in *. destruct (r_nonneg r); intros E.
  - injection E as <- <- <-. split; [apply Z.mod_small; lia|]. repeat split; try lia.
  - destruct (- r_span r + (r_off r t - k) <? 0) eqn:Es; injection E as <- <- <-;
      (split; [apply Z.mod_small; lia|]); repeat split; try lia.
Qed.

Lemma inner_good {F} (spec : mem F) (mask : mem Z) ls lm T N S M d D r t k a :
  holds ls spec T N S -> holds lm mask T N M -> 0 <= N < 2 ^ 63 ->
  signed_rate T r -> 0 <= t < T -> 0 <= k -> fits N r t k -> 0 <= d < D ->
  In a (cpu_inner N ls lm d r t k) ->
  exists f c, 0 <= f < N /\ 0 <= c < N /\ a_plane a = d * N + f /\
    a_spec a = t * stride ls 0 + c * stride ls 1 /\ a_mask a = t * stride lm 0 + c * stride lm 1 /\
    c = track_channel r f t k /\ a_des a = r_desmear r.
Proof.
  intros Hsp Hm HN Hs Ht Hk Hf Hd Hin. unfold cpu_inner in Hin.
  destruct (cpu_window N r t k) as ((ps & ss) & n) eqn:Ew.
  destruct (window_ok N T r t k ps ss n Hs Ht Hk Hf HN Ew) as (E1 & H1 & H2 & H3 & H4 & H5 & H6).
  apply in_map_iff in Hin as (j & <- & Hj). rewrite E1 in Hj. apply in_zrange in Hj.
  exists (ps + j), (ss + j). destruct (H6 (ps + j)) as (_ & H7); [lia|].
  cbn [a_plane a_spec a_mask a_des]. repeat split; lia.
Qed.

(** ** Selecting the accesses of one plane cell *)

Lemma filter_flat_map {A B} (f : A -> list B) p l :
  filter p (flat_map f l) = flat_map (fun x => filter p (f x)) l.
Proof. induction l as [|x l IH]; cbn; [reflexivity|]. now rewrite filter_app, IH. Qed.

Lemma flat_map_ext_in {A B} (f g : A -> list B) l :
  (forall x, In x l -> f x = g x) -> flat_map f l = flat_map g l.
Proof.
  induction l as [|x l IH]; cbn; intros H; [reflexivity|].
  rewrite (H x) by auto. rewrite IH by auto. reflexivity.
Qed.

Lemma filter_zrange_eq n x : 
  filter (fun j => j =? x) (zrange n) = if (0 <=? x) && (x <? n) then [x] else [].
Proof.
  destruct (Z_lt_le_dec n 0) as [Hn|Hn].
  { rewrite zrange_nil by lia. replace ((0 <=? x) && (x <? n)) with false by lia. reflexivity. }
  revert n Hn. apply (natlike_ind (fun n => filter (fun j => j =? x) (zrange n) = if (0 <=? x) && (x <? n) then [x] else [])).
  - rewrite zrange_nil by lia. replace ((0 <=? x) && (x <? 0)) with false by lia. reflexivity.
  - intros n Hn IH. replace (Z.succ n) with (n + 1) by lia. rewrite zrange_snoc, filter_app, IH by lia. cbn [filter].
    destruct (n =? x) eqn:E.
    + replace ((0 <=? x) && (x <? n)) with false by lia. replace ((0 <=? x) && (x <? n + 1)) with true by lia.
      cbn. f_equal. lia.
    + replace (x <? n + 1) with (x <? n) by lia. apply app_nil_r.
Qed.

Lemma filter_map_swap {A B} (f : A -> B) p l : filter p (map f l) = map f (filter (fun x => p (f x)) l).
Proof. induction l as [|x l IH]; cbn; [reflexivity|]. destruct (p (f x)); cbn; now rewrite IH. Qed.

Definition track_access (N : Z) (ls lm : layout) (d : Z) (r : rate) (f : Z) (tk : Z * Z) : access :=
  let c := track_channel r f (fst tk) (snd tk) in
  Access (r_desmear r) (d * N + f) (fst tk * stride ls 0 + c * stride ls 1) (fst tk * stride lm 0 + c * stride lm 1).

Lemma filter_inner N T ls lm d r t k f :
  0 <= N < 2 ^ 63 -> signed_rate T r -> 0 <= t < T -> 0 <= k -> fits N r t k -> 0 <= f < N ->
  filter (fun a => a_plane a =? d * N + f) (cpu_inner N ls lm d r t k)
  = if contributes N r f (t, k) then [track_access N ls lm d r f (t, k)] else [].
Proof.
  intros HN Hs Ht Hk Hf Hfr. unfold cpu_inner.
  destruct (cpu_window N r t k) as ((ps & ss) & n) eqn:Ew.
  destruct (window_ok N T r t k ps ss n Hs Ht Hk Hf HN Ew) as (E1 & H1 & H2 & H3 & H4 & H5 & H6).
  destruct (H6 f Hfr) as (H7 & H8). rewrite E1, filter_map_swap. cbn [a_plane].
  rewrite (filter_ext _ (fun j => j =? f - ps)) by (intros j; lia).
  rewrite filter_zrange_eq. destruct (contributes N r f (t, k)) eqn:Ec.
  - replace ((0 <=? f - ps) && (f - ps <? n)) with true by (symmetry; destruct H7 as (_ & H7); specialize (H7 eq_refl); lia).
    cbn [map]. unfold track_access. cbn [fst snd]. rewrite <- H8. do 2 f_equal; ring.
  - destruct ((0 <=? f - ps) && (f - ps <? n)) eqn:E; [|reflexivity].
    assert (false = true) by (apply H7; lia). discriminate.
Qed.

Lemma filter_inner_other N T ls lm d d' r t k f :
  0 <= N < 2 ^ 63 -> signed_rate T r -> 0 <= t < T -> 0 <= k -> fits N r t k -> 0 <= f < N -> d <> d' ->
  filter (fun a => a_plane a =? d * N + f) (cpu_inner N ls lm d' r t k) = [].
Proof.
  intros HN Hs Ht Hk Hf Hfr Hd. unfold cpu_inner.
  destruct (cpu_window N r t k) as ((ps & ss) & n) eqn:Ew.
  destruct (window_ok N T r t k ps ss n Hs Ht Hk Hf HN Ew) as (E1 & H1 & H2 & H3 & H4 & H5 & H6).
  rewrite E1, filter_map_swap. cbn [a_plane].
  rewrite (filter_ext_in _ (fun _ => false)).
  - clear. induction (zrange n) as [|x l IH]; cbn; auto.
  - intros j Hj. apply in_zrange in Hj. nia.
Qed.

Lemma filter_list_prod {A B} (p : A * B -> bool) l m :
  filter p (list_prod l m) = flat_map (fun x => map (pair x) (filter (fun y => p (x, y)) m)) l.
Proof.
  induction l as [|x l IH]; cbn; [reflexivity|]. rewrite filter_app, IH, filter_map_swap. reflexivity.
Qed.

Lemma flat_map_if {A B} (p : A -> bool) (g : A -> B) l :
  flat_map (fun x => if p x then [g x] else []) l = map g (filter p l).
Proof. induction l as [|x l IH]; cbn; [reflexivity|]. destruct (p x); cbn; now rewrite IH. Qed.

Lemma flat_map_none {A B} (l : list A) : flat_map (fun _ => @nil B) l = [].
Proof. induction l; cbn; auto. Qed.

(** Contribution of one element of an indexed list. *)
Lemma flat_map_combine_one {A B} (g : Z * A -> list B) (l : list A) d r :
  znth l d = Some r -> (forall d' r', d' <> d -> znth l d' = Some r' -> g (d', r') = []) ->
  flat_map g (combine (zrange (zlen l)) l) = g (d, r).
Proof.
  intros Hd Ho.
  assert (G : forall (l : list A) s, 
    (forall d' r', d' <> d -> Z.of_nat s <= d' -> nth_error l (Z.to_nat d' - s) = Some r' -> g (d', r') = []) ->
    (Z.of_nat s <= d -> nth_error l (Z.to_nat d - s) = Some r -> flat_map g (combine (map Z.of_nat (seq s (length l))) l) = g (d, r))
    /\ (d < Z.of_nat s -> flat_map g (combine (map Z.of_nat (seq s (length l))) l) = [])).
  { clear. induction l as [|y l IH]; intros s H.
    - split; [|reflexivity]. intros _ E. destruct (Z.to_nat d - s)%nat; discriminate.
    - destruct (IH (S s)) as (I1 & I2).
      { intros d' r' Hne Hle E. apply H; [auto|lia|]. replace (Z.to_nat d' - s)%nat with (S (Z.to_nat d' - S s)) by lia. exact E. }
      cbn [length seq map combine flat_map]. split.
      + intros Hle E. destruct (Z.eq_dec d (Z.of_nat s)) as [Heq|Hne].
        * rewrite I2 by lia. replace (Z.to_nat d - s)%nat with O in E by lia. cbn in E. injection E as ->.
          rewrite app_nil_r. now rewrite Heq.
        * replace (Z.to_nat d - s)%nat with (S (Z.to_nat d - S s)) in E by lia. cbn in E.
          rewrite I1 by (try lia; exact E). rewrite (H (Z.of_nat s) y); [reflexivity|lia|lia|].
          replace (Z.to_nat (Z.of_nat s) - s)%nat with O by lia. reflexivity.
      + intros Hlt. rewrite I2 by lia. rewrite (H (Z.of_nat s) y); [reflexivity|lia|lia|].
        replace (Z.to_nat (Z.of_nat s) - s)%nat with O by lia. reflexivity. }
  destruct (G l O) as (G1 & _).
  { intros d' r' Hne Hle E. apply Ho; [auto|]. unfold znth. replace (d' <? 0) with false by lia.
    rewrite Nat.sub_0_r in E. exact E. }
  unfold zrange, zlen. rewrite Nat2Z.id. apply G1; pose proof (znth_len _ _ _ Hd); [lia|].
  rewrite Nat.sub_0_r. unfold znth in Hd. destruct (d <? 0); [discriminate|exact Hd].
Qed.

Lemma filter_trace N T ls lm rates d r f :
  0 <= N < 2 ^ 63 -> Forall (signed_rate T) rates -> Forall (fits_band N T) rates ->
  znth rates d = Some r -> 0 <= f < N ->
  filter (fun a => a_plane a =? d * N + f) (cpu_trace N T ls lm rates)
  = map (track_access N ls lm d r f) (filter (contributes N r f) (track_steps T r)).
Proof.
  intros HN Hs Hf Hd Hfr. unfold cpu_trace. rewrite filter_flat_map.
  assert (Hget : forall d' r', znth rates d' = Some r' -> In r' rates).
  { intros d' r' E. unfold znth in E. destruct (d' <? 0); [discriminate|]. eapply nth_error_In; eauto. }
  rewrite Forall_forall in Hs, Hf.
  rewrite (flat_map_combine_one _ rates d r Hd).
  - unfold track_steps. rewrite filter_list_prod, map_flat_map, filter_flat_map.
    apply flat_map_ext_in. intros t Ht. apply in_zrange in Ht.
    rewrite filter_flat_map. rewrite map_map, <- flat_map_if.
    apply flat_map_ext_in. intros k Hk. apply in_zrange in Hk.
    apply (filter_inner N T); [lia|eauto|lia|lia|eapply Hf; eauto|lia].
  - intros d' r' Hne E. rewrite filter_flat_map. rewrite (flat_map_ext_in _ (fun _ => [])); [apply flat_map_none|].
    intros t Ht. apply in_zrange in Ht. rewrite filter_flat_map.
    rewrite (flat_map_ext_in _ (fun _ => [])); [apply flat_map_none|]. intros k Hk. apply in_zrange in Hk.
    apply (filter_inner_other N T); [lia|eauto|lia|lia|eapply Hf; eauto|lia|congruence].
Qed.

(** ** Counters *)
Lemma fold_bump flag (g : access -> Z) l : forall c, 0 <= c < 256 ->
  fold_left (fun acc a => bump flag (g a) acc) l c
  = (c + zlen (filter (fun a => negb (Z.land (g a) flag =? 0)) l)) mod 256.
Proof.
  induction l as [|a l IH]; intros c Hc; cbn [fold_left filter].
  - unfold zlen. cbn [length]. rewrite Z.add_0_r, Z.mod_small; auto.
  - unfold bump at 2. destruct (Z.land (g a) flag =? 0); cbn [negb].
    + now apply IH.
    + unfold to_uint8. rewrite IH by (apply Z.mod_pos_bound; lia).
      unfold zlen. cbn [length]. rewrite Zplus_mod_idemp_l. f_equal. lia.
Qed.

Lemma znth_zero {B} (v : B) (n i : Z) : 0 <= i < n -> znth (map (fun _ : Z => v) (zrange n)) i = Some v.
Proof.
  intros H. unfold znth. replace (i <? 0) with false by lia. rewrite nth_error_map, nth_error_zrange by lia.
  reflexivity.
Qed.

Lemma zero_sized {F} (fzero : F) cells : 0 <= cells -> sized cells (zero_planes fzero cells).
Proof.
  intros H. unfold sized, zero_planes. cbn. unfold zlen. rewrite !map_length.
  pose proof (zrange_length cells) as Hl. unfold zlen in Hl. lia.
Qed.

Section CpuMain.
  Context {F : Type} (fzero : F) (fadd : F -> F -> F) (fdivz : F -> Z -> F).

  Lemma track_values {V} (S : Z -> Z -> V) N T r f (g : Z -> V) s0 s1 :
    (forall t c, 0 <= t < T -> 0 <= c < N -> g (t * s0 + c * s1) = S t c) ->
    forall tk, In tk (filter (contributes N r f) (track_steps T r)) ->
    g (fst tk * s0 + track_channel r f (fst tk) (snd tk) * s1) = S (fst tk) (track_channel r f (fst tk) (snd tk)).
  Proof.
    intros H (t & k) Hin. apply filter_In in Hin as (Hin & Hc). unfold track_steps in Hin.
    apply in_prod_iff in Hin as (Ht & Hk). apply in_zrange in Ht. unfold contributes in Hc. cbn [fst snd] in *.
    apply H; [auto|]. lia.
  Qed.

  (** The plane and the counters computed by the CPU kernel. *)
  Theorem cpu_exact ls lm (spec : mem F) (mask : mem Z) rates T N S M :
    holds ls spec T N S -> holds lm mask T N M -> 0 <= N < 2 ^ 63 ->
    Forall (signed_rate T) rates -> Forall (fits_band N T) rates ->
    exists st, integrate_cpu fzero fadd fdivz ls lm spec mask rates = Ok st /\
      sized (zlen rates * N) st /\
      forall d r f, znth rates d = Some r -> 0 <= f < N ->
        let bins := track N T r f in
        at_cell st (d * N + f)
          (fdivz (lsum fadd fzero (map (fun tc => fdivz (S (fst tc) (snd tc)) (r_desmear r)) bins)) T)
          (flagged flag_low_sk M bins mod 256) (flagged flag_high_sk M bins mod 256)
          (flagged flag_rolloff M bins mod 256).
  Proof.
    intros Hsp Hm HN Hs Hf. unfold integrate_cpu.
    assert (Esh : l_shape ls = [T; N]) by apply Hsp. rewrite Esh.
    set (L := zlen rates * N). assert (HL : 0 <= L) by (unfold L, zlen; nia).
    assert (HG : Forall (good_access spec mask L) (cpu_trace N T ls lm rates)).
    { apply Forall_forall. intros a Ha. apply in_cpu_trace in Ha as (d & r & t & k & Hd & Ht & Hk & Hin).
      pose proof (znth_len _ _ _ Hd) as Hdl.
      assert (Hr : In r rates).
      { unfold znth in Hd. destruct (d <? 0); [discriminate|]. eapply nth_error_In; eauto. }
      rewrite Forall_forall in Hs, Hf.
      destruct (inner_good spec mask ls lm T N S M d (zlen rates) r t k a Hsp Hm HN (Hs r Hr) Ht
                  (proj1 Hk) (Hf r Hr t k Ht Hk) Hdl Hin) as (f & c & Hfr & Hc & E1 & E2 & E3 & _ & _).
      unfold good_access. rewrite E1, E2, E3. split; [unfold L; nia|].
      split; eapply znth_len; eapply holds_read; eauto. }
    destruct (run_ok fzero fadd fdivz spec mask L _ (zero_planes fzero L) (zero_sized fzero L HL) HG)
      as (st & E & Sz & V). rewrite E. cbn [obind]. eexists; split; [reflexivity|].
    split. { destruct Sz as (Z1 & Z2 & Z3 & Z4). unfold sized, normalise. cbn. repeat split; auto.
             unfold zlen in *. rewrite map_length. exact Z1. }
    intros d r f Hd Hfr. set (bins := track N T r f). pose proof (znth_len _ _ _ Hd) as Hdl.
    assert (Hi : 0 <= d * N + f < L) by (unfold L; nia).
    specialize (V (d * N + f) fzero 0 0 0).
    assert (Q : at_cell (zero_planes fzero L) (d * N + f) fzero 0 0 0).
    { unfold at_cell, zero_planes. cbn. repeat split; apply znth_zero; auto. }
    specialize (V Q). cbv zeta in V. rewrite (filter_trace N T ls lm rates d r f HN Hs Hf Hd Hfr) in V.
    assert (Rs : forall tk, In tk (filter (contributes N r f) (track_steps T r)) ->
       match znth spec (fst tk * stride ls 0 + track_channel r f (fst tk) (snd tk) * stride ls 1) with
       | Some x => x | None => fzero end = S (fst tk) (track_channel r f (fst tk) (snd tk))).
    { apply (track_values S N T r f (fun i => match znth spec i with Some x => x | None => fzero end)).
      intros t c Ht Hc. now rewrite (holds_read _ _ _ _ _ Hsp). }
    assert (Rm : forall tk, In tk (filter (contributes N r f) (track_steps T r)) ->
       match znth mask (fst tk * stride lm 0 + track_channel r f (fst tk) (snd tk) * stride lm 1) with
       | Some x => x | None => 0 end = M (fst tk) (track_channel r f (fst tk) (snd tk))).
    { apply (track_values M N T r f (fun i => match znth mask i with Some x => x | None => 0 end)).
      intros t c Ht Hc. now rewrite (holds_read _ _ _ _ _ Hm). }
    assert (Fl : forall flag, fold_left (put_flag mask flag) 
        (map (track_access N ls lm d r f) (filter (contributes N r f) (track_steps T r))) 0
        = flagged flag M bins mod 256).
    { intros flag. unfold put_flag. rewrite (fold_bump flag (fun a => match znth mask (a_mask a) with Some x => x | None => 0 end)) by lia.
      rewrite Z.add_0_l. f_equal. unfold flagged, bins, track. rewrite !filter_map_swap. unfold zlen. rewrite !map_length. do 2 f_equal.
      apply filter_ext_in. intros tk Htk. unfold track_access. cbn [a_mask fst snd]. now rewrite Rm. }
    rewrite !Fl in V. destruct V as (V1 & V2 & V3 & V4). unfold at_cell, normalise. cbn [p_sum p_low p_high p_roll].
    repeat split; auto.
    revert V1. unfold znth. destruct (d * N + f <? 0) eqn:Eneg; [discriminate|]. intros V1.
    rewrite nth_error_map, V1. cbn [option_map]. do 2 f_equal. unfold lsum, bins, track.
    rewrite map_map.
    assert (G : forall l z, (forall tk, In tk l -> In tk (filter (contributes N r f) (track_steps T r))) ->
       fold_left (put_sum fzero fadd fdivz spec) (map (track_access N ls lm d r f) l) z
       = fold_left fadd (map (fun x => fdivz (S (fst x) (track_channel r f (fst x) (snd x))) (r_desmear r)) l) z).
    { induction l as [|tk l IH]; intros z Hl; cbn [map fold_left]; [reflexivity|].
      rewrite IH by (intros; apply Hl; cbn; auto). f_equal. unfold put_sum, track_access. cbn [a_spec a_des fst snd].
      rewrite Rs by (apply Hl; cbn; auto). reflexivity. }
    rewrite G by auto. reflexivity.
  Qed.

  (** Rows: every access belongs to the plane row of its drift and to the spectrum row of its time. *)
  Theorem cpu_rows ls lm (spec : mem F) (mask : mem Z) rates T N S M :
    holds ls spec T N S -> holds lm mask T N M -> 0 <= N < 2 ^ 63 ->
    Forall (signed_rate T) rates -> Forall (fits_band N T) rates ->
    forall a, In a (cpu_trace N T ls lm rates) ->
      exists d t f c, 0 <= d < zlen rates /\ 0 <= t < T /\ 0 <= f < N /\ 0 <= c < N /\
        a_plane a = cell (dense [zlen rates; N]) [d; f] /\
        a_spec a = cell ls [t; c] /\ a_mask a = cell lm [t; c].
  Proof.
    intros Hsp Hm HN Hs Hf a Ha. apply in_cpu_trace in Ha as (d & r & t & k & Hd & Ht & Hk & Hin).
    pose proof (znth_len _ _ _ Hd) as Hdl.
    assert (Hr : In r rates).
    { unfold znth in Hd. destruct (d <? 0); [discriminate|]. eapply nth_error_In; eauto. }
    rewrite Forall_forall in Hs, Hf.
    destruct (inner_good spec mask ls lm T N S M d (zlen rates) r t k a Hsp Hm HN (Hs r Hr) Ht
                (proj1 Hk) (Hf r Hr t k Ht Hk) Hdl Hin) as (f & c & Hfr & Hc & E1 & E2 & E3 & _ & _).
    exists d, t, f, c. rewrite (holds_cell _ _ _ _ _ Hsp), (holds_cell _ _ _ _ _ Hm).
    repeat split; try lia. rewrite E1. unfold cell, dense. cbn. lia.
  Qed.

  (** A rate that does not fit makes the kernel run outside its arrays. *)
  Theorem cpu_unsafe ls lm (spec : mem F) (mask : mem Z) rates T N d r t k :
    l_shape ls = [T; N] -> 0 <= N -> zlen rates * N < 2 ^ 62 -> 
    Forall (signed_rate T) rates -> znth rates d = Some r -> 0 <= t < T -> 0 <= k < r_desmear r ->
    - 2 ^ 31 <= r_off r t < 2 ^ 31 -> - 2 ^ 31 <= r_span r < 2 ^ 31 -> r_desmear r < 2 ^ 31 ->
    ~ fits N r t k -> integrate_cpu fzero fadd fdivz ls lm spec mask rates = UB.
  Proof.
    intros Esh HN HL Hs Hd Ht Hk B1 B2 B3 Hnf. unfold integrate_cpu. rewrite Esh.
    pose proof (znth_len _ _ _ Hd) as Hdl.
    rewrite (run_ub fadd fdivz spec mask _ _ (zlen rates * N)); [reflexivity| |].
    - unfold zero_planes. cbn. unfold zlen at 1. rewrite map_length.
      pose proof (zrange_length (zlen rates * N)) as Hl. unfold zlen in *. nia.
    - apply Exists_exists.
      assert (Hr : In r rates).
      { unfold znth in Hd. destruct (d <? 0); [discriminate|]. eapply nth_error_In; eauto. }
      rewrite Forall_forall in Hs. specialize (Hs r Hr t Ht).
      destruct (cpu_window N r t k) as ((ps & ss) & n) eqn:Ew.
      assert (Hps : 0 <= ps <= 2 ^ 33 /\ - 2 ^ 33 <= n < 0).
      { unfold cpu_window, fits in *. destruct (r_nonneg r).
        - injection Ew as <- <- <-. lia.
        - destruct (- r_span r + (r_off r t - k) <? 0) eqn:Es; injection Ew as <- <- <-; lia. }
      assert (Hn : as_size_t n = n + 2 ^ 64).
      { unfold as_size_t. symmetry. apply Z.mod_unique with (q := -1); lia. }
      set (j := zlen rates * N).
      exists (Access (r_desmear r) (d * N + ps * 1 + j * 1) (t * stride ls 0 + ss * stride ls 1 + j * stride ls 1)
                     (t * stride lm 0 + ss * stride lm 1 + j * stride lm 1)).
      split; [|cbn [a_plane]; subst j; nia].
      apply in_cpu_trace. exists d, r, t, k. repeat (split; [auto; fail|]). unfold cpu_inner. rewrite Ew.
      apply in_map_iff. exists j. split; [reflexivity|]. apply in_zrange. rewrite Hn. subst j. unfold zlen in *. nia.
  Qed.
End CpuMain.
