(** The fill kernel. *)
From Verif Require Export GelProofs.
From Coq Require Import ZifyBool ZifyNat Lia Permutation.
Local Open Scope Z_scope.

Lemma fill_blocks_range n : 0 < n -> 1 <= fill_blocks n <= 256.
Proof.
  intros H. unfold fill_blocks. rewrite Z.quot_div_nonneg by lia. assert (1 <= (n + 255) / 256) by (apply Z.div_le_lower_bound; lia). lia.
Qed.

Local Notation writes := GpuScatter.writes.

Section F.
  Context {A B V : Type}.
  Notation val := (evalue A B V).
  Notation prog := (eprog A B V).
  Variables (addV : val -> val -> val) (ma : mem A) (mb : mem B) (mo : mem V) (lo : layout) (shared : Z) (junk : Z -> Z -> Z) (v : V).
  Hypotheses (Hw : wf lo) (Hpos : posl (l_shape lo)) (Hsmall : zprod (l_shape lo) < 2 ^ 31) (Hdim : zlen (l_shape lo) <= 4)
    (Hshared : 2 * zlen (l_shape lo) <= shared) (Hin : inside lo (zlen mo)) (Hsep : separate lo).
  Let sh := l_shape lo.
  Let st := l_strides lo.
  Let N := zprod sh.
  Let G := fill_blocks N.
  Let n := zlen sh.
  Let m0 : gpumem (A := eaddr) (V := val) := emem0 ma mb mo G shared junk.

  Lemma shared_ints_writes (RO : eaddr -> Prop) m e b ws : forall zs i (k : list Z -> prog),
    (forall j, 0 <= j < zlen zs -> RO (ESh b (i + j)) /\ m (ESh b (i + j)) = Some (XZ (getz zs j))) ->
    writer RO m e (k zs) ws -> writer RO m e (shared_ints b i (length zs) k) ws.
  Proof.
    induction zs as [|z zs IH]; intros i k Hz Hk; cbn [shared_ints length]; [exact Hk|].
    assert (H0 : 0 <= 0 < zlen (z :: zs)) by (unfold zlen; cbn [length]; lia).
    destruct (Hz 0 H0) as (R0 & E0). rewrite Z.add_0_r in R0, E0.
    eapply (wr_rd _ _ _ _ _ (XZ z)); [exact R0|exact E0|].
    apply IH; [|exact Hk]. intros j Hj. assert (Hj' : 0 <= j + 1 < zlen (z :: zs)) by (unfold zlen in *; cbn [length]; lia).
    destruct (Hz (j + 1) Hj') as (R1 & E1). replace (i + (j + 1)) with (i + 1 + j) in R1, E1 by lia. split; [exact R1|]. rewrite E1.
    unfold getz. replace (Z.to_nat (j + 1)) with (S (Z.to_nat j)) by lia. reflexivity.
  Qed.

  Definition fcell (w : Z) : eaddr := EO (cell lo (oix sh w)).
  Lemma fill_items_writes (RO : eaddr -> Prop) m grid : 0 < grid -> forall k w, 0 <= w -> (forall x, In x (steps_from k w grid) -> m (fcell x) <> None) ->
    writer RO m BRet (fill_items (A := A) (B := B) v (zsum (l_offsets lo)) sh st k w grid) (map (fun x => (fcell x, XO v)) (steps_from k w grid)).
  Proof.
    intros Hg. induction k as [|k IH]; intros w Hw0 Hm; cbn [fill_items steps_from map]; [constructor|].
    rewrite unflat_oix by auto. rewrite <- cell_lin by (auto; apply in_range_length, oix_range; auto).
    constructor; [apply (Hm w); now left|]. apply IH; [lia|]. intros x Hx. apply Hm. now right.
  Qed.

  Definition fload (b t : Z) : list (eaddr * val) :=
    if t <? n then [(ESh b t, XZ (getz sh t)); (ESh b (n + t), XZ (getz st t))] else [].
  Definition fput (b t : Z) : list (eaddr * val) := map (fun x => (fcell x, XO v)) (taken N (G * 256) (b * 256 + t)).
  Definition loads (b : Z) : list (list (eaddr * val)) := map (fload b) (zrange 256).
  Definition puts (b : Z) : list (list (eaddr * val)) := map (fput b) (zrange 256).
  Definition m1 (b : Z) : gpumem (A := eaddr) (V := val) := put_all eaddr_eqb (concat (loads b)) m0.
  Definition m2 (b : Z) : gpumem (A := eaddr) (V := val) := put_all eaddr_eqb (concat (puts b)) (m1 b).
  Definition frest (b t : Z) : prog :=
    shared_ints b 0 (length sh) (fun sh' => shared_ints b n (length sh) (fun st' =>
      fill_items v (zsum (l_offsets lo)) sh' st' (iterations (b * 256 + t) N (G * 256)) (b * 256 + t) (G * 256))).

  Lemma in_writes {X} (f : X -> list (eaddr * val)) l a : In a (writes (map f l)) <-> exists x, In x l /\ In a (map fst (f x)).
  Proof.
    unfold writes. rewrite concat_flat, map_flat. rewrite in_flat_map. reflexivity.
  Qed.
  Lemma load_addr b a : In a (writes (loads b)) -> exists i, 0 <= i < 2 * n /\ a = ESh b i.
  Proof.
    unfold loads. rewrite in_writes. intros (t & Ht & Ha). apply in_zrange in Ht. unfold fload in Ha.
    destruct (t <? n) eqn:E; cbn in Ha; [|tauto]. destruct Ha as [<-|[<-|[]]]; eexists; (split; [|reflexivity]); lia.
  Qed.
  Lemma load_nodup b : NoDup (writes (loads b)).
  Proof.
    unfold writes, loads. rewrite concat_flat, map_flat. apply nodup_flat; [apply zrange_nodup| |].
    - intros t Ht. apply in_zrange in Ht. unfold fload. destruct (t <? n) eqn:E; cbn; [|constructor].
      constructor; [|constructor; [intros []|constructor]]. intros [E'|[]]. injection E'. lia.
    - intros x y z Hx Hy H1 H2. apply in_zrange in Hx, Hy. unfold fload in *.
      destruct (x <? n) eqn:E1; [|destruct H1]. destruct (y <? n) eqn:E2; [|destruct H2]. cbn in H1, H2.
      destruct H1 as [<-|[<-|[]]], H2 as [E|[E|[]]]; injection E; lia.
  Qed.
  Lemma m1_shared b t : 0 <= t < n -> m1 b (ESh b t) = Some (XZ (getz sh t)) /\ m1 b (ESh b (n + t)) = Some (XZ (getz st t)).
  Proof.
    intros Ht. unfold m1. assert (H : forall u, In u (fload b t) -> In u (concat (loads b))).
    { intros u Hu. unfold loads. rewrite concat_flat. apply in_flat_map. exists t. split; [apply in_zrange; pose proof Hdim; unfold n, sh in *; lia|exact Hu]. }
    unfold fload in H. replace (t <? n) with true in H by lia.
    split; (apply put_all_in; [exact eaddr_eqb_spec|exact addV|exact (load_nodup b)|apply H; cbn; auto]).
  Qed.
  Lemma m1_out b c : m1 b (EO c) = m0 (EO c).
  Proof.
    unfold m1. apply put_all_other; [exact eaddr_eqb_spec|exact addV|]. intros H. change (In (EO c) (writes (loads b))) in H.
    apply load_addr in H as (i & _ & E). discriminate.
  Qed.
  Lemma N_pos : 0 < N.
  Proof. pose proof (zprod_posl _ Hpos). unfold N, sh. lia. Qed.
  Lemma fcell_valid w : m0 (fcell w) <> None.
  Proof.
    unfold fcell, m0. cbn. pose proof (Hin (oix sh w) (oix_range _ _ Hpos)) as H. destruct (znth_some mo _ H) as (x & E). rewrite E. discriminate.
  Qed.
  Lemma fcell_inj x y : 0 <= x < N -> 0 <= y < N -> fcell x = fcell y -> x = y.
  Proof.
    intros Hx Hy E. unfold fcell in E. injection E as E. apply Hsep in E; [|apply oix_range; auto|apply oix_range; auto].
    rewrite <- (oix_cell sh x), <- (oix_cell sh y) by auto. now rewrite E.
  Qed.
  Lemma all_taken : Permutation (flat_map (fun b => flat_map (fun t => taken N (G * 256) (b * 256 + t)) (zrange 256)) (zrange G)) (zrange N).
  Proof.
    pose proof N_pos. pose proof (fill_blocks_range N N_pos) as HG. fold G in HG.
    rewrite <- (taken_once N (G * 256)) by lia. rewrite <- (workers_range G 256) by lia. rewrite flat_map_flat.
    erewrite perm_flat_ext; [reflexivity|]. intros b _. cbn. now rewrite flat_map_map.
  Qed.
  Lemma taken_in b t x : 0 <= b < G -> 0 <= t < 256 -> In x (taken N (G * 256) (b * 256 + t)) -> 0 <= x < N.
  Proof.
    intros Hb Ht Hx. apply in_zrange. eapply Permutation_in; [apply all_taken|]. apply in_flat_map. exists b. split; [apply in_zrange; lia|].
    apply in_flat_map. exists t. split; [apply in_zrange; lia|exact Hx].
  Qed.
  Lemma put_addr b a : 0 <= b < G -> In a (writes (puts b)) ->
    exists t x, 0 <= t < 256 /\ In x (taken N (G * 256) (b * 256 + t)) /\ a = fcell x.
  Proof.
    intros Hb. unfold puts. rewrite in_writes. intros (t & Ht & Ha). apply in_zrange in Ht. unfold fput in Ha. rewrite map_map in Ha. cbn in Ha.
    apply in_map_iff in Ha as (x & <- & Hx). eauto.
  Qed.
  Lemma same_worker b t b' t' x : 0 <= b < G -> 0 <= t < 256 -> 0 <= b' < G -> 0 <= t' < 256 ->
    In x (taken N (G * 256) (b * 256 + t)) -> In x (taken N (G * 256) (b' * 256 + t')) -> b = b' /\ t = t'.
  Proof.
    intros Hb Ht Hb' Ht' H1 H2. unfold taken in *. rewrite in_steps in H1, H2 by lia. destruct H1 as (q & _ & ->), H2 as (q' & _ & E).
    assert (q = q') by nia. nia.
  Qed.
  Lemma put_nodup b : 0 <= b < G -> NoDup (writes (puts b)).
  Proof.
    intros Hb. unfold writes, puts. rewrite concat_flat, map_flat. apply nodup_flat; [apply zrange_nodup| |].
    - intros t Ht. apply in_zrange in Ht. unfold fput. rewrite map_map. cbn.
      assert (K : forall l, NoDup l -> (forall x, In x l -> 0 <= x < N) -> NoDup (map fcell l)).
      { induction l as [|x l IH]; intros Hn Hl; cbn; constructor; inversion Hn; subst.
        - intros Hi. apply in_map_iff in Hi as (y & E & Hy). apply fcell_inj in E; [subst; auto|apply Hl; now right|apply Hl; now left].
        - apply IH; auto. intros; apply Hl; now right. }
      apply K; [apply nodup_steps; lia|]. intros x. apply taken_in; lia.
    - intros t t' z Ht Ht' H1 H2. apply in_zrange in Ht, Ht'. unfold fput in *. rewrite map_map in H1, H2. cbn in H1, H2.
      apply in_map_iff in H1 as (x & <- & Hx). apply in_map_iff in H2 as (y & E & Hy).
      apply fcell_inj in E; [|eapply taken_in; [| |exact Hy]; lia|eapply taken_in; [| |exact Hx]; lia]. subst y.
      destruct (same_worker b t b t' x); auto; lia.
  Qed.

  Definition fD (b : Z) (a : eaddr) : Prop := (exists i, 0 <= i < 2 * n /\ a = ESh b i) \/ In a (writes (puts b)).

  Lemma nth_map_zrange {X} (f : Z -> X) k i x : nth_error (map f (zrange k)) i = Some x -> x = f (Z.of_nat i) /\ 0 <= Z.of_nat i < k.
  Proof.
    intros H. rewrite nth_error_map in H. destruct (nth_error (zrange k) i) as [y|] eqn:E; [|discriminate]. cbn in H. injection H as <-.
    pose proof (nth_error_In _ _ E) as Hi. apply in_zrange in Hi. unfold zrange in E. rewrite nth_error_map in E.
    destruct (nth_error (seq 0 (Z.to_nat k)) i) as [q|] eqn:Eq; [|discriminate]. cbn in E. injection E as <-.
    assert (i < length (seq 0 (Z.to_nat k)))%nat by (apply nth_error_Some; congruence). rewrite seq_length in H.
    rewrite (nth_error_nth' _ 0%nat) in Eq by (rewrite seq_length; lia). rewrite seq_nth in Eq by lia. injection Eq as <-. cbn. split; [reflexivity|]. lia.
  Qed.

  Lemma fill_block b : 0 <= b < G ->
    blockrun eaddr_eqb (fun _ => False) (fD b) (fD b) m0 (map (fill_thread v (zsum (l_offsets lo)) sh st N b) (zrange 256)) (m2 b) [].
  Proof.
    intros Hb. assert (Hn0 : 0 <= n) by (unfold n, zlen; lia).
    set (ts1 := map (fun we => wtinfo (fun _ => False) (fst we) (snd we)) (combine (loads b) (map (fun t => BBar (frest b t)) (zrange 256)))).
    set (ts2 := map (fun we => wtinfo (fun a => exists i, 0 <= i < 2 * n /\ a = ESh b i) (fst we) (snd we))
                  (combine (puts b) (map (fun _ : Z => @BRet eaddr val) (zrange 256)))).
    assert (Hlog : forall R l, flat_map tlog (map (fun we : list (eaddr * val) * prog => wtinfo R (fst we) (snd we)) l) = []).
    { clear. induction l; cbn; auto. }
    replace (@nil (eaddr * val)) with (flat_map tlog ts1 ++ flat_map tlog ts2) by (unfold ts1, ts2; rewrite !Hlog; reflexivity).
    assert (L256 : length (zrange 256) = 256%nat) by reflexivity.
    apply br_next with (m1 := m1 b) (qs := map (frest b) (zrange 256)).
    - apply phase_writes; [exact eaddr_eqb_spec|exact addV|..].
      + unfold loads. now rewrite !map_length.
      + now rewrite !map_length.
      + intros i p ws e Hp Hws He. apply nth_map_zrange in Hp as (-> & Hi). apply nth_map_zrange in Hws as (-> & _). apply nth_map_zrange in He as (-> & _).
        split; [right; eauto|]. unfold fill_thread, fill_load, fload. fold n. destruct (Z.of_nat i <? n) eqn:E; [|constructor].
        constructor; [|constructor; [|constructor]]; unfold m0; cbn; unfold n, sh in *;
          (match goal with |- (if ?c then _ else _) <> None => replace c with true by lia end); discriminate.
      + apply load_nodup.
      + intros a _ [].
      + intros a [].
      + intros a Ha. apply load_addr in Ha. split; left; exact Ha.
    - intros E. apply (f_equal (@length _)) in E. rewrite map_length, L256 in E. discriminate.
    - unfold ts1, loads. rewrite map_map. cbn. rewrite map_map. clear. induction (zrange 256) as [|t l IH]; cbn; congruence.
    - apply br_last.
      + apply phase_writes; [exact eaddr_eqb_spec|exact addV|..].
        * unfold puts. now rewrite !map_length.
        * now rewrite !map_length.
        * intros i p ws e Hp Hws He. apply nth_map_zrange in Hp as (-> & Hi). apply nth_map_zrange in Hws as (-> & _). apply nth_map_zrange in He as (-> & _).
          split; [left; reflexivity|]. unfold frest, fput, taken.
          apply shared_ints_writes.
          { intros j Hj. split; [exists (0 + j); split; [unfold n; lia|reflexivity]|]. rewrite Z.add_0_l. apply m1_shared. exact Hj. }
          replace (length sh) with (length st) by (exact (proj1 Hw)). apply shared_ints_writes.
          { intros j Hj. assert (0 <= j < n) by (unfold n, zlen in *; unfold st, sh in *; rewrite (proj1 Hw) in Hj; lia).
            split; [exists (n + j); split; [lia|reflexivity]|]. now apply m1_shared. }
          apply fill_items_writes; [pose proof (fill_blocks_range N N_pos) as HGr; fold G in HGr; lia|lia|].
          intros x _. unfold fcell. rewrite m1_out. apply fcell_valid.
        * apply put_nodup. exact Hb.
        * intros a Ha. apply put_addr in Ha as (t & x & _ & _ & ->); [|exact Hb]. intros (i & _ & E). discriminate.
        * intros a Ha. left. exact Ha.
        * intros a Ha. split; right; exact Ha.
      + unfold ts2. apply Forall_forall. intros t Ht. apply in_map_iff in Ht as ((w & e) & <- & Ht). cbn. apply in_combine_r in Ht.
        apply in_map_iff in Ht as (? & <- & _). reflexivity.
  Qed.

  Definition finfo (b : Z) : @binfo eaddr val := Binfo (fD b) (fD b) (m2 b) [].
  Theorem fill_grid :
    gpu_final eaddr_eqb addV m0 (map (fun b => map (fill_thread v (zsum (l_offsets lo)) sh st N b) (zrange 256)) (zrange G))
      (fun m => (forall idx, in_range sh idx -> m (EO (cell lo idx)) = Some (XO v)) /\
                (forall c, outside_view lo c -> m (EO c) = option_map XO (znth mo c)) /\
                (forall i, m (EA i) = option_map XA (znth ma i)) /\ (forall i, m (EB i) = option_map XB (znth mb i))).
  Proof.
    pose proof (fill_blocks_range N N_pos) as HG. fold G in HG.
    destruct (grid_correct eaddr_eqb eaddr_eqb_spec addV (fun _ => False) m0
      (map (fun b => map (fill_thread v (zsum (l_offsets lo)) sh st N b) (zrange 256)) (zrange G)) (map finfo (zrange G))) as (H1 & H2).
    - apply Forall2_map_same. intros b Hb. apply in_zrange in Hb. unfold bok. cbn. apply fill_block. exact Hb.
    - intros i j x y Hi Hj Hne a Ha Hc. apply nth_map_zrange in Hi as (-> & Hi). apply nth_map_zrange in Hj as (-> & Hj). cbn in Ha, Hc.
      destruct Ha as [(p & _ & ->)|Ha], Hc as [(q & _ & E)|Hc].
      + injection E. lia.
      + apply put_addr in Hc as (t & x & _ & _ & E); [discriminate|exact Hj].
      + subst a. apply put_addr in Ha as (t & x & _ & _ & E); [discriminate|exact Hi].
      + apply put_addr in Ha as (t & x & Ht & Hx & ->); [|exact Hi]. apply put_addr in Hc as (t' & y & Ht' & Hy & E); [|exact Hj].
        apply fcell_inj in E; [|eapply taken_in; [| |exact Hx]; lia|eapply taken_in; [| |exact Hy]; lia]. subst y.
        destruct (same_worker (Z.of_nat i) t (Z.of_nat j) t' x); auto; lia.
    - apply Forall_forall. intros b _ a [].
    - intros a [].
    - split; [exact H1|]. intros o Ho. destruct (H2 o Ho) as (c & -> & Hc1 & Hc2). exists c. split; [reflexivity|]. split; [exact Hc1|].
      intros Hd. destruct (Hc2 Hd) as (K1 & _ & K3). rewrite Forall_forall in K1.
      assert (K4 : forall a, (forall b, 0 <= b < G -> ~ fD b a) -> fst c a = m0 a).
      { intros a Ha. destruct (K3 a (fun H => H)) as [E|E]; [exact E|]. exfalso. apply Exists_exists in E as (x & Hx & Hxa).
        apply in_map_iff in Hx as (b & <- & Hb). apply in_zrange in Hb. exact (Ha b Hb Hxa). }
      split; [|split; [|split]].
      + intros idx Hr.
        assert (Hx : exists x, 0 <= x < N /\ idx = oix sh x).
        { pose proof (proj1 (in_all_indices sh idx)) as Q. apply in_all_indices in Hr. rewrite all_indices_digits in Hr by exact Hpos.
          apply in_map_iff in Hr as (x & <- & Hx). apply in_zrange in Hx. exists x. split; [exact Hx|reflexivity]. }
        destruct Hx as (x & Hx & ->).
        assert (Hb : exists b t, 0 <= b < G /\ 0 <= t < 256 /\ In x (taken N (G * 256) (b * 256 + t))).
        { apply in_zrange in Hx. eapply Permutation_in in Hx; [|apply Permutation_sym, all_taken]. apply in_flat_map in Hx as (b & Hb & Hx).
          apply in_flat_map in Hx as (t & Ht & Hx). apply in_zrange in Hb, Ht. eauto. }
        destruct Hb as (b & t & Hb & Ht & Hxt).
        assert (Hu : In (fcell x, XO v) (concat (puts b))).
        { unfold puts. rewrite concat_flat. apply in_flat_map. exists t. split; [apply in_zrange; lia|]. unfold fput. apply in_map_iff. eauto. }
        rewrite (K1 (finfo b)); [|apply in_map; apply in_zrange; exact Hb|right; unfold writes; apply in_map_iff; exists (fcell x, XO v); auto].
        cbn. unfold m2. apply put_all_in; [exact eaddr_eqb_spec|exact addV|now apply put_nodup|exact Hu].
      + intros q Hq. rewrite K4; [reflexivity|]. intros b Hb [(i & _ & E)|H]; [discriminate|].
        apply put_addr in H as (t & x & _ & _ & E); [|exact Hb]. injection E as E. exact (Hq (oix sh x) (oix_range _ _ Hpos) (eq_sym E)).
      + intros i. rewrite K4; [reflexivity|]. intros b Hb [(j & _ & E)|H]; [discriminate|].
        apply put_addr in H as (t & x & _ & _ & E); [discriminate|exact Hb].
      + intros i. rewrite K4; [reflexivity|]. intros b Hb [(j & _ & E)|H]; [discriminate|].
        apply put_addr in H as (t & x & _ & _ & E); [discriminate|exact Hb].
  Qed.
End F.
