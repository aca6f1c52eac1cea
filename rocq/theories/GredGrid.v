(** The whole grid, and the value of an output in exact arithmetic. *)
From Verif Require Export GredProofs.
From Coq Require Import ZifyBool ZifyNat.
Ltac Zify.zify_post_hook ::= Z.div_mod_to_equations.
Local Open Scope Z_scope.

Lemma iterations_spec a z s q : 0 < s -> 0 <= q -> (q < Z.of_nat (iterations a z s) <-> a + s * q < z).
Proof.
  intros Hs Hq. unfold iterations. destruct (Z.lt_ge_cases (z - a) 1) as [H|H].
  - assert (Z.quot (z - a + s - 1) s <= 0).
    { destruct (Z.lt_ge_cases (z - a + s - 1) 0) as [N|N].
      - rewrite <- (Z.opp_involutive (z - a + s - 1)), Z.quot_opp_l by lia. pose proof (Z.quot_pos (- (z - a + s - 1)) s). lia.
      - rewrite Z.quot_small by lia. lia. }
    split; intros; nia.
  - rewrite Z.quot_div_nonneg by lia. rewrite Z2Nat.id by (apply Z.div_pos; lia).
    split; intros Hx.
    + assert (s * (q + 1) <= z - a + s - 1) by (transitivity (s * ((z - a + s - 1) / s)); [nia|apply Z.mul_div_le; lia]). lia.
    + apply Z.div_le_lower_bound with (a := z - a + s - 1) (b := s) (q := q + 1) in Hs as Hd; lia.
Qed.

Section Grid.
  Context {X S C Y : Type} (K : kernel X S C Y).
  Variables (osh ash ast mst axes : list Z) (rf B G : Z).
  Hypothesis (HP : posl ash) (HO : posl osh) (HB : 0 < B) (HG : 0 < G).
  Notation gv := (gval X S Y).
  Notation gm := (gpumem (A := gaddr) (V := gv)).
  Notation ost := (l_strides (dense osh)).
  Notation numel := (zprod osh).
  Variables (xv : Z -> Z -> X) (mv : Z -> Z -> Z).
  Notation outs i := (map (fun _ : S -> Y => oix osh i) (k_outs K)).
  (** The indices of all output arrays advance together. *)
  Hypothesis Hnext : forall i, 0 <= i -> i + G < numel -> next_outs K osh G (outs i) = outs (i + G).

  Definition comps (i : Z) (q : nat) (c : Z -> C) : Z -> C := snd (Nat.iter q (fun ic => (fst ic + G, carry K rf B xv mv (fst ic) (snd ic))) (i, c)).
  (** What thread 0 of the block stores for output i. *)
  Definition result (i : Z) : S := total K rf B xv mv i (comps (i mod G) (Z.to_nat (i / G)) (fun _ => k_comp K)) 0.

  Lemma comps_S i q c : comps i (Datatypes.S q) c = comps (i + G) q (carry K rf B xv mv i c).
  Proof.
    unfold comps. f_equal. assert (E : forall n (f : Z * (Z -> C) -> Z * (Z -> C)) x, Nat.iter (Datatypes.S n) f x = Nat.iter n f (f x)).
    { clear. intros n f x. induction n as [|n IH]; [reflexivity|]. change (f (Nat.iter (Datatypes.S n) f x) = f (Nat.iter n f (f x))). now rewrite IH. }
    rewrite E. reflexivity.
  Qed.

  Lemma keys_outs i : 0 <= i < numel -> forall fs k, out_keys ost k fs (map (fun _ : S -> Y => oix osh i) fs) = map (fun j => GOut (k + j) i) (zrange (zlen fs)).
  Proof.
    intros Hi. induction fs as [|f fs IH]; intros k; [reflexivity|]. unfold zlen. cbn [length]. cbn [map out_keys].
    rewrite zrange_cons by lia. cbn [map]. rewrite oix_cell by auto. rewrite IH, map_map. rewrite Z.add_0_r. f_equal.
    replace (Z.of_nat (Datatypes.S (length fs)) - 1) with (zlen fs) by (unfold zlen; lia). apply map_ext. intros j. f_equal. lia.
  Qed.

  Definition own (b : Z) (a : gaddr) : Prop := exists k i, a = GOut k i /\ 0 <= k < zlen (k_outs K) /\ 0 <= i < numel /\ i mod G = b.
  Lemma own_out b a : own b a -> exists k i, a = GOut k i.
  Proof. intros (k & i & -> & _). eauto. Qed.

  Lemma fut_own b n : forall i, 0 <= i -> i mod G = b -> (forall q, 0 <= q < Z.of_nat n -> i + G * q < numel) ->
    Forall (own b) (fut_keys K osh ost G n (outs i)).
  Proof.
    induction n as [|n IH]; intros i Hi Hm Hq; [constructor|]. cbn [fut_keys].
    apply Forall_app. split.
    - rewrite keys_outs by (specialize (Hq 0); lia). apply Forall_map, Forall_forall. intros j Hj. apply in_zrange in Hj.
      exists (0 + j), i. repeat split; auto; try lia. specialize (Hq 0). lia.
    - destruct n as [|n]; [constructor|]. rewrite Hnext by (specialize (Hq 1); lia). apply IH; [lia| |].
      + rewrite <- Hm. replace (i + G) with (i + 1 * G) by lia. apply Z.mod_add. lia.
      + intros q Hq'. specialize (Hq (q + 1)). lia.
  Qed.

  Lemma mout_cons (m : gm) a v ws : mout m ((a, v) :: ws) = mout (GpuModel.gset gaddr_eqb m a v) ws.
  Proof. reflexivity. Qed.

  Lemma ws_lookup i s : 0 <= i < numel -> forall fs k (m : gm) j f, nth_error fs j = Some f ->
    mout m (ws_of ost k fs (map (fun _ : S -> Y => oix osh i) fs) s) (GOut (k + Z.of_nat j) i) = Some (VY (f s)).
  Proof.
    intros Hi. induction fs as [|f0 fs IH]; intros k m [|j] f Hj; try discriminate; cbn [map ws_of].
    - cbn in Hj. injection Hj as ->. rewrite mout_cons.
      rewrite oix_cell by auto. rewrite (mout_other rf xv mv).
      + replace (k + Z.of_nat 0) with k by lia. apply gset_same'.
      + rewrite ws_keys, keys_outs by auto. intros Hx. apply in_map_iff in Hx as (x & E & Hx). apply in_zrange in Hx. injection E as E. lia.
    - cbn in Hj. rewrite mout_cons.
      replace (k + Z.of_nat (Datatypes.S j)) with ((k + 1) + Z.of_nat j) by lia. now apply IH.
  Qed.

  Lemma ws_all_lookup n : forall i c (m : gm) q j f, 0 <= i -> (forall q, 0 <= q < Z.of_nat n -> i + G * q < numel) -> (q < n)%nat -> nth_error (k_outs K) j = Some f ->
    mout m (all_ws K osh ost rf B G xv mv n (outs i) i c) (GOut (Z.of_nat j) (i + G * Z.of_nat q)) = 
    Some (VY (f (total K rf B xv mv (i + G * Z.of_nat q) (comps i q c) 0))).
  Proof.
    induction n as [|n IH]; intros i c m q j f Hi Hq Hn Hf; [lia|]. cbn [all_ws]. rewrite mout_app.
    assert (KEYS : forall n i' c', 0 <= i' -> (forall q, 0 <= q < Z.of_nat n -> i' + G * q < numel) -> forall x, In x (map fst (all_ws K osh ost rf B G xv mv n (outs i') i' c')) -> exists k q', 0 <= q' /\ x = GOut k (i' + G * q')).
    { clear IH Hn Hq Hi. clear - HO HG Hnext. induction n as [|n IH]; intros i' c' Hi Hq x Hx; [destruct Hx|]. cbn [all_ws] in Hx. rewrite map_app in Hx. apply in_app_or in Hx as [Hx|Hx].
      - rewrite ws_keys, keys_outs in Hx by (specialize (Hq 0); lia). apply in_map_iff in Hx as (y & <- & _). exists (0 + y), 0. split; [lia|]. f_equal. lia.
      - destruct n as [|n]; [destruct Hx|]. rewrite Hnext in Hx by (specialize (Hq 1); lia).
        apply IH in Hx as (k & q' & Hq' & ->); [|lia|intros q Hq'; specialize (Hq (q + 1)); lia]. exists k, (q' + 1). split; [lia|]. f_equal. lia. }
    destruct q as [|q].
    - replace (i + G * Z.of_nat 0) with i by lia. unfold comps. cbn [Nat.iter nat_rect snd].
      rewrite (mout_other rf xv mv).
      + apply (ws_lookup i) with (k := 0); [specialize (Hq 0); lia|exact Hf].
      + destruct n as [|n]; [intros []|]. rewrite Hnext by (specialize (Hq 1); lia). intros Hx.
        apply KEYS in Hx as (k & q' & Hq' & E); [|lia|intros q Hq'; specialize (Hq (q + 1)); lia]. injection E as _ E. nia.
    - destruct n as [|n]; [lia|]. rewrite Hnext by (specialize (Hq 1); lia).
      replace (i + G * Z.of_nat (Datatypes.S q)) with ((i + G) + G * Z.of_nat q) by lia. rewrite comps_S.
      apply IH; [lia|intros q' Hq'; specialize (Hq (q' + 1)); lia|lia|exact Hf].
  Qed.

  Variables (x : mem X) (mask : mem Z) (junkS : Z -> Z -> S) (junkY : Z -> Z -> Y).
  Notation m0 := (gmem0 K osh B G x mask junkS junkY).
  Hypothesis Hin : input_ok K ash ast mst axes xv mv m0.

  Definition binf (b : Z) : binfo (A := gaddr) (V := gv) :=
    Binfo (D b (own b)) (Ow b (own b))
      (mend K osh ost rf B G xv mv b (iterations b numel G) (outs b) b (fun _ => k_comp K) m0 (junkS b) None) [].

  Theorem grid_result :
    let blk := blocks K osh ost ash ast mst axes rf B G in
    grid_ends gaddr_eqb (fun u _ => u) (m0, blk) /\
    forall o, bgsteps gaddr_eqb (fun u _ => u) (m0, blk) o -> exists c, o = Ok c /\
      (grid_done c \/ exists c', bgstep gaddr_eqb (fun u _ => u) c (Ok c')) /\
      (grid_done c -> forall j f i, nth_error (k_outs K) j = Some f -> 0 <= i < numel ->
        fst c (GOut (Z.of_nat j) i) = Some (VY (f (result i)))).
  Proof.
    intros blk.
    destruct (grid_correct gaddr_eqb gaddr_eqb_spec (fun u _ => u) (fun _ => False) m0 blk (map binf (zrange G))) as (HE & HR).
    - unfold blk, blocks.
      assert (G0 : forall l, (forall b, In b l -> 0 <= b < G) -> Forall2 (bok gaddr_eqb (fun _ => False) m0)
        (map (fun b => map (thread K osh ost ash ast mst axes rf B G b) (zrange B)) l) (map binf l)).
      { induction l as [|b l IH]; intros Hl; cbn [map]; constructor; [|apply IH; intros; apply Hl; now right].
        specialize (Hl b (or_introl eq_refl)). unfold bok. cbn [bD bO bEnd bLog binf].
        assert (HK : forall q, 0 <= q < Z.of_nat (iterations b numel G) -> b + G * q < numel) by (intros q Hq; apply iterations_spec; lia).
        pose proof (loop_run K osh ost ash ast mst axes rf B G HP HB HG xv mv b (own b) (own_out b) (iterations b numel G) b (outs b)
          (fun _ => k_comp K) m0 (junkS b) None ltac:(lia) Hin (Forall_nil _)) as LR.
        apply (blockrun_ext gaddr_eqb (fun _ => False) (D b (own b)) (Ow b (own b)) (msh B m0 b (junkS b))).
        - intros a Ha. destruct a as [| | |b' t|]; try reflexivity. cbn. cbn in Ha. subst b'. rewrite Z.eqb_refl.
          replace (0 <=? b) with true by lia. replace (b <? G) with true by lia. cbn. destruct ((0 <=? t) && (t <? B)); reflexivity.
        - erewrite map_ext; [apply LR|].
          + eapply Forall_impl; [|apply fut_own with (b := b); [lia|apply Z.mod_small; lia|exact HK]].
            intros a Ha. split; [exact Ha|]. destruct Ha as (k & i & -> & Hk & Hi & _). cbn. unfold onumel.
            replace (0 <=? k) with true by lia. replace (k <? zlen (k_outs K)) with true by lia.
            replace (0 <=? i) with true by lia. replace (i <? numel) with true by lia. discriminate.
          + intros t. unfold thread, onumel. cbn [pend_prog]. rewrite unflat_base, unflat_oix by (auto; lia). reflexivity. }
      apply G0. intros b Hb. now apply in_zrange in Hb.
    - intros i j u v Hi Hj Hne a Ha Hb. rewrite nth_error_map in Hi, Hj.
      destruct (nth_error (zrange G) i) as [b1|] eqn:E1; [|discriminate]. destruct (nth_error (zrange G) j) as [b2|] eqn:E2; [|discriminate].
      cbn in Hi, Hj. injection Hi as <-. injection Hj as <-.
      assert (b1 <> b2). { intros ->. apply Hne. eapply NoDup_nth_error; [apply (zrange_nodup G)|apply nth_error_Some; congruence|congruence]. }
      destruct a; cbn in Ha, Hb; try tauto; [|congruence].
      destruct Ha as (k1 & i1 & F1 & _ & _ & M1), Hb as (k2 & i2 & F2 & _ & _ & M2). injection F1 as <- <-. injection F2 as <- <-. congruence.
    - apply Forall_map, Forall_forall. intros b _ a [].
    - intros a [].
    - split; [exact HE|]. intros o Ho. destruct (HR o Ho) as (c & -> & Hmv & Hd). exists c. split; [reflexivity|]. split; [exact Hmv|].
      intros Hdone j f i Hf Hi. destruct (Hd Hdone) as (HF & _ & _).
      rewrite Forall_map, Forall_forall in HF.
      assert (Hb : 0 <= i mod G < G) by (apply Z.mod_pos_bound; lia).
      assert (Hj : 0 <= Z.of_nat j < zlen (k_outs K)) by (pose proof (proj1 (nth_error_Some (k_outs K) j)) as Hx; rewrite Hf in Hx; specialize (Hx ltac:(discriminate)); unfold zlen; lia).
      specialize (HF (i mod G) (proj2 (in_zrange _ _) Hb) (GOut (Z.of_nat j) i)). cbn [bD bEnd binf] in HF.
      rewrite HF by (exists (Z.of_nat j), i; auto).
      rewrite mend_out by discriminate. cbn [pend_ws mout fold_left].
      assert (Ei : i = i mod G + G * Z.of_nat (Z.to_nat (i / G))) by (rewrite Z2Nat.id by (apply Z.div_pos; lia); pose proof (Z.div_mod i G); lia).
      set (b := i mod G) in *. set (q := Z.to_nat (i / G)) in *.
      assert (HK : forall q, 0 <= q < Z.of_nat (iterations b numel G) -> b + G * q < numel) by (intros q' Hq; apply iterations_spec; lia).
      rewrite Ei at 1.
      change (fold_left (fun (m : gm) (w : gaddr * gv) => GpuModel.gset gaddr_eqb m (fst w) (snd w)) ?w ?m) with (mout m w) || idtac.
      etransitivity; [apply (ws_all_lookup (iterations b numel G) b (fun _ => k_comp K) m0 q j f); auto; try lia|].
      + pose proof (proj2 (iterations_spec b numel G (Z.of_nat q) HG ltac:(lia))). lia.
      + unfold result. fold b q. now rewrite <- Ei.
  Qed.
End Grid.

Lemma next_plain {X S C Y} (K : kernel X S C Y) osh G i : posl osh -> 0 <= i -> 0 <= G -> k_chained K = false ->
  next_outs K osh G (map (fun _ : S -> Y => oix osh i) (k_outs K)) = map (fun _ => oix osh (i + G)) (k_outs K).
Proof.
  intros HO Hi HG Hc. induction (k_outs K) as [|f fs IH]; cbn [map next_outs]; [reflexivity|]. rewrite Hc, bump_oix by auto. now rewrite IH.
Qed.
(** A one-dimensional output never carries before the end. *)
Lemma next_flat {X S C Y} (K : kernel X S C Y) d G i : 0 <= i -> 0 <= G -> i + G < d ->
  next_outs K [d] G (map (fun _ : S -> Y => oix [d] i) (k_outs K)) = map (fun _ => oix [d] (i + G)) (k_outs K).
Proof.
  intros Hi HG Hd. induction (k_outs K) as [|f fs IH]; cbn [map next_outs]; [reflexivity|].
  assert (HO : posl [d]) by (constructor; [lia|constructor]).
  rewrite bump_oix by auto.
  replace (snd (bump [d] (rev (zrange (zlen [d]))) G (oix [d] i))) with G; [destruct (k_chained K); now rewrite IH|].
  change (rev (zrange (zlen [d]))) with [0]. unfold oix. cbn [rev app digits bump]. change (getz [d] 0) with d. change (getz [i mod d] 0) with (i mod d). rewrite Z.mod_small by lia. replace (i + G <? d) with true by lia. reflexivity.
Qed.
