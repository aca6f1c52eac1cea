(** The local-maxima search on the CPU. *)
From Verif Require Export CcProofs3.
From Coq Require Import ZifyBool ZifyNat.
Local Open Scope Z_scope.

Lemma nodup_snoc {A} (l : list A) x : NoDup l -> ~ In x l -> NoDup (l ++ [x]).
Proof.
  intros Hl Hx. apply NoDup_rev in Hl. rewrite <- (rev_involutive (l ++ [x])). apply NoDup_rev.
  rewrite rev_app_distr. cbn. constructor; [now rewrite <- in_rev|auto].
Qed.

Lemma in_zspan a b x : In x (zspan a b) <-> a <= x < b.
Proof.
  unfold zspan. rewrite in_map_iff. split.
  - intros (i & <- & Hi). apply in_zrange in Hi. lia.
  - intros H. exists (x - a). split; [lia|]. apply in_zrange. lia.
Qed.

Section Lm.
  Context {F : Type}.
  Variable snr : F -> F -> F.
  Variable gt : F -> F -> bool.
  Variable thr : F.
  Variable lt : F -> F -> bool.
  Variable rtol : F -> F.
  Variables (ls : layout) (spec noise : list F) (low high roll : layout * mem Z).
  Variables (D N : Z) (X : coord -> F) (W : Z -> F) (R : coord -> Z * Z * Z).
  Notation Sn := (fun c => snr (X c) (W (fst c))).
  Notation sig := (fun c => gt (Sn c) thr).
  Hypothesis HX : plane_holds ls spec D N X.
  Hypothesis HW : forall d, 0 <= d < D -> znth noise d = Some (W d).
  Hypothesis HR : forall c, bin D N c -> rfi_at low high roll c = Ok (R c).
  Hypothesis HD : 0 <= D. Hypothesis HN : 0 < N. Hypothesis Hsz : D * N < 2 ^ 31.
  Notation lv := (dense [D; N]).
  (** Every bin has a flag. *)
  Definition flagged (vis : mem Z) : Prop := forall c, bin D N c -> exists v, znth vis (lin lv c) = Some v.

  Lemma store_flagged vis c v : flagged vis -> bin D N c -> exists vis', store vis (lin lv c) v = Ok vis' /\ flagged vis' /\
    (forall d, bin D N d -> znth vis' (lin lv d) = if ceqb c d then Some v else znth vis (lin lv d)).
  Proof.
    intros Hf Hc. destruct (Hf c Hc) as (v0 & Hv0). pose proof (znth_len _ _ _ Hv0) as Hl.
    destruct (store_ok vis (lin lv c) v Hl) as (vis' & Es & El). exists vis'. split; [auto|].
    assert (G : forall d, bin D N d -> znth vis' (lin lv d) = if ceqb c d then Some v else znth vis (lin lv d)).
    { intros d Hd. rewrite (znth_store _ _ _ _ _ Es). destruct (lin lv d =? lin lv c) eqn:E.
      - assert (c = d) by (apply (lin_dense_inj D N); auto; lia). subst d. now rewrite ceqb_refl.
      - destruct (ceqb c d) eqn:Ec; [apply ceqb_spec in Ec; subst; lia|reflexivity]. }
    split; [|exact G]. intros d Hd. rewrite G by auto. destruct (ceqb c d); eauto.
  Qed.

  Lemma lm_inner_ok c s fo drifts : forall vis best, flagged vis ->
    exists vis', lm_inner snr gt rtol D N ls lv spec noise c s fo drifts vis best = Ok (vis', best) /\ flagged vis' \/
    exists vis', lm_inner snr gt rtol D N ls lv spec noise c s fo drifts vis best = Ok (vis', false) /\ flagged vis'.
  Proof.
    induction drifts as [|dr drifts IH]; intros vis best Hf; cbn [lm_inner].
    - exists vis. left. auto.
    - destruct (in_grid D N (move c (dr, fo))) eqn:Eg.
      + apply in_grid_bin in Eg. rewrite (bin_snr_ok snr ls spec noise D N X W HX HW) by auto. cbn [obind snd].
        destruct (gt s _).
        * destruct (store_flagged vis _ 0 Hf Eg) as (vis' & -> & Hf' & _). cbn [obind]. apply IH, Hf'.
        * exists vis. right. exists vis. auto.
      + exists vis. right. exists vis. auto.
  Qed.

  (** A bin is compared with itself, so a strict comparison fails. *)
  Lemma lm_inner_self c drifts : gt (Sn c) (rtol (Sn c)) = false -> bin D N c -> In 0 drifts ->
    forall vis best, flagged vis ->
    exists vis', lm_inner snr gt rtol D N ls lv spec noise c (Sn c) 0 drifts vis best = Ok (vis', false) /\ flagged vis'.
  Proof.
    intros Hself Hc. induction drifts as [|dr drifts IH]; intros Hin vis best Hf; [destruct Hin|]. cbn [lm_inner].
    destruct (in_grid D N (move c (dr, 0))) eqn:Eg; [|eauto].
    apply in_grid_bin in Eg. rewrite (bin_snr_ok snr ls spec noise D N X W HX HW) by auto. cbn [obind snd].
    destruct (Z.eq_dec dr 0) as [->|Hne].
    - replace (move c (0, 0)) with c by (unfold move; destruct c; cbn; f_equal; lia). rewrite Hself. eauto.
    - match goal with |- context [if ?b then _ else _] => destruct b end; [|eauto].
      destruct (store_flagged vis _ 0 Hf Eg) as (vis' & -> & Hf' & _). cbn [obind]. apply IH; auto. destruct Hin; [congruence|auto].
  Qed.

  Lemma lm_outer_false L c freqs : forall vis, flagged vis ->
    exists vis', lm_outer snr gt rtol D N ls lv spec noise L c (Sn c) freqs vis false = Ok (vis', false) /\ flagged vis'.
  Proof.
    induction freqs as [|fo freqs IH]; intros vis Hf; cbn [lm_outer]; [eauto|].
    destruct (lm_inner_ok c (Sn c) fo (zspan (- L + Z.abs fo) (L - Z.abs fo)) vis false Hf) as (vis' & [(E & Hf')|(vis'' & E & Hf')]);
      rewrite E; cbn [obind fst snd]; apply IH; auto.
  Qed.

  Lemma lm_outer_self L c freqs : gt (Sn c) (rtol (Sn c)) = false -> 1 <= L -> bin D N c -> In 0 freqs ->
    forall vis best, flagged vis ->
    exists vis', lm_outer snr gt rtol D N ls lv spec noise L c (Sn c) freqs vis best = Ok (vis', false) /\ flagged vis'.
  Proof.
    intros Hself HL Hc. induction freqs as [|fo freqs IH]; intros Hin vis best Hf; [destruct Hin|]. cbn [lm_outer].
    destruct (Z.eq_dec fo 0) as [->|Hne].
    - destruct (lm_inner_self c (zspan (- L + Z.abs 0) (L - Z.abs 0)) Hself Hc) with (vis := vis) (best := best) as (vis' & E & Hf'); auto.
      { apply in_zspan. lia. }
      rewrite E. cbn [obind fst snd]. apply lm_outer_false, Hf'.
    - destruct Hin as [Hin|Hin]; [congruence|].
      destruct (lm_inner_ok c (Sn c) fo (zspan (- L + Z.abs fo) (L - Z.abs fo)) vis best Hf) as (vis' & [(E & Hf')|(vis'' & E & Hf')]);
        rewrite E; cbn [obind fst snd]; apply IH; auto.
  Qed.

  Lemma numel_ls : numel ls = D * N.
  Proof.
    destruct HX as (Hsh & _). unfold numel. rewrite Hsh. destruct (numel_2d D N HD ltac:(lia) Hsz) as [E|E]; [exact E|lia].
  Qed.

  Lemma ones_flagged : flagged (map (fun _ => 1) (zrange (D * N))).
  Proof.
    intros c (Hd & Hf). exists 1. rewrite lin_dense. now rewrite znth_map_zrange by nia.
  Qed.

  (** With a neighbourhood of distance one or more, no bin is ever reported. *)
  Theorem lm_never L : 1 <= L -> (forall s, gt s (rtol s) = false) ->
    lm_cpu snr gt thr lt rtol ls spec noise low high roll L = Some (Ok []).
  Proof.
    intros HL Hself. unfold lm_cpu. destruct HX as (Hsh & _). rewrite Hsh, numel_ls.
    set (body := fun c s => _).
    destruct (scan_inv body N (fun _ s => flagged (fst s) /\ snd s = []) (D * N) HN) with (n := Z.to_nat (D * N)) (k := 0)
      (s := (map (fun _ : Z => 1) (zrange (D * N)), @nil (protohit F))) as (s' & Es & _ & Hs').
    - intros k (vis & found) Hk (Hf & Hnil). cbn [fst snd] in *. subst found.
      assert (Hb : bin D N (coord_at N k)) by now apply coord_at_bin.
      unfold body, lm_body. destruct (Hf _ Hb) as (v & Hv). unfold load at 1, zget. rewrite Hv. cbn [obind].
      destruct (0 <? v); [|eexists; split; [reflexivity|auto]].
      destruct (store_flagged vis _ 0 Hf Hb) as (vis1 & -> & Hf1 & _). cbn [obind].
      rewrite (bin_snr_ok snr ls spec noise D N X W HX HW) by auto. cbn [obind].
      match goal with |- context [if ?b then _ else _] => destruct b end; [|eexists; split; [reflexivity|auto]].
      destruct (lm_outer_self L (coord_at N k) (zspan (- L) L) (Hself _) HL Hb) with (vis := vis1) (best := true) as (vis2 & E & Hf2); auto.
      { apply in_zspan. lia. }
      cbv beta in E. rewrite E. cbn [obind]. eexists. split; [reflexivity|auto].
    - lia.
    - lia.
    - split; [apply ones_flagged|reflexivity].
    - rewrite coord_at_0 in Es by auto. rewrite Es. cbn [rbind]. now rewrite Hs'.
  Qed.

  (** ** No neighbourhood: every significant bin is a candidate *)
  Lemma zrange_shift n : 0 < n -> zrange n = 0 :: map Z.succ (zrange (n - 1)).
  Proof.
    intros Hn. unfold zrange. replace (Z.to_nat n) with (S (Z.to_nat (n - 1))) by lia. cbn [seq map].
    f_equal. rewrite <- seq_shift, !map_map. apply map_ext. intros; lia.
  Qed.

  Lemma lm_edge_ok d f sg n : (sg = 1 \/ sg = -1) -> 0 <= d < D -> 0 <= f < N ->
    forall m vis, 0 <= m -> flagged vis -> ~ (0 <= f + sg * (m + n) < N) -> 0 < n ->
    0 <= f + sg * m < N ->
    descends lt (fun x => sig (d, x)) (fun x => X (d, x)) N f sg m ->
    exists vis' m', m <= m' /\
      lm_edge snr gt thr lt N ls lv spec (W d) d (X (d, f + sg * m)) (map (fun i => f + sg * (m + 1 + i)) (zrange n)) vis
        = Ok (vis', f + sg * (m' + 1)) /\
      descent lt (fun x => sig (d, x)) (fun x => X (d, x)) N f sg m' /\ flagged vis' /\
      (forall c, bin D N c -> znth vis' (lin lv c) = Some 0 /\ (fst c = d /\ exists j, m < j <= m' /\ snd c = f + sg * j)
                              \/ znth vis' (lin lv c) = znth vis (lin lv c)).
  Proof.
    intros Hsg Hd Hf. remember (Z.to_nat n) as nn eqn:En. revert n En.
    induction nn as [|nn IH]; intros n En m vis Hm Hfl Hend Hn Hcur Hdes; [lia|].
    rewrite zrange_shift by lia. cbn [map lm_edge].
    replace (f + sg * (m + 1 + 0)) with (f + sg * (m + 1)) by ring.
    destruct ((0 <=? f + sg * (m + 1)) && (f + sg * (m + 1) <? N)) eqn:Eg.
    - assert (Hb : bin D N (d, f + sg * (m + 1))) by (unfold bin; cbn; lia).
      destruct HX as (_ & Hx). unfold load at 1, zget. rewrite (Hx _ Hb). cbn [obind].
      destruct (gt (snr (X (d, f + sg * (m + 1))) (W d)) thr && lt (X (d, f + sg * (m + 1))) (X (d, f + sg * m))) eqn:Et.
      + destruct (store_flagged vis _ 0 Hfl Hb) as (vis1 & -> & Hf1 & Hv1). cbn [obind].
        apply andb_true_iff in Et as (Et1 & Et2).
        destruct (Z.eq_dec n 1) as [->|Hn1]; [exfalso; apply Hend; lia|].
        assert (Hmap : map (fun i => f + sg * (m + 1 + i)) (map Z.succ (zrange (n - 1))) = map (fun i => f + sg * ((m + 1) + 1 + i)) (zrange (n - 1))).
        { rewrite map_map. apply map_ext. intros. f_equal. f_equal. lia. }
        rewrite Hmap.
        destruct (IH (n - 1) ltac:(lia) (m + 1) vis1) as (vis' & m' & Hm' & E & Hde & Hf' & Hv'); auto; try lia.
        { intros j Hj. destruct (Z.eq_dec j (m + 1)) as [->|Hne]; [|apply Hdes; lia].
          replace (m + 1 - 1) with m by lia. split; [lia|]. split; [exact Et1|exact Et2]. }
        exists vis', m'. split; [lia|]. split; [exact E|]. split; [exact Hde|]. split; [exact Hf'|].
        intros c Hc. destruct (Hv' c Hc) as [(Hz & Hfc & j & Hj & Hs)|Hz].
        * left. split; [auto|]. split; [auto|]. exists j. split; [lia|auto].
        * rewrite Hv1 in Hz by auto. destruct (ceqb _ c) eqn:Ec; [|now right]. left. apply ceqb_spec in Ec. subst c.
          split; [auto|]. split; [reflexivity|]. exists (m + 1). split; [lia|reflexivity].
      + exists vis, m. split; [lia|]. split; [reflexivity|]. split; [|auto]. split; [auto|]. split; [auto|].
        intros Hdes'. destruct (Hdes' (m + 1) ltac:(lia)) as (_ & A & B). replace (m + 1 - 1) with m in B by lia.
        cbn [fst] in A. rewrite A, B in Et. discriminate.
    - exists vis, m. split; [lia|]. split; [reflexivity|]. split; [|auto]. split; [auto|]. split; [auto|].
      intros Hdes'. destruct (Hdes' (m + 1) ltac:(lia)) as (A & _). lia.
  Qed.

  (** One reported peak. *)
  Definition peak_report (p : protohit F) : Prop :=
    let c := ph_max p in
    bin D N c /\ sig c = true /\ ph_snr p = Sn c /\ ph_power p = X c /\ ph_noise p = Some (W (fst c)) /\
    ph_locs p = [c] /\ ph_rfi p = Some (R c) /\
    exists m1 m2, descent lt (fun f => sig (fst c, f)) (fun f => X (fst c, f)) N (snd c) (-1) m1 /\
      descent lt (fun f => sig (fst c, f)) (fun f => X (fst c, f)) N (snd c) 1 m2 /\
      ph_width p = m1 + m2 + 2 /\ ph_center p = (fst c, Z.quot (2 * snd c + m2 - m1) 2).

  Definition covered (found : list (protohit F)) (c : coord) : Prop :=
    exists p, In p found /\ flank lt (fun c => sig c) X N (ph_max p) c.

  Lemma covered_app found x c : covered found c -> covered (found ++ [x]) c.
  Proof. intros (p & H & Hf). exists p. split; [apply in_app_iff; now left|auto]. Qed.

  Lemma descends_in f sg m c : descends lt (fun x => sig (c, x)) (fun x => X (c, x)) N f sg m -> 0 <= f < N -> 0 <= m -> 0 <= f + sg * m < N.
  Proof.
    intros H Hf Hm. destruct (Z.eq_dec m 0) as [->|]; [lia|]. apply (H m). lia.
  Qed.

  Theorem lm_zero L : L <= 0 -> N < 2 ^ 30 ->
    exists found, lm_cpu snr gt thr lt rtol ls spec noise low high roll L = Some (Ok found) /\
      Forall peak_report found /\ NoDup (map ph_max found) /\
      (forall c, bin D N c -> sig c = true -> covered found c).
  Proof.
    intros HL HN30. unfold lm_cpu. destruct HX as (Hsh & _). rewrite Hsh, numel_ls.
    set (body := fun c s => _).
    set (Inv := fun k (s : mem Z * list (protohit F)) => flagged (fst s) /\ Forall peak_report (snd s) /\ NoDup (map ph_max (snd s)) /\
      (forall p, In p (snd s) -> fst (ph_max p) * N + snd (ph_max p) < k) /\
      (forall c, bin D N c -> sig c = true -> fst c * N + snd c < k -> covered (snd s) c) /\
      (forall c, bin D N c -> k <= fst c * N + snd c -> znth (fst s) (lin lv c) = Some 1 \/ covered (snd s) c)).
    assert (Hspan : zspan (- L) L = []).
    { unfold zspan. replace (zrange (L - - L)) with (@nil Z); [reflexivity|]. unfold zrange. replace (Z.to_nat (L - - L)) with 0%nat by lia. reflexivity. }
    destruct (scan_inv body N Inv (D * N) HN) with (n := Z.to_nat (D * N)) (k := 0)
      (s := (map (fun _ : Z => 1) (zrange (D * N)), @nil (protohit F))) as (s' & Es & _ & HF & Hnd & _ & Hcov & _).
    - intros k (vis & found) Hk (Hf & HF & Hnd & Hlt & Hcov & Hones). cbn [fst snd] in *.
      set (c := coord_at N k). assert (Hb : bin D N c) by now apply coord_at_bin.
      assert (Hidx : fst c * N + snd c = k).
      { unfold c, coord_at. cbn [fst snd]. pose proof (Z.div_mod k N ltac:(lia)). lia. }
      assert (Huniq : forall x, bin D N x -> fst x * N + snd x = k -> x = c) by (intros x Hx Ex; apply (index_of D N HN); auto).
      assert (Hstep : forall vis', flagged vis' -> (sig c = true -> covered found c) ->
         (forall d, bin D N d -> d <> c -> znth vis' (lin lv d) = znth vis (lin lv d)) -> Inv (k + 1) (vis', found)).
      { intros vis' Hf' Hcc Hsame. split; [exact Hf'|]. split; [exact HF|]. split; [exact Hnd|]. cbn [fst snd]. split; [|split].
        - intros p Hp. specialize (Hlt p Hp). lia.
        - intros x Hx Hs Hi. destruct (Z.eq_dec (fst x * N + snd x) k) as [E|E]; [|apply Hcov; auto; lia].
          rewrite (Huniq x Hx E) in *. auto.
        - intros x Hx Hi. rewrite Hsame; [apply Hones; [auto|lia]|auto|]. intros ->. lia. }
      unfold body, lm_body. fold c. destruct (Hf _ Hb) as (v & Hv). unfold load at 1, zget. rewrite Hv. cbn [obind].
      destruct (0 <? v) eqn:Ev.
      2: { eexists. split; [reflexivity|]. apply Hstep; auto. intros _. destruct (Hones c Hb ltac:(lia)) as [E|E]; [|auto].
           rewrite E in Hv. injection Hv as <-. discriminate. }
      destruct (store_flagged vis _ 0 Hf Hb) as (vis1 & -> & Hf1 & Hv1). cbn [obind].
      rewrite (bin_snr_ok snr ls spec noise D N X W HX HW) by auto. cbn [obind].
      destruct (gt (snr (X c) (W (fst c))) thr) eqn:Et.
      2: { eexists. split; [reflexivity|]. apply Hstep; auto; [congruence|].
           intros x Hx Hne. rewrite Hv1 by auto. destruct (ceqb c x) eqn:Ec; [apply ceqb_spec in Ec; congruence|auto]. }
      rewrite Hspan. cbn [lm_outer obind]. rewrite (HR c Hb). cbn [obind].
      destruct c as [d f] eqn:Ec. cbn [fst snd] in *. unfold bin in Hb. cbn [fst snd] in Hb.
      destruct (lm_edge_ok d f (-1) (f + 1) ltac:(lia) ltac:(lia) ltac:(lia) 0 vis1 ltac:(lia) Hf1 ltac:(lia) ltac:(lia) ltac:(lia)) as (vis2 & m1 & Hm1 & E1 & Hd1 & Hf2 & Hv2).
      { intros j Hj. lia. }
      replace (X (d, f + -1 * 0)) with (X (d, f)) in E1 by (repeat f_equal; lia).
      replace (map (fun i => f + -1 * (0 + 1 + i)) (zrange (f + 1))) with (down_from f) in E1.
      2: { apply map_ext. intros; lia. }
      rewrite E1. cbn [obind fst snd].
      destruct (lm_edge_ok d f 1 (N - f) ltac:(lia) ltac:(lia) ltac:(lia) 0 vis2 ltac:(lia) Hf2 ltac:(lia) ltac:(lia) ltac:(lia)) as (vis3 & m2 & Hm2 & E2 & Hd2 & Hf3 & Hv3).
      { intros j Hj. lia. }
      replace (X (d, f + 1 * 0)) with (X (d, f)) in E2 by (repeat f_equal; lia).
      replace (map (fun i => f + 1 * (0 + 1 + i)) (zrange (N - f))) with (up_from N f) in E2.
      2: { apply map_ext. intros; lia. }
      rewrite E2. cbn [obind fst snd]. eexists. split; [reflexivity|].
      pose proof (descends_in _ _ _ _ (proj1 (proj2 Hd1)) ltac:(lia) ltac:(lia)) as Hin1.
      pose proof (descends_in _ _ _ _ (proj1 (proj2 Hd2)) ltac:(lia) ltac:(lia)) as Hin2.
      match goal with |- Inv _ (_, found ++ [?p]) => set (np := p) end.
      assert (Hnp : ph_max np = (d, f)) by reflexivity.
      assert (Hself : covered (found ++ [np]) (d, f)).
      { exists np. split; [apply in_app_iff; right; now left|]. rewrite Hnp. split; [reflexivity|]. exists 1, 0. cbn. split; [auto|]. split; [lia|]. split; [lia|]. intros j Hj. lia. }
      split; [exact Hf3|]. cbn [fst snd]. split; [|split; [|split; [|split]]].
      + apply Forall_app. split; [auto|]. constructor; [|constructor]. unfold peak_report. rewrite Hnp. cbn [fst snd].
        split; [unfold bin; cbn; lia|]. split; [exact Et|]. unfold np. cbn [ph_snr ph_power ph_noise ph_locs ph_rfi ph_width ph_center].
        repeat (split; [reflexivity|]). exists m1, m2. split; [exact Hd1|]. split; [exact Hd2|]. split.
        * unfold to_int32. rewrite Z.mod_small; lia.
        * f_equal. f_equal. lia.
      + rewrite map_app. cbn [map]. apply nodup_snoc; [exact Hnd|].
        intros Hx. apply in_map_iff in Hx as (p & Ep & Hp). specialize (Hlt p Hp). rewrite Ep, Hnp in Hlt. cbn in Hlt. lia.
      + intros p Hp. apply in_app_iff in Hp as [Hp|[<-|[]]]; [specialize (Hlt p Hp); lia|]. rewrite Hnp. cbn. lia.
      + intros x Hx Hs Hi. destruct (Z.eq_dec (fst x * N + snd x) k) as [E|E].
        * rewrite (Huniq x Hx E). exact Hself.
        * apply covered_app, Hcov; auto; lia.
      + intros x Hx Hi. destruct (Hones x Hx ltac:(lia)) as [Ho|Ho]; [|right; now apply covered_app].
        assert (Hflank : forall sg m j, (sg = 1 \/ sg = -1) -> 0 < j <= m -> fst x = d -> snd x = f + sg * j ->
          descends lt (fun x => sig (d, x)) (fun x => X (d, x)) N f sg m -> covered (found ++ [np]) x).
        { intros sg m j Hsg Hj Hfx Hsx Hds. exists np. split; [apply in_app_iff; right; now left|]. rewrite Hnp. split; [exact Hfx|].
          exists sg, j. cbn [fst snd]. split; [auto|]. split; [lia|]. split; [auto|]. intros i Hi'. apply Hds. lia. }
        destruct (Hv3 x Hx) as [(_ & Hfx & j & Hj & Hsx)|Hz3].
        { right. apply (Hflank 1 m2 j); auto. apply Hd2. }
        destruct (Hv2 x Hx) as [(_ & Hfx & j & Hj & Hsx)|Hz2].
        { right. apply (Hflank (-1) m1 j); auto. apply Hd1. }
        left. rewrite Hz3, Hz2, Hv1 by auto. destruct (ceqb (d, f) x) eqn:Ecx; [|auto]. apply ceqb_spec in Ecx. subst x. cbn in Hi. lia.
    - lia.
    - lia.
    - split; [apply ones_flagged|]. split; [constructor|]. split; [constructor|]. cbn [fst snd]. split; [intros p []|]. split.
      + intros c (Hd & Hf) _ Hi. nia.
      + intros c (Hd & Hf) _. left. rewrite lin_dense. now rewrite znth_map_zrange by nia.
    - rewrite coord_at_0 in Es by auto. rewrite Es. cbn [rbind]. exists (snd s'). split; [reflexivity|]. split; [exact HF|]. split; [exact Hnd|].
      intros c Hc Hs. apply Hcov; auto. destruct Hc as (Hd & Hf). nia.
  Qed.
End Lm.
