(** The threshold component search. *)
From Verif Require Export CcProofs2 RedProofs3.
From Coq Require Import ZifyBool ZifyNat.
Local Open Scope Z_scope.

Section Cc.
  Context {F : Type}.
  Variable snr : F -> F -> F.
  Variable gt : F -> F -> bool.
  Variables (thr half fmin fzero : F).
  Variables (D N : Z) (X : coord -> F) (W : Z -> F) (R : coord -> Z * Z * Z).
  Notation Sn := (fun c => snr (X c) (W (fst c))).

  (** The cluster update as a function. *)
  Definition act (seed c : coord) (p : protohit F) : protohit F :=
    let p' := if gt (Sn c) (ph_snr p)
              then Protohit c (ph_center p) (Sn c) (X c) (Some (W (fst c))) (ph_width p) (ph_locs p) (Some (R seed))
              else p in
    Protohit (ph_max p') (ph_center p') (ph_snr p') (ph_power p') (ph_noise p') (ph_width p') (ph_locs p' ++ [c]) (ph_rfi p').
  Definition cluster (seed : coord) (ms : list coord) : protohit F :=
    fold_left (fun p c => act seed c p) ms (cc_start fmin fzero).

  Lemma cluster_locs_from seed ms : forall p, ph_locs (fold_left (fun p c => act seed c p) ms p) = ph_locs p ++ ms.
  Proof.
    induction ms as [|c ms IH]; intros p; cbn [fold_left]; [now rewrite app_nil_r|].
    rewrite IH. unfold act. cbn [ph_locs]. destruct (gt _ _); cbn [ph_locs]; now rewrite <- app_assoc.
  Qed.
  Lemma cluster_locs seed ms : ph_locs (cluster seed ms) = ms.
  Proof. unfold cluster. rewrite cluster_locs_from. reflexivity. Qed.

  Hypothesis Htrans : forall a b c, gt a b = true -> gt b c = true -> gt a c = true.
  Hypothesis Hirr : forall a, gt a a = false.

  (** Once a peak is known it stays the strongest bin so far. *)
  Definition peak_inv (seed : coord) (seen : list coord) (p : protohit F) : Prop :=
    strongest gt Sn seen (ph_max p) /\ ph_snr p = Sn (ph_max p) /\ ph_power p = X (ph_max p) /\
    ph_noise p = Some (W (fst (ph_max p))) /\ ph_rfi p = Some (R seed).

  Lemma act_peak seed seen p c : peak_inv seed seen p -> peak_inv seed (seen ++ [c]) (act seed c p).
  Proof.
    intros ((Hin & Hmax) & Hs & Hp & Hn & Hr). unfold act, peak_inv. cbv zeta. destruct (gt (Sn c) (ph_snr p)) eqn:E; cbn [ph_max ph_snr ph_power ph_noise ph_rfi].
    - split; [|repeat split; auto]. split; [apply in_app_iff; right; now left|]. intros d Hd.
      apply in_app_iff in Hd as [Hd|[<-|[]]]; [|apply Hirr]. specialize (Hmax d Hd). cbv beta in Hmax |- *.
      destruct (gt (snr (X d) (W (fst d))) (snr (X c) (W (fst c)))) eqn:E2; [|reflexivity].
      rewrite Hs in E. exfalso. rewrite (Htrans _ _ _ E2 E) in Hmax. discriminate.
    - split; [|repeat split; auto]. split; [apply in_app_iff; now left|]. intros d Hd.
      apply in_app_iff in Hd as [Hd|[<-|[]]]; [auto|]. rewrite <- E, Hs. reflexivity.
  Qed.

  Lemma fold_peak seed ms : forall seen p, peak_inv seed seen p ->
    peak_inv seed (seen ++ ms) (fold_left (fun p c => act seed c p) ms p).
  Proof.
    induction ms as [|c ms IH]; intros seen p H; cbn [fold_left]; [now rewrite app_nil_r|].
    replace (seen ++ c :: ms) with ((seen ++ [c]) ++ ms) by (now rewrite <- app_assoc). apply IH, act_peak, H.
  Qed.

  Lemma cluster_peak seed c ms : gt (Sn c) fmin = true -> peak_inv seed (c :: ms) (cluster seed (c :: ms)).
  Proof.
    intros H. unfold cluster. cbn [fold_left]. apply (fold_peak seed ms [c]).
    unfold act, cc_start. cbn [ph_snr]. rewrite H. cbn. split; [|repeat split; auto].
    split; [now left|]. intros d [<-|[]]. apply Hirr.
  Qed.

  Lemma extent_spec peak ms : In peak ms ->
    spans ms (fst peak) (fst (freq_extent peak ms)) (snd (freq_extent peak ms)).
  Proof.
    intros Hp. unfold freq_extent. match goal with |- context [fold_left ?f ms _] => set (step := f) end.
    assert (G : forall rest seen lu, ms = seen ++ rest -> In (fst peak, fst lu) ms -> In (fst peak, snd lu) ms ->
      fst lu <= snd peak <= snd lu ->
      (forall c, In c seen -> fst c = fst peak -> fst lu <= snd c <= snd lu) ->
      let r := fold_left step rest lu in
      In (fst peak, fst r) ms /\ In (fst peak, snd r) ms /\ forall c, In c ms -> fst c = fst peak -> fst r <= snd c <= snd r).
    { induction rest as [|l rest IH]; intros seen lu E Hl Hu Hlu Hs; cbn [fold_left].
      - rewrite app_nil_r in E. subst seen. auto.
      - assert (Hin : In l ms) by (subst ms; apply in_app_iff; right; now left).
        assert (Hpair : forall d, fst l = d -> In (d, snd l) ms) by (intros d <-; destruct l; exact Hin).
        apply (IH (seen ++ [l])); [subst ms; now rewrite <- app_assoc| | | |];
          unfold step; destruct (fst l =? fst peak) eqn:E1; try (destruct (snd lu <? snd l) eqn:E2; [|destruct (snd l <? fst lu) eqn:E3]); cbn [fst snd]; auto; try lia;
          try (apply Hpair; lia).
        all: intros c Hc Hf; apply in_app_iff in Hc as [Hc|[<-|[]]]; [specialize (Hs c Hc Hf)|]; lia. }
    apply (G ms []); auto; try (destruct peak; exact Hp); cbn [fst snd]; try lia. intros c [].
  Qed.

  Lemma finish_describes seed c ms : N < 2 ^ 31 -> (forall d, In d (c :: ms) -> bin D N d) -> gt (Sn c) fmin = true ->
    describes gt X W Sn (c :: ms) (cc_finish (cluster seed (c :: ms))) /\
    ph_rfi (cc_finish (cluster seed (c :: ms))) = Some (R seed).
  Proof.
    intros HN Hb H. destruct (cluster_peak seed c ms H) as (Hmax & Hs & Hp & Hn & Hr).
    pose proof (cluster_locs seed (c :: ms)) as El. unfold cc_finish. rewrite El.
    pose proof (extent_spec (ph_max (cluster seed (c :: ms))) (c :: ms) (proj1 Hmax)) as Hex.
    destruct (freq_extent _ _) as [lo up]. cbn [fst snd] in Hex.
    cbn [ph_max ph_center ph_snr ph_power ph_noise ph_width ph_locs ph_rfi].
    split; [|exact Hr]. split; [reflexivity|]. split; [exact Hmax|]. split; [exact Hs|]. split; [exact Hp|]. split; [exact Hn|].
    exists lo, up. split; [exact Hex|]. destruct Hex as (Hlo & Hup & Hle).
    specialize (Hle _ Hlo eq_refl). cbn in Hle. apply Hb in Hlo. apply Hb in Hup. unfold bin in Hlo, Hup. cbn in Hlo, Hup.
    split.
    - cbn [ph_width]. unfold to_int32. rewrite Z.mod_small; lia.
    - cbn [ph_center]. f_equal. rewrite Z.quot_div_nonneg by lia. f_equal. lia.
  Qed.
End Cc.

Section Search.
  Context {F : Type}.
  Variable snr : F -> F -> F.
  Variable gt : F -> F -> bool.
  Variables (thr half fmin fzero : F).
  Variables (ls : layout) (spec noise : list F) (low high roll : layout * mem Z) (L : Z).
  Variables (D N : Z) (X : coord -> F) (W : Z -> F) (R : coord -> Z * Z * Z).
  Notation Sn := (fun c => snr (X c) (W (fst c))).
  Hypothesis HX : plane_holds ls spec D N X.
  Hypothesis HW : forall d, 0 <= d < D -> znth noise d = Some (W d).
  Hypothesis HR : forall c, bin D N c -> rfi_at low high roll c = Ok (R c).
  Hypothesis HD : 0 <= D. Hypothesis HN : 0 < N. Hypothesis Hsz : D * N < 2 ^ 31.

  Lemma bin_snr_ok c : bin D N c -> bin_snr snr ls spec noise c = Ok (X c, W (fst c), Sn c).
  Proof.
    intros Hc. unfold bin_snr. destruct HX as (_ & Hx). unfold load, zget. rewrite (Hx c Hc). cbn [obind].
    rewrite HW by apply Hc. reflexivity.
  Qed.

  Lemma cc_member_ok seed c p : bin D N seed -> bin D N c ->
    cc_member snr gt ls spec noise (rfi_at low high roll) seed c p = Ok (act snr gt X W R seed c p).
  Proof.
    intros Hs Hc. unfold cc_member. rewrite bin_snr_ok by auto. cbn [obind]. unfold act.
    destruct (gt _ _); cbn [obind]; [rewrite HR by auto|]; reflexivity.
  Qed.

  Theorem cc_cpu_correct fuel :
    (forall s, gt s thr = true -> gt s half = true) -> (enough D N (l1_offsets L) <= fuel)%nat ->
    exists segs,
      cc_cpu snr gt thr half fmin fzero fuel ls spec noise low high roll L =
        Some (Ok (map (fun s => cc_finish (cluster snr gt fmin fzero X W R (fst s) (snd s))) segs)) /\
      segmentation D N (fun c => gt (Sn c) thr = true) (fun c => gt (Sn c) half = true)
                   (near_by D N (l1_offsets L)) segs /\
      (forall s ms, In (s, ms) segs -> exists c rest, ms = c :: rest /\ gt (Sn c) half = true).
  Proof.
    intros Hth Hfuel. unfold cc_cpu. destruct HX as (Hsh & _). rewrite Hsh.
    set (above := fun c => gt (Sn c) thr). set (ok := fun c => gt (Sn c) half).
    set (offsets := l1_offsets L) in *.
    set (taken := fun v => negb (v =? 0)). set (mark := fun v => to_uint8 (v + 1)).
    set (body := fun c (s : mem Z * list (protohit F)) => _).
    assert (Hnum : numel ls = D * N).
    { unfold numel. rewrite Hsh. destruct (numel_2d D N HD ltac:(lia) Hsz) as [E|E]; [exact E|lia]. }
    rewrite Hnum.
    set (rep := represents D N (dense [D; N]) taken mark).
    set (fin := fun s : coord * list coord => cc_finish (cluster snr gt fmin fzero X W R (fst s) (snd s))).
    set (Inv := fun k (s : mem Z * list (protohit F)) => exists V segs, rep (fst s) V /\
       snd s = map fin segs /\ seg_upto D N above ok (near_by D N offsets) k V segs /\
       (forall s ms, In (s, ms) segs -> exists c rest, ms = c :: rest /\ gt (Sn c) half = true)).
    assert (Hm : forall v, taken v = false -> taken (mark v) = true /\ (taken (mark v) = false -> taken (mark (mark v)) = true)).
    { unfold taken. intros v Hv. assert (v = 0) by lia. subst v. split; [reflexivity|discriminate]. }
    assert (Hao : forall c, bin D N c -> above c = true -> ok c = true) by (intros c _; apply Hth).
    destruct (scan_inv body N Inv (D * N) HN) with (n := Z.to_nat (D * N)) (k := 0) (s := (map (fun _ : Z => 0) (zrange (D * N)), @nil (protohit F))) as (s' & Es & (V & segs & _ & Hc & Hseg & Hne)).
    - intros k (vis & comps) Hk (V & segs & Hrep & Hcomp & Hseg & Hne). cbn [fst snd] in *.
      assert (Hb : bin D N (coord_at N k)) by now apply coord_at_bin.
      unfold body. cbn [fst snd]. destruct (load_rep _ _ _ _ _ vis V _ Hrep Hb) as (v & El & Ht). rewrite El. cbn [lift rbind].
      rewrite bin_snr_ok by auto. cbn [lift rbind snd]. change (gt (snr (X (coord_at N k)) (W (fst (coord_at N k)))) thr) with (above (coord_at N k)).
      destruct ((v =? 0) && above (coord_at N k)) eqn:Ev.
      + apply andb_true_iff in Ev as (Ev & Ea). assert (HV : V (coord_at N k) = false) by (rewrite <- Ht; unfold taken; now rewrite Ev).
        destruct (flood_enough D N ok true offsets HN fuel V (coord_at N k) [] Hfuel Hb) as ((V' & ms) & Efl).
        pose proof (queue_refines D N (dense [D; N]) taken mark true offsets (cc_test snr gt half ls spec noise)
                    (cc_member snr gt ls spec noise (rfi_at low high roll) (coord_at N k)) ok
                    (act snr gt X W R (coord_at N k))) as Q.
        assert (Ht1 : forall c, bin D N c -> cc_test snr gt half ls spec noise c = Ok (ok c)).
        { intros c Hcb. unfold cc_test. rewrite bin_snr_ok by auto. reflexivity. }
        specialize (Q Ht1 (fun c p Hcb => cc_member_ok (coord_at N k) c p Hb Hcb) (lin_dense_inj D N) Hm fuel vis V [coord_at N k] (cc_start fmin fzero) [] Hrep).
        assert (Hq : forall c, In c [coord_at N k] -> bin D N c) by (intros c [<-|[]]; auto).
        specialize (Q Hq). rewrite Efl in Q. destruct Q as (new & vis' & E & Hrep' & Eq). cbn in E. subst new.
        rewrite Eq. cbn [rbind fst snd]. eexists. split; [reflexivity|].
        exists V', (segs ++ [(coord_at N k, ms)]). cbn [fst snd]. split; [exact Hrep'|]. split.
        { rewrite map_app, Hcomp. reflexivity. }
        split; [apply (seg_add D N above ok true offsets HN Hao fuel k V segs V' ms); auto|].
        intros s0 ms0 Hin. apply in_app_iff in Hin as [Hin|[Hin|[]]]; [eauto|]. injection Hin as <- <-.
        assert (Hokc : ok (coord_at N k) = true) by (apply Hao; auto).
        unfold enough in Hfuel. destruct fuel as [|fuel']; [lia|]. cbn [flood] in Efl. rewrite HV, Hokc in Efl. cbv zeta in Efl.
        destruct (flood_spec _ _ _ _ _ _ _ _ _ Efl) as (ms' & E & _). exists (coord_at N k), ms'. split; [exact E|exact Hokc].
      + eexists. split; [reflexivity|]. exists V, segs. cbn [fst snd]. split; [auto|]. split; [auto|]. split; [|auto].
        apply (seg_skip D N above ok offsets HN Hao k V segs Hk Hseg). rewrite <- Ht. unfold taken.
        destruct (v =? 0); [right|now left]. exact Ev.
    - lia.
    - lia.
    - exists (fun _ => false), []. cbn [fst snd]. split.
      { intros c Hcb. exists 0. split; [|split; [reflexivity|intros _; reflexivity]].
        rewrite lin_dense. assert (Hr : 0 <= fst c * N + snd c < D * N) by (destruct Hcb as (Hd & Hf); nia).
        now rewrite znth_map_zrange by lia. }
      split; [reflexivity|]. split; [|intros s0 ms0 []]. apply seg_start; auto.
    - rewrite coord_at_0 in Es by auto. rewrite Es. cbn [rbind]. exists segs. split; [now rewrite Hc|]. split; [|exact Hne].
      now apply seg_done in Hseg.
  Qed.
End Search.
