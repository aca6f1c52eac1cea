(** Consequences of [segmentation]. *)
From Verif Require Export CcProofs3.
From Coq Require Import ZifyBool ZifyNat.
Local Open Scope Z_scope.

Lemma segmentation_in D N above ok adj segs s ms : segmentation D N above ok adj segs -> In (s, ms) segs ->
  exists pre post, segs = pre ++ (s, ms) :: post.
Proof. intros _ H. now apply in_split in H. Qed.

Lemma seg_member_ok D N above ok adj segs s ms c : segmentation D N above ok adj segs ->
  (forall c d, adj c d -> bin D N d) -> In (s, ms) segs -> In c ms -> bin D N c /\ ok c.
Proof.
  intros Hs Hadj Hin Hc. destruct (segmentation_in _ _ _ _ _ _ _ _ Hs Hin) as (pre & post & E).
  destruct (proj1 Hs _ _ _ _ E) as (Hb & _ & _ & Hr & _). apply Hr in Hc.
  destruct Hc as [y [<-|[]] (Hy & _)|x y _ Hy (Ho & _)]; [auto|]. split; [eapply Hadj; eauto|auto].
Qed.

Lemma segmentation_partition D N above ok adj segs : segmentation D N above ok adj segs ->
  (forall c, above c -> ok c) -> (forall c d, adj c d -> bin D N d) -> partitioned D N above ok (map snd segs).
Proof.
  intros Hs Hao Hadj. split; [|split].
  - intros ms Hin. apply in_map_iff in Hin as ((s & ms') & <- & Hin). cbn.
    destruct (segmentation_in _ _ _ _ _ _ _ _ Hs Hin) as (pre & post & E).
    destruct (proj1 Hs _ _ _ _ E) as (Hb & Ha & Hn & Hr & _ & Hc). split; [|split; [auto|]].
    + assert (In s ms') by (apply Hr; apply reach_start; [now left|split; auto]). destruct ms'; [tauto|discriminate].
    + intros c Hcc. eapply seg_member_ok; eauto.
  - assert (G : forall i j a b c, (i < j)%nat -> nth_error (map snd segs) i = Some a -> nth_error (map snd segs) j = Some b -> In c a -> In c b -> False).
    { intros i j a b c Hlt Hi Hj Ha Hb. rewrite nth_error_map in Hi, Hj.
      destruct (nth_error segs i) as [(si & a')|] eqn:Ei; [|discriminate]. destruct (nth_error segs j) as [(sj & b')|] eqn:Ej; [|discriminate].
      cbn in Hi, Hj. injection Hi as ->. injection Hj as ->.
      destruct (nth_error_split segs j Ej) as (pre & post & E & Hl).
      destruct (proj1 Hs _ _ _ _ E) as (_ & _ & _ & Hr & _). apply Hr in Hb.
      assert (Hfree : ~ claimed pre c) by (destruct Hb as [y _ (_ & Hy)|x y _ _ (_ & Hy)]; auto).
      apply Hfree. exists (si, a). split; [|auto]. rewrite E in Ei. rewrite nth_error_app1 in Ei by lia. eapply nth_error_In; eauto. }
    intros i j a b c Hi Hj Ha Hb. destruct (lt_eq_lt_dec i j) as [[H|H]|H]; [|auto|]; exfalso; [apply (G i j a b c)|apply (G j i b a c)]; auto.
  - intros c Hc Ha. destruct (proj2 Hs c Hc Ha) as ((s & ms) & Hin & Hm). exists ms. split; [|auto]. apply in_map_iff. exists (s, ms). auto.
Qed.

(** A component is connected inside itself, from its seed. *)
Lemma segmentation_connected D N above ok adj segs s ms : segmentation D N above ok adj segs ->
  In (s, ms) segs -> connected adj s ms.
Proof.
  intros Hs Hin c. destruct (segmentation_in _ _ _ _ _ _ _ _ Hs Hin) as (pre & post & E).
  destruct (proj1 Hs _ _ _ _ E) as (_ & _ & _ & Hr & _). split.
  - intros Hc. apply Hr in Hc. induction Hc as [y Hy Hf|x y H IH Ha Hf].
    + apply reach_start; [auto|]. apply Hr. now apply reach_start.
    + eapply reach_step; [exact IH|exact Ha|]. apply Hr. eapply reach_step; eauto.
  - intros H. destruct H; auto.
Qed.

(** When starting and belonging are the same thing and the neighbourhood is symmetric, two adjacent
    bins are never split. *)
Lemma segmentation_maximal D N ok adj segs : segmentation D N ok ok adj segs ->
  (forall c d, adj c d -> bin D N d) -> (forall c d, bin D N c -> adj c d -> adj d c) ->
  forall i a c d, nth_error (map snd segs) i = Some a -> In c a -> adj c d -> ok d -> In d a.
Proof.
  intros Hs Hadj Hsym.
  assert (G : forall n i a c d, (i < n)%nat -> nth_error (map snd segs) i = Some a -> In c a -> adj c d -> ok d -> In d a).
  { induction n as [|n IH]; intros i a c d Hlt Hi Hc Had Hd; [lia|].
    rewrite nth_error_map in Hi. destruct (nth_error segs i) as [(s & a')|] eqn:Ei; [|discriminate]. cbn in Hi. injection Hi as ->.
    destruct (nth_error_split segs i Ei) as (pre & post & E & Hl).
    destruct (proj1 Hs _ _ _ _ E) as (Hb & _ & _ & Hr & _).
    assert (Hcb : bin D N c /\ ok c). { eapply (seg_member_ok D N ok ok adj segs s a); eauto. eapply nth_error_In; eauto. }
    assert (Hnc : ~ claimed pre c). { apply Hr in Hc. destruct Hc as [y _ (_ & Hy)|x y _ _ (_ & Hy)]; auto. }
    apply Hr. apply Hr in Hc. eapply reach_step; [exact Hc|exact Had|]. split; [auto|]. intros ((s2 & b) & Hin2 & Hdb). cbn in Hdb.
    apply Hnc. apply In_nth_error in Hin2 as (j & Hj).
    assert (Hjl : (j < i)%nat). { rewrite <- Hl. apply nth_error_Some. congruence. }
    exists (s2, b). split; [eapply nth_error_In; eauto|]. cbn.
    apply (IH j b d c); auto; try lia.
    - rewrite nth_error_map, E, nth_error_app1 by lia. now rewrite Hj.
    - apply Hsym; [apply Hcb|auto].
    - apply Hcb. }
  intros i a c d. apply (G (S i)). lia.
Qed.

Lemma near_by_bin D N offsets c d : near_by D N offsets c d -> bin D N d.
Proof. intros H. apply H. Qed.

(** Termination alone needs nothing about the thresholds. *)
Section Terminates.
  Context {F : Type}.
  Variable snr : F -> F -> F.
  Variable gt : F -> F -> bool.
  Variables (thr half fmin fzero : F).
  Variables (ls : layout) (spec noise : list F) (low high roll : layout * mem Z) (L : Z).
  Variables (D N : Z) (X : coord -> F) (W : Z -> F) (R : coord -> Z * Z * Z).

  Theorem cc_cpu_terminates fuel : plane_holds ls spec D N X ->
    (forall d, 0 <= d < D -> znth noise d = Some (W d)) -> (forall c, bin D N c -> rfi_at low high roll c = Ok (R c)) ->
    0 <= D -> 0 < N -> D * N < 2 ^ 31 -> (enough D N (l1_offsets L) <= fuel)%nat ->
    exists r, cc_cpu snr gt thr half fmin fzero fuel ls spec noise low high roll L = Some (Ok r).
  Proof.
    intros HX HW HR HD HN Hsz Hfuel. unfold cc_cpu. destruct HX as (Hsh & Hx). rewrite Hsh.
    set (offsets := l1_offsets L) in *.
    set (taken := fun v => negb (v =? 0)). set (mark := fun v => to_uint8 (v + 1)).
    set (body := fun c (s : mem Z * list (protohit F)) => _).
    assert (Hnum : numel ls = D * N).
    { unfold numel. rewrite Hsh. destruct (numel_2d D N HD ltac:(lia) Hsz) as [E|E]; [exact E|lia]. }
    rewrite Hnum. set (rep := represents D N (dense [D; N]) taken mark).
    assert (Hm : forall v, taken v = false -> taken (mark v) = true /\ (taken (mark v) = false -> taken (mark (mark v)) = true)).
    { unfold taken. intros v Hv. assert (v = 0) by lia. subst v. split; [reflexivity|discriminate]. }
    assert (HX : plane_holds ls spec D N X) by (split; auto).
    destruct (scan_inv body N (fun _ s => exists V, rep (fst s) V) (D * N) HN) with (n := Z.to_nat (D * N)) (k := 0) (s := (map (fun _ : Z => 0) (zrange (D * N)), @nil (protohit F))) as (s' & Es & _).
    - intros k (vis & comps) Hk (V & Hrep). cbn [fst snd] in *.
      assert (Hb : bin D N (coord_at N k)) by now apply coord_at_bin.
      unfold body. cbn [fst snd]. destruct (load_rep _ _ _ _ _ vis V _ Hrep Hb) as (v & El & Ht). rewrite El. cbn [lift rbind].
      rewrite (bin_snr_ok snr ls spec noise D N X W HX HW) by auto. cbn [lift rbind snd].
      match goal with |- context [if ?b then _ else _] => destruct b end; [|eexists; split; [reflexivity|eauto]].
      set (ok := fun c => gt (snr (X c) (W (fst c))) half).
      destruct (flood_enough D N ok true offsets HN fuel V (coord_at N k) [] Hfuel Hb) as ((V' & ms) & Efl).
      pose proof (queue_refines D N (dense [D; N]) taken mark true offsets (cc_test snr gt half ls spec noise)
                    (cc_member snr gt ls spec noise (rfi_at low high roll) (coord_at N k)) ok
                    (act snr gt X W R (coord_at N k))) as Q.
      assert (Ht1 : forall c, bin D N c -> cc_test snr gt half ls spec noise c = Ok (ok c)).
      { intros c Hcb. unfold cc_test. rewrite (bin_snr_ok snr ls spec noise D N X W HX HW) by auto. reflexivity. }
      specialize (Q Ht1 (fun c p Hcb => cc_member_ok snr gt ls spec noise low high roll D N X W R HX HW HR (coord_at N k) c p Hb Hcb) (lin_dense_inj D N) Hm fuel vis V [coord_at N k] (cc_start fmin fzero) [] Hrep).
      assert (Hq : forall c, In c [coord_at N k] -> bin D N c) by (intros c [<-|[]]; auto).
      specialize (Q Hq). rewrite Efl in Q. destruct Q as (new & vis' & E & Hrep' & Eq). rewrite Eq. cbn [rbind fst snd]. eexists. split; [reflexivity|]. eauto.
    - lia.
    - lia.
    - exists (fun _ => false). cbn [fst]. intros c Hcb. exists 0. split; [|split; [reflexivity|intros _; reflexivity]].
      rewrite lin_dense. assert (Hr : 0 <= fst c * N + snd c < D * N) by (destruct Hcb as (Hd & Hf); nia). now rewrite znth_map_zrange by lia.
    - rewrite coord_at_0 in Es by auto. rewrite Es. cbn [rbind]. eauto.
  Qed.
End Terminates.
