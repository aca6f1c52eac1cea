(** Which bins the GPU component search accounts for. *)
From Verif Require Import CcCudaSpec CcCudaClass CcCudaProofs.
From Coq Require Import Classical_Prop ZArith Lia Wf_nat.
Local Open Scope Z_scope.

Section Find.
  Context {F : Type}.
  Variables (snr : F -> F -> F) (gt : F -> F -> bool) (thr half : F) (D N L : Z) (spec noise : list F) (X : coord -> F) (W : Z -> F).
  Hypothesis HX : plane_holds (dense [D; N]) spec D N X.
  Hypothesis HW : forall d, 0 <= d < D -> znth noise d = Some (W d).
  Hypothesis HN : 0 < N.
  Notation Sx := (Sx snr X W).
  Hypothesis Hord : ordered gt D N Sx.
  Hypothesis Hhalf : forall x, gt x thr = true -> gt x half = true.
  Notation peak := (peak gt thr half D N L Sx).
  Notation uphill := (uphill gt half D N L Sx).
  Notation owned := (owned gt thr half D N L Sx).
  Notation group := (group gt thr half D N L Sx).
  Notation winner := (winner gt thr half D N L Sx).
  Notation beats := (beats gt Sx).
  (** The whole neighbourhood lies in the plane. *)
  Definition inner (c : coord) : Prop := forall d, nb L c d -> bin D N d.

  Lemma climbs c : bin D N c -> inner c -> gt (Sx c) thr = true -> (forall d, bin D N d -> ~ inner d -> gt (Sx d) (Sx c) = false) ->
    exists p, owned c p /\ (p = c \/ gt (Sx p) (Sx c) = true).
  Proof.
    remember (above snr gt D N X W c) as k eqn:Ek. revert c Ek. induction k as [k IH] using lt_wf_ind. intros c Ek Hc Hi Gt Hb. subst k.
    pose proof (ix_range D N c Hc) as Hr. pose proof (coord_ix D N c Hc) as Ec.
    destruct (classify_spec snr gt thr half D N L spec noise X W HX HW HN Hord _ Hr) as (k & E0 & M). unfold meaning in M. rewrite Ec in M.
    destruct k as [| |j].
    - exfalso. destruct M as (M1 & M2).
      assert (Hl : lit gt half D N L Sx c) by (split; [auto|split; [auto|now apply Hhalf]]).
      destruct (steepest_spec snr gt D N spec noise X W HX HW Hord c (l1_offsets L) c true Hc) as (r & E & Hs).
      { intros o Ho. apply Hi, nb_move. eauto. }
      destruct Hs as [(-> & Hmax)|(pre & o & post & Eo & -> & G1 & G2 & G3)].
      + apply M1. split; [split; [exact Hl|]|exact Gt]. intros d Hd. apply nb_move in Hd as (o & Ho & ->). auto.
      + unfold classify in E0. rewrite Ec, (snr_at snr D N spec noise X W HX HW c Hc) in E0. cbn [obind snd] in E0. rewrite (Hhalf _ Gt), E in E0. discriminate.
    - exists c. split; [now constructor|now left].
    - destruct M as (d & Hu & Hd & _). assert (Gd : gt (Sx d) (Sx c) = true) by apply Hu. destruct Hord as (Hirr & Htr & Hco).
      destruct (IH _ (above_lt snr gt half D N L X W Hord c d Hu) d eq_refl Hd) as (p & Ho & Hp).
      + apply NNPP. intros Hn. rewrite (Hb d Hd Hn) in Gd. discriminate.
      + eapply Htr; eauto.
      + intros e He Hne. destruct (gt (Sx e) (Sx d)) eqn:G; [|reflexivity]. rewrite <- (Hb e He Hne). symmetry. eapply Htr; eauto.
      + exists p. split; [econstructor 2; eauto|]. right. destruct Hp as [->|Hp]; [exact Gd|eapply Htr; eauto].
  Qed.

  Lemma peak_inner p : peak p -> bin D N p /\ inner p /\ gt (Sx p) thr = true.
  Proof. intros (((H1 & H2 & _) & _) & H3). auto. Qed.
  Lemma group_ends x y : group x y -> peak x /\ peak y.
  Proof.
    induction 1 as [p Hp|p q (c & d & Hc & Hd & _)|p q _ (A & B)|p q r _ (A & _) _ (_ & B)]; [tauto| |tauto|tauto].
    split; [apply (owned_lit snr gt thr half D N L X W _ _ Hc)|apply (owned_lit snr gt thr half D N L X W _ _ Hd)].
  Qed.
  Lemma beats_trans p q r : bin D N p -> bin D N q -> bin D N r -> beats p q -> beats q r -> beats p r.
  Proof.
    intros Bp Bq Br. destruct Hord as (Hirr & Htr & Hco). unfold CcCudaSpec.beats, earlier. intros [G1|(G1 & E1)] [G2|(G2 & E2)].
    - left. eapply Htr; eauto.
    - left. destruct (Hco p q r Bp Bq Br G1) as [G|G]; [auto|congruence].
    - left. destruct (Hco q r p Bq Br Bp G2) as [G|G]; [congruence|auto].
    - destruct (gt (Sx p) (Sx r)) eqn:G; [now left|]. right. split; [|lia].
      destruct (gt (Sx r) (Sx p)) eqn:G'; [|reflexivity]. destruct (Hco r p q Br Bp Bq G') as [H|H]; congruence.
  Qed.
  Lemma beats_total p q : bin D N p -> bin D N q -> p = q \/ beats p q \/ beats q p.
  Proof.
    intros Bp Bq. unfold CcCudaSpec.beats, earlier. destruct (gt (Sx p) (Sx q)) eqn:G1; [auto|]. destruct (gt (Sx q) (Sx p)) eqn:G2; [auto|].
    destruct p as (a & b), q as (a' & b'). cbn [fst snd].
    destruct (Z.lt_trichotomy a a') as [|[->|]]; [right; left; right; auto| |right; right; right; auto].
    destruct (Z.lt_trichotomy b b') as [|[->|]]; [right; left; right; auto|left; reflexivity|right; right; right; auto].
  Qed.
  (** Every group of peaks has a best one. *)
  Lemma best p : peak p -> exists w, group p w /\ winner w /\ (w = p \/ beats w p).
  Proof.
    intros Hp.
    assert (G : forall l : list Z, exists w, group p w /\ (w = p \/ beats w p) /\ forall n, In n l -> group w (coord_of N n) -> coord_of N n = w \/ beats w (coord_of N n)).
    { induction l as [|a l (w & Hw & Hwp & H)]; [exists p; split; [now constructor|split; [now left|intros n []]]|].
      destruct (classic (group w (coord_of N a) /\ beats (coord_of N a) w)) as [(Ha & Hb)|Hn].
      - assert (Ba : bin D N (coord_of N a)) by exact (proj1 (peak_inner _ (proj2 (group_ends _ _ Ha)))).
        assert (Bw : bin D N w) by exact (proj1 (peak_inner _ (proj1 (group_ends _ _ Ha)))).
        exists (coord_of N a). split; [econstructor 4; eauto|]. split.
        + right. destruct Hwp as [<-|Hwp]; [exact Hb|]. eapply beats_trans; eauto. exact (proj1 (peak_inner _ Hp)).
        + intros n [<-|Hi] Hg; [now left|]. right. assert (Hg' : group w (coord_of N n)) by (econstructor 4; eauto).
          destruct (H n Hi Hg') as [->|Hb']; [exact Hb|]. eapply beats_trans; eauto. exact (proj1 (peak_inner _ (proj2 (group_ends _ _ Hg)))).
      - exists w. split; [exact Hw|]. split; [exact Hwp|]. intros n [<-|Hi] Hg; [|auto].
        assert (Ba : bin D N (coord_of N a)) by exact (proj1 (peak_inner _ (proj2 (group_ends _ _ Hg)))).
        assert (Bw : bin D N w) by exact (proj1 (peak_inner _ (proj1 (group_ends _ _ Hg)))).
        destruct (beats_total (coord_of N a) w Ba Bw) as [->|[Hb|Hb]]; [now left|exfalso; auto|now right]. }
    destruct (G (zrange (D * N))) as (w & Hw & Hwp & H). exists w. split; [exact Hw|]. split; [|exact Hwp].
    split; [apply (group_ends _ _ Hw)|]. intros q Hq. assert (Bq : bin D N q) by exact (proj1 (peak_inner _ (proj2 (group_ends _ _ Hq)))).
    rewrite <- (coord_ix D N q Bq) in Hq |- *. apply H; [|exact Hq]. apply in_zrange. now apply ix_range.
  Qed.
  (** A bin above the threshold whose neighbourhood lies in the plane is represented, unless a bin near the border of the plane is stronger. *)
  Theorem represented c : bin D N c -> inner c -> gt (Sx c) thr = true -> (forall d, bin D N d -> ~ inner d -> gt (Sx d) (Sx c) = false) ->
    exists w, winner w /\ gt (Sx c) (Sx w) = false.
  Proof.
    intros Hc Hi Gt Hb. destruct (climbs c Hc Hi Gt Hb) as (p & Ho & Hp). destruct (best p) as (w & Hg & Hw & Hwp); [apply (owned_lit snr gt thr half D N L X W _ _ Ho)|].
    exists w. split; [exact Hw|]. assert (Bp : bin D N p) by (apply (owned_bin snr gt thr half D N L X W _ _ Ho)).
    assert (Bw : bin D N w) by (exact (proj1 (peak_inner w (proj1 Hw)))). destruct Hord as (Hirr & Htr & Hco).
    destruct (gt (Sx c) (Sx w)) eqn:G; [|reflexivity]. exfalso.
    assert (G' : gt (Sx p) (Sx w) = true) by (destruct Hp as [->|Hp]; [exact G|eapply Htr; eauto]).
    destruct Hwp as [->|[H|(H & _)]]; [rewrite Hirr in G'; discriminate| |congruence]. pose proof (Htr _ _ _ G' H) as E. rewrite Hirr in E. discriminate.
  Qed.
  Lemma winner_above w : winner w -> bin D N w /\ inner w /\ gt (Sx w) thr = true.
  Proof. intros (H & _). now apply peak_inner. Qed.
End Find.
