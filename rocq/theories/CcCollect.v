(** The last kernel of the GPU component search, collect_protohit_md_kernel (connected_components_cuda.cu 266-311), and the export (453-493). *)
From Verif Require Export CcCudaProofs CcCudaResolve.
From Coq Require Import ZifyBool Lia Permutation.
Local Open Scope Z_scope.

(** The fields of device_protohit that this kernel fills (core/protohit.hpp 30-43): low_sk_count, high_sk_count, binwidth, index_center. *)
Record pmeta := PMeta { pm_low : Z; pm_high : Z; pm_width : Z; pm_center : coord }.

Section Collect.
  Variables (N : Z) (lab low high : list Z).
  (** Lines 286-292: steps down until a bin without label or the first channel; [f] is the edge so far. *)
  Fixpoint low_edge (fuel : nat) (d f : Z) : outcome Z :=
    match fuel with
    | O => UB
    | S k => let! v := load lab (d * N + (f - 1)) in
             if (1 <? v) && (0 <? f - 1) then low_edge k d (f - 1) else Ok (f - 1)
    end.
  (** Lines 294-300 *)
  Fixpoint high_edge (fuel : nat) (d f : Z) : outcome Z :=
    match fuel with
    | O => UB
    | S k => let! v := load lab (d * N + (f + 1)) in
             if (1 <? v) && (f + 1 <? N - 1) then high_edge k d (f + 1) else Ok (f + 1)
    end.
  (** Lines 279-306 for a protohit whose peak is at linear index [n].  The loops run at least once. *)
  Definition collect_one (n : Z) : outcome pmeta :=
    let d := Z.quot n N in let f := Z.rem n N in
    let! lo := low_edge (S (Z.to_nat f)) d f in
    let! up := high_edge (S (Z.to_nat (N - f))) d f in
    let! a := load low (d * N + f) in
    let! b := load high (d * N + f) in
    Ok (PMeta a b (up - lo) (d, Z.quot (lo + up) 2)).

  (** The table begins after the 8 reserved entries (453-455); entries with invalidated_by <> 0 are left alone.  Everything read is constant during the
      kernel, the entry itself belongs to one thread. *)
  Variables (mx : list (option Z)) (inv : list Z).
  Inductive cstate := CIdle (todo : list Z) | CStore (p : Z) (v : pmeta) (todo : list Z).
  Definition collect_step (tab : list (option pmeta)) (s : cstate) : option (outcome (list (option pmeta) * cstate)) :=
    match s with
    | CIdle [] => None
    | CIdle (p :: t) =>
      Some (let! i := zget inv (8 + p) in
            if i =? 0 then
              let! o := zget mx (8 + p) in
              match o with None => UB | Some n => let! v := collect_one n in Ok (tab, CStore p v t) end
            else Ok (tab, CIdle t))
    | CStore p v t => Some (let! tab' := store tab p (Some v) in Ok (tab', CIdle t))
    end.
End Collect.

(** A run of all four kernels with [G] threads in the first three and [H] in the last: the table it leaves. *)
Definition fresh_table (m : gmem) : list (option pmeta) := map (fun _ => None) (zrange (zlen (g_claims m))).
Definition collect_run (N : Z) (low high : list Z) (H : Z) (m : gmem) (tab : list (option pmeta)) : Prop :=
  exists ss, msteps (collect_step N (g_labels m) low high (g_max m) (g_inv m)) (fresh_table m, map CIdle (work (zlen (g_claims m)) 1 H)) (Ok (tab, ss)) /\
    halted (collect_step N (g_labels m) low high (g_max m) (g_inv m)) (tab, ss).
(** What the host exports: peak and metadata of the entries with invalidated_by == 0, in table order. *)
Definition exported (m : gmem) (tab : list (option pmeta)) : list (option Z * option pmeta) :=
  map (fun i => (match znth (g_max m) (8 + i) with Some o => o | None => None end, match znth tab i with Some o => o | None => None end))
      (filter (fun i => match znth (g_inv m) (8 + i) with Some v => v =? 0 | None => false end) (zrange (zlen (g_claims m)))).

(** ** Any schedule fills in exactly the entries that are valid. *)
Section All.
  Variables (N : Z) (lab low high : list Z) (mx : list (option Z)) (inv : list Z) (K : Z) (want : Z -> option pmeta).
  Hypothesis HK : 0 <= K.
  Hypothesis Hwant : forall p, 0 <= p < K -> exists i, zget inv (8 + p) = Ok i /\
    (i <> 0 /\ want p = None \/ i = 0 /\ exists n v, zget mx (8 + p) = Ok (Some n) /\ collect_one N lab low high n = Ok v /\ want p = Some v).
  Notation step := (collect_step N lab low high mx inv).
  Definition cpend (s : cstate) : list Z := match s with CIdle t => t | CStore p _ t => p :: t end.
  Definition cJ (tab : list (option pmeta)) (l : list Z) : Prop :=
    NoDup l /\ (forall p, In p l -> 0 <= p < K) /\ zlen tab = K /\
    (forall p, 0 <= p < K -> ~ In p l -> znth tab p = Some (want p)) /\ (forall p, In p l -> znth tab p = Some None).
  Definition cLo (tab : list (option pmeta)) (s : cstate) : Prop := match s with CIdle _ => True | CStore p v _ => want p = Some v end.
  Definition cmu (s : cstate) : nat := match s with CIdle t => 2 * length t | CStore _ _ t => 2 * length t + 1 end.
  Lemma cJ_perm tab l l' : Permutation l l' -> cJ tab l -> cJ tab l'.
  Proof.
    intros P (A & B & C & E & G). split; [eapply Permutation_NoDup; eauto|].
    assert (I : forall p, In p l' <-> In p l) by (intros p; split; apply Permutation_in; [symmetry|]; exact P).
    split; [intros p Hp; apply B, I, Hp|]. split; [exact C|]. split; [intros p Hp Hn; apply E; [exact Hp|]; rewrite <- I; exact Hn|].
    intros p Hp. apply G, I, Hp.
  Qed.
  Lemma cJ_drop tab p l : cJ tab (p :: l) -> want p = None -> cJ tab l.
  Proof.
    intros (A & B & C & E & G) W. inversion A; subst. split; [assumption|]. split; [intros q Hq; apply B; now right|]. split; [exact C|].
    split; [|intros q Hq; apply G; now right].
    intros q Hq Hn. destruct (Z.eq_dec q p) as [->|Hne]; [|apply E; [exact Hq|]; intros [->|Hi]; auto]. rewrite W. apply G. now left.
  Qed.
  Lemma cstep_ok tab s o rest : step tab s = Some o -> cLo tab s -> cJ tab (cpend s ++ rest) ->
    exists tab' s', o = Ok (tab', s') /\ cLo tab' s' /\ cJ tab' (cpend s' ++ rest) /\ (forall s2, cLo tab s2 -> cLo tab' s2).
  Proof.
    intros Hs HL HJ. destruct s as [[|p t]|p v t]; cbn [collect_step cpend app] in *; [discriminate| |]; injection Hs as <-.
    - assert (Hp : 0 <= p < K) by (apply HJ; now left). destruct (Hwant p Hp) as (i & -> & [(Hi & W)|(-> & n & v & E1 & E2 & W)]); cbn [obind].
      + replace (i =? 0) with false by lia. exists tab, (CIdle t). split; [reflexivity|]. split; [exact I|]. split; [eapply cJ_drop; eauto|auto].
      + change (0 =? 0) with true. cbv iota. rewrite E1. cbn [obind]. rewrite E2. cbn [obind]. exists tab, (CStore p v t). split; [reflexivity|]. split; [exact W|]. split; [exact HJ|auto].
    - destruct HJ as (A & B & C & E & G). assert (Hp : 0 <= p < K) by (apply B; now left).
      destruct (NdMemFacts.store_ok tab p (Some v)) as (tab' & Es & L' & S1 & S2); [lia|]. rewrite Es. cbn [obind]. exists tab', (CIdle t). split; [reflexivity|]. split; [exact I|].
      split; [|intros [|]; auto]. inversion A; subst. cbn [cpend].
      split; [assumption|]. split; [intros q Hq; apply B; now right|]. split; [lia|]. split.
      + intros q Hq Hn. destruct (Z.eq_dec q p) as [->|Hne]; [cbn in HL; rewrite HL; exact S1|]. rewrite S2 by auto. apply E; [exact Hq|]. intros [->|Hi]; auto.
      + intros q Hq. rewrite S2; [apply G; now right|]. intros ->. contradiction.
  Qed.
  Lemma collect_all G : 0 < G -> always_ends step (map (fun _ => None) (zrange K), map CIdle (work K 1 G)) /\
    forall o, msteps step (map (fun _ => None) (zrange K), map CIdle (work K 1 G)) o -> exists tab ss, o = Ok (tab, ss) /\
      (halted step (tab, ss) -> zlen tab = K /\ forall p, 0 <= p < K -> znth tab p = Some (want p)).
  Proof.
    intros HG.
    assert (Hm : minv cpend cJ cLo (map (fun _ => None) (zrange K), map CIdle (work K 1 G))).
    { split; cbn [fst snd].
      - assert (Ef : flat_map cpend (map CIdle (work K 1 G)) = concat (work K 1 G)) by (rewrite flat_map_concat_map, map_map, map_id; reflexivity).
        rewrite Ef. apply cJ_perm with (l := zrange K); [symmetry; rewrite (work_spread K 1 G HG), Z.mul_1_r; reflexivity|].
        assert (Lt : zlen (map (fun _ : Z => @None pmeta) (zrange K)) = K) by (pose proof (zrange_length K) as E; unfold zlen in *; rewrite map_length, E; lia).
        split; [apply zrange_nodup|]. split; [intros p Hp; apply in_zrange; exact Hp|]. split; [exact Lt|].
        split; [intros p Hp Hn; exfalso; apply Hn, in_zrange, Hp|]. intros p Hp. apply in_zrange in Hp. apply znth_const. rewrite zrange_length. lia.
      - apply Forall_map, Forall_forall. intros; exact I. }
    split; [apply ends_by_measure with (mu := cmu)|].
    - intros tab s tab' s' Hs. destruct s as [[|p t]|p v t]; cbn [collect_step] in Hs; [discriminate| |].
      + injection Hs as Hs. destruct (zget inv (8 + p)) as [i| |]; try discriminate. cbn [obind] in Hs. destruct (i =? 0); [|injection Hs as <- <-; cbn; lia].
        destruct (zget mx (8 + p)) as [[n|]| |]; try discriminate. cbn [obind] in Hs. destruct (collect_one _ _ _ _ n) as [w| |]; try discriminate. injection Hs as <- <-. cbn. lia.
      + injection Hs as Hs. destruct (store tab p (Some v)) as [tb| |]; try discriminate. injection Hs as <- <-. cbn. lia.
    - intros o Ho. destruct (minv_steps step cpend cJ cLo cJ_perm cstep_ok _ _ Hm Ho) as ((tab & ss) & -> & (HJ & HL)). exists tab, ss. split; [reflexivity|]. intros Hh.
      cbn [fst snd] in *. assert (En : flat_map cpend ss = []).
      { unfold halted in Hh. cbn [fst snd] in Hh. clear - Hh. induction Hh as [|s ss Hs Hh IH]; [reflexivity|]. cbn [flat_map]. rewrite IH, app_nil_r. destruct s as [[|p t]|p v t]; cbn in *; [reflexivity|discriminate|discriminate]. }
      rewrite En in HJ. destruct HJ as (_ & _ & C & E & _). split; [exact C|]. intros p Hp. apply E; auto.
  Qed.
End All.
