(** Deferred arrays: invariant over arbitrary histories. *)
From Verif Require Export RedModel BaseFacts.
From Coq Require Import Lia.
Local Open Scope nat_scope.

Section Inv.
Context {A C : Type} (gen : nat -> nat -> A) (move : A -> dev -> A) (content : A -> C).
Hypothesis move_content : forall a d, content (move a d) = content a.

Definition runs_of (w : dworld A) (g : nat) : nat := count_occ Nat.eq_dec (w_runs w) g.

(** What a read through a handle of this origin may return. *)
Definition genuine (runs : list nat) (o : origin A) (a : A) : Prop :=
  match o with
  | FromGen g => exists k, k < count_occ Nat.eq_dec runs g /\ content a = content (gen g k)
  | FromArray b => content a = content b
  | FromNothing => False
  end.

Definition ok_cell (w : dworld A) (h : handle A) (v : dvariant A) : Prop :=
  match v with
  | DCall g => h_origin h = FromGen g /\ nth_error (w_pols w) g = Some (h_policy h) /\ h_policy h <> Eager
  | DData a => genuine (w_runs w) (h_origin h) a
  end.

Definition ok_handle (w : dworld A) (h : handle A) : Prop :=
  match h_ptr h with
  | None => True
  | Some p => exists v, nth_error (w_heap w) p = Some v /\ ok_cell w h v
  end.

Record inv (w : dworld A) : Prop := {
  inv_handles : Forall (ok_handle w) (w_handles w);
  inv_unique : forall p q g, nth_error (w_heap w) p = Some (DCall g) -> nth_error (w_heap w) q = Some (DCall g) -> p = q;
  inv_call : forall p g, nth_error (w_heap w) p = Some (DCall g) ->
     exists pol, nth_error (w_pols w) g = Some pol /\ (pol <> Lazy -> runs_of w g = 0);
  inv_once : forall g pol, nth_error (w_pols w) g = Some pol -> pol <> Lazy -> runs_of w g <= 1;
  inv_fresh : forall g, length (w_pols w) <= g -> runs_of w g = 0;
}.

Lemma genuine_mono r r' o a : (forall g, count_occ Nat.eq_dec r g <= count_occ Nat.eq_dec r' g) -> genuine r o a -> genuine r' o a.
Proof.
  intros H. destruct o; cbn; auto. intros (k & Hk & E). exists k. split; [specialize (H g); lia|exact E].
Qed.
Lemma genuine_content r o a b : content a = content b -> genuine r o a -> genuine r o b.
Proof. intros E. destruct o; cbn; rewrite ?E; auto. Qed.

Lemma count_snoc (l : list nat) g x : count_occ Nat.eq_dec (l ++ [x]) g = count_occ Nat.eq_dec l g + (if Nat.eq_dec x g then 1 else 0).
Proof. rewrite count_occ_app. cbn. destruct (Nat.eq_dec x g); reflexivity. Qed.

(** Growing the world without touching old cells keeps the handles fine. *)
Lemma ok_handle_grow w w' h :
  (forall p v, nth_error (w_heap w) p = Some v -> nth_error (w_heap w') p = Some v) ->
  (forall g pol, nth_error (w_pols w) g = Some pol -> nth_error (w_pols w') g = Some pol) ->
  (forall g, count_occ Nat.eq_dec (w_runs w) g <= count_occ Nat.eq_dec (w_runs w') g) ->
  ok_handle w h -> ok_handle w' h.
Proof.
  intros H1 H2 H3. unfold ok_handle. destruct (h_ptr h) as [p|]; [|auto]. intros (v & Hv & Hc). exists v. split; [auto|].
  destruct v; cbn in *; [eapply genuine_mono; eauto|]. destruct Hc as (E1 & E2 & E3). auto.
Qed.

Lemma nth_error_snoc {B} (l : list B) x i y : nth_error (l ++ [x]) i = Some y ->
  nth_error l i = Some y \/ (i = length l /\ x = y).
Proof.
  destruct (Nat.lt_ge_cases i (length l)) as [H|H]; [rewrite nth_error_app1 by auto; auto|].
  rewrite nth_error_app2 by auto. destruct (i - length l) as [|n] eqn:E; cbn.
  - intros Hx. right. split; [lia|congruence].
  - destruct n; discriminate.
Qed.
Lemma nth_error_app_l {B} (l m : list B) i x : nth_error l i = Some x -> nth_error (l ++ m) i = Some x.
Proof. intros H. rewrite nth_error_app1; [exact H|]. apply nth_error_Some. congruence. Qed.
Lemma nth_error_last {B} (l : list B) x : nth_error (l ++ [x]) (length l) = Some x.
Proof. rewrite nth_error_app2 by auto. rewrite Nat.sub_diag. reflexivity. Qed.

Lemma Forall_grow w w' : (forall p v, nth_error (w_heap w) p = Some v -> nth_error (w_heap w') p = Some v) ->
  (forall g pol, nth_error (w_pols w) g = Some pol -> nth_error (w_pols w') g = Some pol) ->
  (forall g, count_occ Nat.eq_dec (w_runs w) g <= count_occ Nat.eq_dec (w_runs w') g) ->
  Forall (ok_handle w) (w_handles w) -> Forall (ok_handle w') (w_handles w).
Proof. intros H1 H2 H3. apply Forall_impl. intros h. apply ok_handle_grow; auto. Qed.

Lemma Forall_upd {B} (P : B -> Prop) l i x : Forall P l -> P x -> Forall P (upd l i (fun _ => x)).
Proof. intros H; revert i; induction H as [|y l Hy H IH]; intros [|i] Hx; cbn; auto. Qed.

Lemma call_fresh w g : inv w -> length (w_pols w) <= g -> ~ exists p, nth_error (w_heap w) p = Some (DCall g).
Proof.
  intros I Hg (p & Hp). destruct (inv_call w I p g Hp) as (pol & E & _).
  assert (g < length (w_pols w)) by (apply nth_error_Some; congruence). lia.
Qed.

Lemma inv_new_callable w p : inv w -> inv (new_callable gen w p).
Proof.
  intros I. pose proof (inv_fresh w I (length (w_pols w)) (le_n _)) as F0. unfold runs_of in F0.
  assert (GH : forall x, forall p0 v, nth_error (w_heap w) p0 = Some v -> nth_error (w_heap w ++ [x]) p0 = Some v) by (intros; apply nth_error_app_l; auto).
  assert (GP : forall g pol, nth_error (w_pols w) g = Some pol -> nth_error (w_pols w ++ [p]) g = Some pol) by (intros; apply nth_error_app_l; auto).
  unfold new_callable. destruct p.
  1,2: constructor; cbn [w_heap w_handles w_pols w_runs]; unfold runs_of in *; cbn [w_runs] in *.
  1,6: (apply Forall_app; split; [apply (Forall_grow w); cbn; auto; apply (inv_handles w I)|];
        constructor; [|constructor]; unfold ok_handle; cbn; eexists; split; [apply nth_error_last|]; cbn;
        split; [reflexivity|]; split; [apply nth_error_last|discriminate]).
  1,5: (intros a b g Ha Hb; apply nth_error_snoc in Ha, Hb;
        destruct Ha as [Ha|[-> Ha]], Hb as [Hb|[-> Hb]]; auto; [eapply (inv_unique w I); eauto| |];
        exfalso; injection Ha as <- || injection Hb as <-; eapply (call_fresh w); eauto).
  1,4: (intros a g Ha; apply nth_error_snoc in Ha; destruct Ha as [Ha|[_ Ha]];
        [destruct (inv_call w I a g Ha) as (pol & E & H); exists pol; split; [auto|exact H]|
         injection Ha as <-; eexists; split; [apply nth_error_last|intros; exact F0]]).
  1,3: (intros g pol Hg Hp; apply nth_error_snoc in Hg; destruct Hg as [Hg|[-> Hg]];
        [eapply (inv_once w I); eauto|rewrite F0; lia]).
  1,2: (intros g Hg; rewrite app_length in Hg; cbn in Hg; apply (inv_fresh w I); lia).
  constructor; cbn [w_heap w_handles w_pols w_runs]; unfold runs_of in *; cbn [w_runs] in *.
  - apply Forall_app. split.
    + apply (Forall_grow w); cbn; auto; [|apply (inv_handles w I)]. intros g. rewrite count_snoc. lia.
    + constructor; [|constructor]. unfold ok_handle. cbn. eexists. split; [apply nth_error_last|]. cbn.
      exists 0. rewrite count_snoc, F0. destruct (Nat.eq_dec _ _); [|congruence]. split; [lia|].
      unfold run_gen. rewrite F0. reflexivity.
  - intros a b g Ha Hb. apply nth_error_snoc in Ha, Hb.
    destruct Ha as [Ha|[-> Ha]], Hb as [Hb|[-> Hb]]; try discriminate. eapply (inv_unique w I); eauto.
  - intros a g Ha. apply nth_error_snoc in Ha. destruct Ha as [Ha|[_ Ha]]; [|discriminate].
    destruct (inv_call w I a g Ha) as (pol & E & H). exists pol. split; [auto|]. intros Hp.
    rewrite count_snoc. assert (g < length (w_pols w)) by (apply nth_error_Some; congruence).
    destruct (Nat.eq_dec _ _); [lia|]. rewrite (H Hp : count_occ _ _ _ = 0). reflexivity.
  - intros g pol Hg Hp. rewrite count_snoc. apply nth_error_snoc in Hg. destruct Hg as [Hg|[-> Hg]].
    + assert (g < length (w_pols w)) by (apply nth_error_Some; congruence).
      destruct (Nat.eq_dec _ _); [lia|]. pose proof (inv_once w I g pol Hg Hp) as O. unfold runs_of in O. lia.
    + rewrite F0. destruct (Nat.eq_dec _ _); lia.
  - intros g Hg. rewrite app_length in Hg. cbn in Hg. rewrite count_snoc.
    pose proof (inv_fresh w I g ltac:(lia)) as F. unfold runs_of in F. rewrite F. destruct (Nat.eq_dec _ _); lia.
Qed.

Lemma inv_add_handle w h : inv w -> ok_handle w h -> inv (add_handle w h).
Proof.
  intros I H. constructor; cbn; try apply I.
  apply Forall_app. split; [|constructor; auto]. exact (inv_handles w I).
Qed.
Lemma inv_set_handle w i h : inv w -> ok_handle w h -> inv (set_handle w i h).
Proof.
  intros I H. constructor; cbn; try apply I. apply Forall_upd; [|exact H]. exact (inv_handles w I).
Qed.
Lemma inv_add_data w a : inv w -> inv (DWorld (w_heap w ++ [DData a]) (w_handles w) (w_pols w) (w_runs w)).
Proof.
  intros I. constructor; cbn; try apply I.
  - apply (Forall_grow w); cbn; auto; [intros; apply nth_error_app_l; auto|apply (inv_handles w I)].
  - intros p q g Hp Hq. apply nth_error_snoc in Hp, Hq.
    destruct Hp as [Hp|[_ Hp]]; [|discriminate]. destruct Hq as [Hq|[_ Hq]]; [|discriminate]. eapply (inv_unique w I); eauto.
  - intros p g Hp. apply nth_error_snoc in Hp. destruct Hp as [Hp|[_ Hp]]; [|discriminate]. apply (inv_call w I p g Hp).
Qed.

Lemma nth_error_upd {B} (l : list B) i x j y : nth_error (upd l i (fun _ => x)) j = Some y ->
  (i = j /\ x = y) \/ (i <> j /\ nth_error l j = Some y).
Proof.
  destruct (Nat.eq_dec i j) as [->|H].
  - intros E. left. split; [reflexivity|]. destruct (nth_error l j) as [z|] eqn:Ez.
    + rewrite (nth_error_upd_same l j _ z Ez) in E. congruence.
    + exfalso. apply nth_error_None in Ez. assert (j < length (upd l j (fun _ => x))) by (apply nth_error_Some; congruence).
      rewrite upd_length in H. lia.
  - rewrite nth_error_upd_other by auto. auto.
Qed.

Lemma inv_read w h w' a : inv w -> In h (w_handles w) -> dread gen move w h = Ok (w', a) ->
  inv w' /\ genuine (w_runs w') (h_origin h) a /\ (forall g, runs_of w g <= runs_of w' g) /\
  (forall d, h_dev h = Some d -> exists raw, a = move raw d) /\ w_pols w' = w_pols w.
Proof.
  intros I Hin E. unfold dread in E. destruct (h_ptr h) as [p|] eqn:Ep; [|discriminate].
  destruct (nth_error (w_heap w) p) as [v|] eqn:Ev; [|discriminate]. injection E as <- <-. cbn [w_runs w_pols].
  pose proof (inv_handles w I) as IH. rewrite Forall_forall in IH. pose proof (IH h Hin) as Hok. unfold ok_handle in Hok.
  rewrite Ep in Hok. destruct Hok as (v' & Ev' & Hc). rewrite Ev in Ev'. injection Ev' as <-.
  set (raw := match v with DCall g => run_gen gen w g | DData a => a end) in *.
  set (runs := match v with DCall g => w_runs w ++ [g] | DData _ => w_runs w end) in *.
  set (actual := match h_dev h with Some d => move raw d | None => raw end) in *.
  assert (Hca : content actual = content raw) by (unfold actual; destruct (h_dev h); [apply move_content|reflexivity]).
  assert (Hmono : forall g, count_occ Nat.eq_dec (w_runs w) g <= count_occ Nat.eq_dec runs g).
  { intros g. unfold runs. destruct v; [lia|]. rewrite count_snoc. lia. }
  assert (Hraw : genuine runs (h_origin h) raw).
  { unfold raw, runs. destruct v as [b|g]; cbn in Hc; [exact Hc|]. destruct Hc as (Eo & _ & _). rewrite Eo. cbn.
    exists (count_occ Nat.eq_dec (w_runs w) g). rewrite count_snoc. destruct (Nat.eq_dec g g); [|congruence]. split; [lia|reflexivity]. }
  assert (Hact : genuine runs (h_origin h) actual) by (eapply genuine_content; [symmetry; exact Hca|exact Hraw]).
  split; [|split; [exact Hact|split; [exact Hmono|split; [|reflexivity]]]].
  2:{ intros d Hd. unfold actual. rewrite Hd. eauto. }
  destruct (h_policy h) eqn:Epol.
  - (* memoize *)
    constructor; cbn [w_heap w_handles w_pols w_runs]; unfold runs_of; cbn [w_runs].
    + apply Forall_forall. intros h2 Hh2. specialize (IH h2 Hh2). unfold ok_handle in *. cbn.
      destruct (h_ptr h2) as [p2|]; [|auto]. destruct IH as (v2 & Ev2 & Hc2).
      destruct (Nat.eq_dec p p2) as [->|Hne].
      * rewrite Ev in Ev2. injection Ev2 as <-. exists (DData actual). split; [apply (nth_error_upd_same _ _ _ v Ev)|]. cbn.
        destruct v as [b|g]; cbn in Hc2.
        -- eapply genuine_content; [symmetry; exact Hca|]. eapply genuine_mono; [|exact Hc2]. exact Hmono.
        -- destruct Hc as (Eo & _). destruct Hc2 as (Eo2 & _). rewrite Eo2, <- Eo. exact Hact.
      * exists v2. split; [rewrite nth_error_upd_other by auto; exact Ev2|].
        destruct v2; cbn in *; [eapply genuine_mono; eauto|exact Hc2].
    + intros a b g Ha Hb. apply nth_error_upd in Ha, Hb. destruct Ha as [[_ Ha]|[_ Ha]]; [discriminate|].
      destruct Hb as [[_ Hb]|[_ Hb]]; [discriminate|]. eapply (inv_unique w I); eauto.
    + intros a g Ha. apply nth_error_upd in Ha. destruct Ha as [[_ Ha]|[Hne Ha]]; [discriminate|].
      destruct (inv_call w I a g Ha) as (pol & E & H). exists pol. split; [exact E|]. intros Hp. specialize (H Hp). unfold runs_of in H.
      unfold runs. destruct v as [b|g2]; [exact H|]. rewrite count_snoc.
      destruct (Nat.eq_dec g2 g) as [->|]; [exfalso; apply Hne; eapply (inv_unique w I); eauto|]. lia.
    + intros g pol Hg Hp. unfold runs. destruct v as [b|g2]; [eapply (inv_once w I); eauto|]. rewrite count_snoc.
      destruct (Nat.eq_dec g2 g) as [->|].
      * destruct (inv_call w I p g Ev) as (pol' & E & H). assert (pol' = pol) by congruence. subst pol'.
        specialize (H Hp). unfold runs_of in H. lia.
      * pose proof (inv_once w I g pol Hg Hp) as O. unfold runs_of in O. lia.
    + intros g Hg. pose proof (inv_fresh w I g Hg) as F. unfold runs_of in F. unfold runs. destruct v as [b|g2]; [exact F|].
      rewrite count_snoc. destruct (Nat.eq_dec g2 g) as [->|]; [|lia].
      exfalso. apply (call_fresh w g I Hg). eauto.
  - (* lazy *)
    constructor; cbn [w_heap w_handles w_pols w_runs]; unfold runs_of; cbn [w_runs].
    + apply (Forall_grow w); cbn; auto. apply (inv_handles w I).
    + apply (inv_unique w I).
    + intros a g Ha. destruct (inv_call w I a g Ha) as (pol & E & H). exists pol. split; [exact E|]. intros Hp.
      specialize (H Hp). unfold runs_of in H. unfold runs. destruct v as [b|g2]; [exact H|]. rewrite count_snoc.
      destruct (Nat.eq_dec g2 g) as [->|]; [|lia]. cbn in Hc. destruct Hc as (_ & Hpo & _). congruence.
    + intros g pol Hg Hp. unfold runs. destruct v as [b|g2]; [eapply (inv_once w I); eauto|]. rewrite count_snoc.
      pose proof (inv_once w I g pol Hg Hp) as O. unfold runs_of in O.
      destruct (Nat.eq_dec g2 g) as [->|]; [|lia]. cbn in Hc. destruct Hc as (_ & Hpo & _). congruence.
    + intros g Hg. pose proof (inv_fresh w I g Hg) as F. unfold runs_of in F. unfold runs. destruct v as [b|g2]; [exact F|].
      rewrite count_snoc. destruct (Nat.eq_dec g2 g) as [->|]; [|lia]. exfalso. apply (call_fresh w g I Hg). eauto.
  - (* eager: the variant holds data *)
    assert (runs = w_runs w) as ->.
    { unfold runs. destruct v; [reflexivity|]. cbn in Hc. destruct Hc as (_ & _ & Hc). congruence. }
    destruct w as [wh whs wp wr]; exact I.
Qed.

Lemma inv_step w o w' r : inv w -> dstep gen move w o = Ok (w', r) ->
  inv w' /\ (forall g, runs_of w g <= runs_of w' g) /\ (forall g pol, nth_error (w_pols w) g = Some pol -> nth_error (w_pols w') g = Some pol) /\
  match r with
  | Some (h, a) => genuine (w_runs w') (h_origin h) a /\ (forall d, h_dev h = Some d -> exists raw, a = move raw d)
  | None => True
  end.
Proof.
  intros I E.
  assert (NC : forall p, inv (new_callable gen w p) /\ (forall g, runs_of w g <= runs_of (new_callable gen w p) g) /\
      (forall g pol, nth_error (w_pols w) g = Some pol -> nth_error (w_pols (new_callable gen w p)) g = Some pol)).
  { intros p. split; [apply inv_new_callable; exact I|]. unfold runs_of, new_callable.
    destruct p; cbn; (split; [intros; rewrite ?count_snoc; lia|intros; apply nth_error_app_l; auto]). }
  destruct o as [p| |a| |i|i d|i d|i]; cbn in E.
  - injection E as <- <-. destruct (NC p) as (N1 & N2 & N3). auto.
  - injection E as <- <-. destruct (NC Lazy) as (N1 & N2 & N3). auto.
  - injection E as <- <-. split; [|split; [intros; unfold runs_of; cbn; lia|split; [auto|exact Logic.I]]].
    apply (inv_add_handle (DWorld (w_heap w ++ [DData a]) (w_handles w) (w_pols w) (w_runs w))); [apply inv_add_data; exact I|].
    unfold ok_handle. cbn. eexists. split; [apply nth_error_last|]. cbn. reflexivity.
  - injection E as <- <-. split; [|split; [intros; unfold runs_of; cbn; lia|split; [auto|exact Logic.I]]].
    apply inv_add_handle; [exact I|]. exact Logic.I.
  - destruct (nth_error (w_handles w) i) as [h|] eqn:Eh; [|discriminate]. injection E as <- <-.
    split; [|split; [intros; unfold runs_of; cbn; lia|split; [auto|exact Logic.I]]].
    apply inv_add_handle; [exact I|]. pose proof (inv_handles w I) as IH. rewrite Forall_forall in IH. apply IH. eapply nth_error_In; eauto.
  - destruct (nth_error (w_handles w) i) as [h|] eqn:Eh; [|discriminate].
    pose proof (inv_handles w I) as IH. rewrite Forall_forall in IH. specialize (IH h (nth_error_In _ _ Eh)). unfold ok_handle in IH.
    destruct (h_ptr h) as [p|] eqn:Ep; [|discriminate]. destruct IH as (v & Ev & Hc). rewrite Ev in E.
    destruct v as [a|g]; injection E as <- <-; (split; [|split; [intros; unfold runs_of; cbn; lia|split; [auto|exact Logic.I]]]).
    + apply inv_set_handle; [apply inv_add_data; exact I|]. unfold ok_handle. cbn. eexists. split; [apply nth_error_last|]. cbn in *.
      eapply genuine_content; [|exact Hc]. symmetry. apply move_content.
    + apply inv_set_handle; [exact I|]. unfold ok_handle. cbn. eauto.
  - destruct (nth_error (w_handles w) i) as [h|] eqn:Eh; [|discriminate]. injection E as <- <-.
    split; [|split; [intros; unfold runs_of; cbn; lia|split; [auto|exact Logic.I]]].
    apply inv_set_handle; [exact I|].
    pose proof (inv_handles w I) as IH. rewrite Forall_forall in IH. exact (IH h (nth_error_In _ _ Eh)).
  - destruct (nth_error (w_handles w) i) as [h|] eqn:Eh; [|discriminate].
    destruct (dread gen move w h) as [[w2 a]| |] eqn:Er; try discriminate. cbn in E. injection E as <- <-.
    destruct (inv_read w h w2 a I (nth_error_In _ _ Eh) Er) as (I2 & G & M & D & P). rewrite P. auto.
Qed.

Lemma inv_empty : inv dempty.
Proof.
  constructor; cbn; auto; intros; match goal with H : nth_error [] ?n = Some _ |- _ => destruct n; discriminate end.
Qed.

Lemma drun_reads ops : forall w w' rs, inv w -> drun gen move w ops = Ok (w', rs) ->
  inv w' /\ (forall g, runs_of w g <= runs_of w' g) /\
  (forall h a, In (h, a) rs -> genuine (w_runs w') (h_origin h) a /\ (forall d, h_dev h = Some d -> exists raw, a = move raw d)).
Proof.
  induction ops as [|o ops IH]; intros w w' rs I E; cbn in E.
  - injection E as <- <-. split; [exact I|]. split; [auto|]. intros h a [].
  - destruct (dstep gen move w o) as [[w1 r]| |] eqn:Es; try discriminate. cbn in E.
    destruct (drun gen move w1 ops) as [[w2 rs2]| |] eqn:Er; try discriminate. cbn in E. injection E as <- <-.
    destruct (inv_step w o w1 r I Es) as (I1 & M1 & _ & R1). destruct (IH w1 w2 rs2 I1 Er) as (I2 & M2 & R2).
    split; [exact I2|]. split; [intros g; specialize (M1 g); specialize (M2 g); lia|].
    intros h a Hin. destruct r as [[h1 a1]|]; [|apply R2; exact Hin].
    destruct Hin as [Heq|Hin]; [|apply R2; exact Hin]. injection Heq as <- <-. destruct R1 as [G D]. split; [|exact D].
    eapply genuine_mono; [|exact G]. exact M2.
Qed.

(** Memoized and eager generators run at most once, whatever happens. *)
Theorem deferred_once ops w rs : drun gen move dempty ops = Ok (w, rs) ->
  forall g pol, nth_error (w_pols w) g = Some pol -> pol <> Lazy -> count_occ Nat.eq_dec (w_runs w) g <= 1.
Proof. intros E. destruct (drun_reads ops dempty w rs inv_empty E) as (I & _). apply (inv_once w I). Qed.

(** Every read yields (the contents of) what the generator returned, or the wrapped array. *)
Theorem deferred_reads ops w rs : drun gen move dempty ops = Ok (w, rs) ->
  forall h a, In (h, a) rs ->
    (match h_origin h with
     | FromGen g => exists k, k < count_occ Nat.eq_dec (w_runs w) g /\ content a = content (gen g k) /\
                      (forall pol, nth_error (w_pols w) g = Some pol -> pol <> Lazy -> k = 0)
     | FromArray b => content a = content b
     | FromNothing => False
     end) /\ (forall d, h_dev h = Some d -> exists raw, a = move raw d).
Proof.
  intros E h a Hin. destruct (drun_reads ops dempty w rs inv_empty E) as (I & _ & R). destruct (R h a Hin) as [G D].
  split; [|exact D]. destruct (h_origin h) as [g|b|]; cbn in G; auto.
  destruct G as (k & Hk & Ec). exists k. split; [exact Hk|]. split; [exact Ec|].
  intros pol Hp Hl. pose proof (inv_once w I g pol Hp Hl) as O. unfold runs_of in O. lia.
Qed.
End Inv.

(** With the default policy the generator runs once per read. *)
Theorem deferred_default {A} (gen : nat -> nat -> A) move n :
  exists w rs, drun gen move dempty (DNewDefault :: repeat (DRead 0) n) = Ok (w, rs) /\
    count_occ Nat.eq_dec (w_runs w) 0 = n /\ map snd rs = map (gen 0) (seq 0 n).
Proof.
  assert (G : forall n k runs, count_occ Nat.eq_dec runs 0 = k ->
    exists w rs, drun gen move (DWorld [DCall 0] [Handle (Some 0) None Lazy (FromGen 0)] [Lazy] runs) (repeat (DRead 0) n) = Ok (w, rs) /\
      count_occ Nat.eq_dec (w_runs w) 0 = k + n /\ map snd rs = map (gen 0) (seq k n)).
  { clear n. induction n as [|n IH]; intros k runs Hk; cbn.
    - eexists _, _. split; [reflexivity|]. cbn. split; [lia|reflexivity].
    - destruct (IH (S k) (runs ++ [0])) as (w & rs & E & H1 & H2); [rewrite count_snoc; cbn; lia|].
      rewrite E. cbn. eexists _, _. split; [reflexivity|]. cbn. split; [lia|].
      unfold run_gen. cbn. rewrite Hk, H2. reflexivity. }
  destruct (G n 0 [] eq_refl) as (w & rs & E & H1 & H2).
  exists w, rs. cbn in *. rewrite E. cbn. auto.
Qed.
