(** The GPU reductions in exact arithmetic, and the maximum. *)
From Verif Require Export GredExact FlagReal GredKernels.
From Coq Require Import Reals Lra Lia.
Local Open Scope R_scope.

Definition rmean (xs : list R) : R := rsum xs / IZR (zlen xs).
(** Population variance. *)
Definition rvar (xs : list R) : R := rsum (map (fun x => (x - rmean xs) * (x - rmean xs)) xs) / IZR (zlen xs).

Lemma rsum_app p q : rsum (p ++ q) = rsum p + rsum q.
Proof. induction p as [|y p IH]; cbn; [lra|]. rewrite IH. lra. Qed.
Lemma zlen_app {A} (p q : list A) : zlen (p ++ q) = (zlen p + zlen q)%Z.
Proof. unfold zlen. rewrite app_length. lia. Qed.
Lemma squares_app p q : squares (p ++ q) = squares p ++ squares q.
Proof. apply map_app. Qed.
Lemma rvar_moments xs : xs <> [] -> rsum (squares xs) / IZR (zlen xs) - rsum xs / IZR (zlen xs) * (rsum xs / IZR (zlen xs)) = rvar xs.
Proof.
  intros Hn. set (n := IZR (zlen xs)). assert (Hp : 0 < n) by (apply IZR_lt; destruct xs; [congruence|unfold zlen; cbn; lia]).
  unfold rvar, rmean. fold n. set (mu := rsum xs / n).
  assert (E : forall l, rsum (map (fun x => (x - mu) * (x - mu)) l) = rsum (squares l) - 2 * mu * rsum l + IZR (zlen l) * (mu * mu)).
  { induction l as [|x l IH]; [change (zlen []) with 0%Z; cbn [map rsum squares]; lra|]. cbn [map rsum squares]. fold (squares l). rewrite IH. unfold zlen. cbn [length]. rewrite Nat2Z.inj_succ, succ_IZR. lra. }
  rewrite E. fold n. unfold mu. field. lra.
Qed.
Lemma rvar_nonneg xs : xs <> [] -> 0 <= rvar xs.
Proof.
  intros Hn. unfold rvar. assert (Hp : 0 < IZR (zlen xs)) by (apply IZR_lt; destruct xs; [congruence|unfold zlen; cbn; lia]).
  apply Rmult_le_pos; [|left; now apply Rinv_0_lt_compat].
  generalize (rmean xs). clear. intros mu. induction xs as [|x xs IH]; cbn; [lra|]. pose proof (Rle_0_sqr (x - mu)) as H. unfold Rsqr in H. lra.
Qed.
Definition relu (x : R) : R := Rmax 0 x.

Lemma kahan_R s x : kahan opsR s 0 x = (s + x, 0).
Proof. unfold kahan. cbn. f_equal; lra. Qed.

Definition is_sum (s : R) (l : list R) := s = rsum l.
Definition is_sums (s : R * R) (l : list R) := fst s = rsum l /\ snd s = rsum (squares l).

Lemma sum_rel : kernel_rel (gk_sum opsR) is_sum is_sum (eq 0).
Proof.
  unfold is_sum. split; cbn [k_zero k_comp k_upd k_norm k_comb gk_sum]; try reflexivity.
  - intros s c x l <- ->. rewrite kahan_R. cbn. rewrite rsum_app. cbn. split; lra.
  - auto.
  - intros s s' l l' -> ->. cbn. now rewrite rsum_app.
  - intros s l l' H ->. now apply rsum_perm.
Qed.
Lemma mean_rel rf : kernel_rel (gk_mean opsR rf) is_sum (fun s l => s = rsum l / IZR rf) (eq 0).
Proof.
  unfold is_sum. split; cbn [k_zero k_comp k_upd k_norm k_comb gk_mean]; try reflexivity.
  - intros s c x l <- ->. rewrite kahan_R. cbn. rewrite rsum_app. cbn. split; lra.
  - intros s l ->. reflexivity.
  - intros s s' l l' -> ->. cbn. rewrite rsum_app. unfold Rdiv. lra.
  - intros s l l' H ->. now rewrite (rsum_perm _ _ H).
Qed.
Lemma kahan2_R s x : kahan2 opsR s (0, 0) x = ((fst s + x, snd s + x * x), (0, 0)).
Proof. unfold kahan2. cbn [fst snd]. rewrite !kahan_R. reflexivity. Qed.
Lemma perm_squares l l' : Permutation l l' -> rsum (squares l) = rsum (squares l').
Proof. intros H. apply rsum_perm. now apply Permutation_map. Qed.
Lemma sums_upd s x l : is_sums s l -> is_sums (fst s + x, snd s + x * x) (l ++ [x]).
Proof. intros (H1 & H2). split; cbn; rewrite ?squares_app, rsum_app; cbn; rewrite ?H1, ?H2; lra. Qed.
Lemma sums_rel rf os ch : kernel_rel (Kernel false (0, 0) (0, 0) (kahan2 opsR) (norm2 opsR rf) (add2 opsR) os ch : kernel R (R * R) (R * R) R) is_sums
  (fun s l => fst s = rsum l / IZR rf /\ snd s = rsum (squares l) / IZR rf) (eq (0, 0)).
Proof.
  split; cbn [k_zero k_comp k_upd k_norm k_comb].
  - split; reflexivity.
  - reflexivity.
  - intros s c x l <- H. rewrite kahan2_R. cbn [fst snd]. split; [now apply sums_upd|reflexivity].
  - intros s l (H1 & H2). unfold norm2. cbn. rewrite H1, H2. auto.
  - intros s s' l l' (H1 & H2) (H3 & H4). unfold add2. cbn. rewrite H1, H2, H3, H4, squares_app, !rsum_app. unfold Rdiv. lra.
  - intros s l l' H (H1 & H2). rewrite <- (rsum_perm _ _ H), <- (perm_squares _ _ H). auto.
Qed.

Definition counted {S} (P : S -> list R -> Prop) (s : S * Z) (l : list R) := P (fst s) l /\ snd s = (zlen l mod 2 ^ 32)%Z.
Lemma mod_add a b : ((a mod 2 ^ 32 + b) mod 2 ^ 32 = (a + b) mod 2 ^ 32)%Z.
Proof. apply Zplus_mod_idemp_l. Qed.
Lemma counted_upd {S} (P : S -> list R -> Prop) s s' x l : counted P s l -> (P (fst s) l -> P s' (l ++ [x])) -> counted P (s', cnt (snd s + 1)) (l ++ [x]).
Proof. intros (H1 & H2) H. split; cbn; [auto|]. unfold cnt. rewrite H2, mod_add, zlen_app. reflexivity. Qed.
Lemma counted_add {S} (P : S -> list R -> Prop) s t u l l' : counted P s l -> counted P t l' -> P u (l ++ l') -> counted P (u, cnt (snd s + snd t)) (l ++ l').
Proof. intros (_ & H1) (_ & H2) H. split; cbn; [auto|]. unfold cnt. rewrite H1, H2, mod_add, Z.add_comm, mod_add, zlen_app, Z.add_comm. reflexivity. Qed.
Lemma counted_perm {S} (P : S -> list R -> Prop) s l l' : Permutation l l' -> (P (fst s) l -> P (fst s) l') -> counted P s l -> counted P s l'.
Proof. intros H HP (H1 & H2). split; [auto|]. rewrite H2. unfold zlen. now rewrite (Permutation_length H). Qed.

Lemma msum_rel os : kernel_rel (Kernel true (0, 0%Z) 0 (mkahan opsR) (fun s => s) (madd opsR) os false : kernel R (R * Z) R R) (counted is_sum) (counted is_sum) (eq 0).
Proof.
  split; cbn [k_zero k_comp k_upd k_norm k_comb].
  - split; reflexivity.
  - reflexivity.
  - intros s c x l <- H. unfold mkahan. rewrite kahan_R. cbn [fst snd]. split; [|reflexivity]. eapply counted_upd; [exact H|].
    unfold is_sum. intros ->. rewrite rsum_app. cbn. lra.
  - auto.
  - intros s s' l l' H1 H2. apply counted_add; auto. destruct H1 as (H1 & _), H2 as (H2 & _). unfold is_sum in *. cbn. rewrite H1, H2, rsum_app. reflexivity.
  - intros s l l' H. apply counted_perm; [exact H|]. unfold is_sum. intros ->. now apply rsum_perm.
Qed.
Lemma msums_rel os : kernel_rel (Kernel true ((0, 0), 0%Z) (0, 0) (mkahan2 opsR) (fun s => s) (madd2 opsR) os false : kernel R ((R * R) * Z) (R * R) R) (counted is_sums) (counted is_sums) (eq (0, 0)).
Proof.
  split; cbn [k_zero k_comp k_upd k_norm k_comb].
  - split; [split; reflexivity|reflexivity].
  - reflexivity.
  - intros s c x l <- H. unfold mkahan2. rewrite kahan2_R. cbn [fst snd]. split; [|reflexivity]. eapply counted_upd; [exact H|]. apply sums_upd.
  - auto.
  - intros s s' l l' H1 H2. apply counted_add; auto. destruct H1 as ((H1 & H1') & _), H2 as ((H2 & H2') & _). unfold is_sums, add2. cbn. rewrite H1, H2, H1', H2', squares_app, !rsum_app. auto.
  - intros s l l' H. apply counted_perm; [exact H|]. intros (H1 & H2). split; [rewrite H1; now apply rsum_perm|rewrite H2; now apply perm_squares].
Qed.

(** Maximum over a type whose operator> may fail on some values (NaN). *)
Definition is_max {F} (gt : F -> F -> bool) (ok : F -> Prop) (lowest s : F) (l : list F) : Prop :=
  ok s /\ In s (lowest :: l) /\ forall x, In x (lowest :: l) -> gt x s = false.
Lemma max_rel {F} (gt : F -> F -> bool) (ok : F -> Prop) lowest : ok lowest ->
  (forall a, gt a a = false) -> (forall a b, gt a b = true -> ok a) ->
  (forall a b c, gt a b = true -> gt b c = true -> gt a c = true) ->
  (forall a b c, ok b -> gt a c = true -> gt a b = true \/ gt b c = true) ->
  kernel_rel (gk_max gt lowest) (is_max gt ok lowest) (is_max gt ok lowest) (fun _ => True).
Proof.
  intros Hl Hi Ho Ht Hn.
  assert (J : forall s s' l l', is_max gt ok lowest s l -> is_max gt ok lowest s' l' -> is_max gt ok lowest (if gt s' s then s' else s) (l ++ l')).
  { intros s s' l l' (H1 & H2 & H3) (H4 & H5 & H6). destruct (gt s' s) eqn:E; (split; [assumption|]); split.
    - destruct H5 as [<-|H5]; [now left|right; apply in_or_app; now right].
    - intros x [<-|Hx]; [apply H6; now left|]. apply in_app_or in Hx as [Hx|Hx]; [|apply H6; now right].
      destruct (gt x s') eqn:E2; [|reflexivity]. rewrite <- (H3 x (or_intror Hx)). symmetry. eapply Ht; eauto.
    - destruct H2 as [<-|H2]; [now left|right; apply in_or_app; now left].
    - intros x [<-|Hx]; [apply H3; now left|]. apply in_app_or in Hx as [Hx|Hx]; [apply H3; now right|].
      destruct (gt x s) eqn:E2; [|reflexivity]. destruct (Hn x s' s H4 E2) as [E3|E3]; [|congruence]. rewrite (H6 x (or_intror Hx)) in E3. discriminate. }
  split; cbn [k_zero k_comp k_upd k_norm k_comb gk_max].
  - split; [exact Hl|]. split; [now left|]. intros x [<-|[]]. apply Hi.
  - exact Logic.I.
  - intros s c x l _ (H1 & H2 & H3). split; [|exact Logic.I]. cbn [fst]. destruct (gt x s) eqn:E.
    + split; [eapply Ho; eauto|]. split; [right; apply in_or_app; right; now left|].
      intros y Hy. destruct (gt y x) eqn:E2; [|reflexivity]. destruct Hy as [<-|Hy].
      * rewrite <- (H3 lowest (or_introl eq_refl)). symmetry. eapply Ht; eauto.
      * apply in_app_or in Hy as [Hy|[<-|[]]]; [|rewrite Hi in E2; discriminate]. rewrite <- (H3 y (or_intror Hy)). symmetry. eapply Ht; eauto.
    + split; [exact H1|]. split; [destruct H2 as [<-|H2]; [now left|right; apply in_or_app; now left]|].
      intros y [<-|Hy]; [apply H3; now left|]. apply in_app_or in Hy as [Hy|[<-|[]]]; [apply H3; now right|exact E].
  - auto.
  - intros s s' l l' H1 H2. now apply J.
  - intros s l l' H (H1 & H2 & H3). split; [exact H1|]. split.
    + destruct H2 as [<-|H2]; [now left|right; eapply Permutation_in; eauto].
    + intros x [<-|Hx]; [apply H3; now left|]. apply H3. right. eapply Permutation_in; [symmetry; exact H|exact Hx].
Qed.

Lemma enumerates_count sh axes o es : posl sh -> good_axes (zlen sh) axes -> in_range (out_shape axes sh) o -> enumerates sh axes o es ->
  zlen es = zprod (map (getz sh) (all_if_nil (zlen sh) axes)).
Proof.
  intros HP Hg Ho He. pose proof (fibre_enumerates sh axes o Hg Ho) as HF.
  pose proof (enumerates_perm _ _ _ _ _ He HF) as P. unfold zlen. rewrite (Permutation_length P).
  apply (fibre_at_count sh (all_if_nil (zlen sh) axes)). eapply Forall_impl; [|exact HP]. cbn. intros; lia.
Qed.
