(** Index arithmetic of the GPU kernels: adding to a multi-index is adding to its number. *)
From Verif Require Export GredModel RedProofs2.
From Coq Require Import ZifyBool ZifyNat.
Ltac Zify.zify_post_hook ::= Z.div_mod_to_equations.
Local Open Scope Z_scope.

Lemma add_digit n d inc : 0 < d -> 0 <= n -> 0 <= inc ->
  (n mod d + inc < d /\ (n + inc) mod d = n mod d + inc /\ (n + inc) / d = n / d) \/
  (d <= n mod d + inc /\ (n + inc) mod d = (n mod d + inc) mod d /\ (n + inc) / d = n / d + (n mod d + inc) / d).
Proof.
  intros Hd Hn Hi. pose proof (Z.mod_pos_bound n d Hd) as B.
  assert (E : n + inc = (n mod d + inc) + (n / d) * d) by (pose proof (Z.div_mod n d ltac:(lia)); lia).
  assert (E1 : (n + inc) mod d = (n mod d + inc) mod d) by (rewrite E at 1; apply Z.mod_add; lia).
  assert (E2 : (n + inc) / d = (n mod d + inc) / d + n / d) by (rewrite E at 1; apply Z.div_add; lia).
  destruct (Z.lt_ge_cases (n mod d + inc) d) as [H|H]; [left|right]; rewrite E1, E2.
  - rewrite (Z.mod_small (n mod d + inc)), (Z.div_small (n mod d + inc)) by lia. repeat split; lia.
  - repeat split; lia.
Qed.

Lemma bump_put sh ra idx n inc :
  Forall (inr (zlen idx)) ra -> NoDup ra -> posl (map (getz sh) ra) -> 0 <= n -> 0 <= inc ->
  fst (bump sh ra inc (put idx ra (digits (map (getz sh) ra) n))) = put idx ra (digits (map (getz sh) ra) (n + inc)).
Proof.
  intros H; revert idx n inc H; induction ra as [|d ra IH]; intros idx n inc H HN HP Hn Hi; [reflexivity|].
  inversion H as [|? ? Hd Hra]; subst. inversion HN as [|? ? Hnd HN']; subst.
  cbn [map] in HP. inversion HP as [|? ? Hpd HP']; subst.
  cbn [bump map digits put]. rewrite getz_same by (rewrite put_zlen; exact Hd). rewrite setz_setz.
  destruct (add_digit n (getz sh d) inc Hpd Hn Hi) as [(E1 & E2 & E3)|(E1 & E2 & E3)].
  - replace (n mod getz sh d + inc <? getz sh d) with true by (symmetry; apply Z.ltb_lt; lia).
    cbn [fst]. rewrite E2, E3, ?setz_setz. reflexivity.
  - replace (n mod getz sh d + inc <? getz sh d) with false by (symmetry; apply Z.ltb_ge; lia).
    pose proof (Z.mod_pos_bound n _ Hpd).
    rewrite Z.quot_div_nonneg, Z.rem_mod_nonneg by lia. rewrite ?setz_setz.
    rewrite <- put_setz by auto. rewrite IH; auto.
    + rewrite put_setz, E2, E3 by auto. reflexivity.
    + unfold zlen. rewrite setz_length. exact Hra.
    + apply Z.div_pos; lia.
    + apply Z.div_pos; lia.
Qed.

Lemma unflat_put sh ra idx w :
  Forall (inr (zlen idx)) ra -> NoDup ra -> posl (map (getz sh) ra) -> 0 <= w ->
  unflat sh ra w idx = put idx ra (digits (map (getz sh) ra) w).
Proof.
  intros H; revert idx w H; induction ra as [|d ra IH]; intros idx w H HN HP Hw; [reflexivity|].
  inversion H as [|? ? Hd Hra]; subst. inversion HN as [|? ? Hnd HN']; subst.
  cbn [map] in HP. inversion HP as [|? ? Hpd HP']; subst. cbn [unflat map digits put].
  rewrite Z.quot_div_nonneg, Z.rem_mod_nonneg by lia.
  rewrite IH; auto.
  - apply put_setz; auto.
  - unfold zlen. rewrite setz_length. exact Hra.
  - apply Z.div_pos; lia.
Qed.

Lemma lin_dot idx st : lin idx st = dot idx st.
Proof. revert st; induction idx as [|i idx IH]; intros [|s st]; cbn; auto. Qed.

Lemma cell_lin l idx : wf l -> length idx = length (l_shape l) -> cell l idx = zsum (l_offsets l) + lin idx (l_strides l).
Proof.
  intros (W1 & W2) HL. unfold cell. destruct l as [sh st of]. cbn in *. revert sh st of W1 W2 HL.
  induction idx as [|i idx IH]; intros [|s sh] [|t st] [|o of] W1 W2 HL; cbn in *; try discriminate; auto.
  rewrite (IH sh st of) by lia. rewrite zsum_cons. lia.
Qed.

(** ** The reduced axes, sorted *)
Definition red_axes (n : Z) (axes : list Z) : list Z := filter (fun d => existsb (Z.eqb d) axes) (zrange n).
Lemma in_red n axes d : In d (red_axes n axes) <-> inr n d /\ In d axes.
Proof.
  unfold red_axes. rewrite filter_In, in_zrange. unfold inr. split; intros (H1 & H2); (split; [exact H1|]).
  - apply existsb_exists in H2 as (x & Hx & E). apply Z.eqb_eq in E. now subst.
  - apply existsb_exists. exists d. split; [exact H2|apply Z.eqb_refl].
Qed.
Lemma red_nodup n axes : NoDup (red_axes n axes).
Proof. apply NoDup_filter, zrange_nodup. Qed.
Lemma red_inr n axes : Forall (inr n) (red_axes n axes).
Proof. apply Forall_forall. intros d Hd. now apply in_red in Hd. Qed.
Lemma red_perm n axes : good_axes n axes -> Permutation (red_axes n axes) axes.
Proof.
  intros (H1 & H2). apply NoDup_Permutation; [apply red_nodup|exact H1|]. intros d. rewrite in_red.
  rewrite Forall_forall in H2. unfold inr. split; [tauto|]. intros Hd. auto.
Qed.
Lemma kept_red n axes : kept_axes n (red_axes n axes) = kept_axes n axes.
Proof.
  unfold kept_axes. apply filter_ext_in. intros d Hd. apply in_zrange in Hd. f_equal.
  apply eq_iff_eq_true. rewrite !existsb_exists. split; intros (x & Hx & E); exists x; (split; [|exact E]).
  - now apply in_red in Hx.
  - apply Z.eqb_eq in E. subst x. apply in_red. auto.
Qed.
Lemma good_red n axes : good_axes n (red_axes n axes).
Proof. split; [apply red_nodup|apply red_inr]. Qed.

Lemma zprod_perm l l' : Permutation l l' -> zprod l = zprod l'.
Proof. induction 1; rewrite ?zprod_cons; try lia. Qed.

Section Pos.
  Variables (sh axes : list Z).
  Hypothesis HP : posl sh.
  Notation nd := (zlen sh).
  Definition kdims := map (getz sh) (kept_axes nd axes).
  Definition rdims := map (getz sh) (red_axes nd axes).
  (** Where output number i starts and its element number j. *)
  Definition base (i : Z) : list Z := put (zeros sh) (keep_rev nd axes) (digits (map (getz sh) (keep_rev nd axes)) i).
  Definition pos (i j : Z) : list Z := put (base i) (red_rev nd axes) (digits (map (getz sh) (red_rev nd axes)) j).

  Lemma posl_sub ds : Forall (inr nd) ds -> posl (map (getz sh) ds).
  Proof.
    intros H. apply Forall_map. eapply Forall_impl; [|exact H]. cbn. intros d Hd.
    unfold posl in HP. rewrite Forall_forall in HP. apply HP. unfold getz. apply nth_In. unfold inr, zlen in Hd. lia.
  Qed.
  Lemma keep_inr : Forall (inr nd) (keep_rev nd axes). Proof. apply Forall_rev, kept_inr. Qed.
  Lemma keep_nodup : NoDup (keep_rev nd axes). Proof. apply NoDup_rev, kept_nodup. Qed.
  Lemma redr_inr : Forall (inr nd) (red_rev nd axes). Proof. apply Forall_rev, red_inr. Qed.
  Lemma redr_nodup : NoDup (red_rev nd axes). Proof. apply NoDup_rev, red_nodup. Qed.
  Lemma base_len i : zlen (base i) = nd. Proof. unfold base. rewrite put_zlen. apply zeros_zlen. Qed.

  Lemma base_pos i : base i = pos i 0.
  Proof.
    unfold pos. rewrite digits_zero by (apply posl_sub, redr_inr). rewrite map_map.
    symmetry. apply put_zeros; [rewrite base_len; apply redr_inr|].
    intros d Hd. apply in_rev, in_red in Hd. destruct Hd as (Hd & Ha). unfold base.
    rewrite getz_put_other; [apply getz_zeros|rewrite zeros_zlen; apply keep_inr|rewrite zeros_zlen; exact Hd|].
    intros Hi. apply in_rev, in_kept in Hi. tauto.
  Qed.
  Lemma bump_red i j inc : 0 <= j -> 0 <= inc -> fst (bump sh (red_rev nd axes) inc (pos i j)) = pos i (j + inc).
  Proof. intros. apply bump_put; auto; [rewrite base_len; apply redr_inr|apply redr_nodup|apply posl_sub, redr_inr]. Qed.
  Lemma bump_keep i inc : 0 <= i -> 0 <= inc -> fst (bump sh (keep_rev nd axes) inc (base i)) = base (i + inc).
  Proof. intros. apply bump_put; auto; [rewrite zeros_zlen; apply keep_inr|apply keep_nodup|apply posl_sub, keep_inr]. Qed.
  Lemma unflat_base w : 0 <= w -> unflat sh (keep_rev nd axes) w (map (fun _ => 0) sh) = base w.
  Proof. intros. apply unflat_put; auto; [rewrite (zeros_zlen sh : zlen (map _ sh) = _); apply keep_inr|apply keep_nodup|apply posl_sub, keep_inr]. Qed.

  Lemma pos_range i j : in_range sh (pos i j).
  Proof.
    unfold pos. apply put_range.
    - pose proof (base_len i). unfold zlen in *. lia.
    - apply redr_inr.
    - apply redr_nodup.
    - apply digits_range, posl_sub, redr_inr.
    - intros d Hd Hn. unfold base.
      assert (Hk : In d (keep_rev nd axes)).
      { apply -> in_rev. apply in_kept. split; [exact Hd|]. intros Ha. apply Hn. apply -> in_rev. now apply in_red. }
      assert (E : map (getz (put (zeros sh) (keep_rev nd axes) (digits (map (getz sh) (keep_rev nd axes)) i))) (keep_rev nd axes) = digits (map (getz sh) (keep_rev nd axes)) i).
      { apply map_getz_put; [rewrite zeros_zlen; apply keep_inr|apply keep_nodup|]. now rewrite digits_length, map_length. }
      pose proof (digits_range (map (getz sh) (keep_rev nd axes)) i (posl_sub _ keep_inr)) as R. rewrite <- E in R.
      apply (proj1 (in_range_map sh _ (keep_rev nd axes)) R d Hk).
  Qed.

  (** The elements of output number i, in the kernels' order, are its fibre. *)
  Lemma pos_fibre i : map (pos i) (zrange (zprod rdims)) =
    fibre_at sh (red_axes nd axes) (base_of sh (kept_axes nd axes) (rev (digits (rev kdims) i))).
  Proof.
    unfold fibre_at. fold rdims. rewrite all_indices_digits by (apply posl_sub, red_inr). rewrite map_map.
    apply map_ext. intros j. unfold pos, base, base_of. rewrite !rev_involutive.
    unfold red_rev, keep_rev, kdims, rdims. fold (red_axes nd axes). rewrite !map_rev. reflexivity.
  Qed.
End Pos.

(** Output number i as an index of the output. *)
Definition oix (osh : list Z) (i : Z) : list Z := rev (digits (rev osh) i).
Lemma oix_put osh i : posl osh ->
  oix osh i = put (zeros osh) (rev (zrange (zlen osh))) (digits (map (getz osh) (rev (zrange (zlen osh)))) i).
Proof.
  intros HP. unfold oix. rewrite map_rev, map_getz_all. symmetry.
  assert (HL : length (rev (digits (rev osh) i)) = length osh) by (rewrite rev_length, digits_length, rev_length; reflexivity).
  assert (HZ : zlen (rev (digits (rev osh) i)) = zlen osh) by (unfold zlen; lia).
  pose proof (all_axes_put (rev (digits (rev osh) i)) (zeros osh)) as E. rewrite HZ, rev_involutive in E. apply E.
  unfold zeros. rewrite map_length. lia.
Qed.
Lemma axes_all_inr n : Forall (inr n) (rev (zrange n)).
Proof. apply Forall_rev, Forall_forall. intros d Hd. now apply in_zrange in Hd. Qed.
Lemma bump_oix osh i inc : posl osh -> 0 <= i -> 0 <= inc ->
  fst (bump osh (rev (zrange (zlen osh))) inc (oix osh i)) = oix osh (i + inc).
Proof.
  intros HP Hi Hn. rewrite !oix_put by auto. apply bump_put; auto.
  - rewrite zeros_zlen. apply axes_all_inr.
  - apply NoDup_rev, zrange_nodup.
  - rewrite map_rev, map_getz_all. now apply posl_rev.
Qed.
Lemma unflat_oix osh w : posl osh -> 0 <= w -> unflat osh (rev (zrange (zlen osh))) w (map (fun _ => 0) osh) = oix osh w.
Proof.
  intros HP Hw. rewrite oix_put by auto. apply unflat_put; auto.
  - fold (zeros osh). rewrite zeros_zlen. apply axes_all_inr.
  - apply NoDup_rev, zrange_nodup.
  - rewrite map_rev, map_getz_all. now apply posl_rev.
Qed.
Lemma oix_range osh i : posl osh -> in_range osh (oix osh i).
Proof.
  intros HP. unfold oix. pose proof (digits_range (rev osh) i (posl_rev _ HP)) as R.
  assert (G : forall l l', in_range l l' -> in_range (rev l) (rev l')).
  { clear. unfold in_range. induction 1; cbn; [constructor|]. apply Forall2_app; [assumption|]. constructor; auto. }
  apply G in R. now rewrite rev_involutive in R.
Qed.
(** In a fresh array output number i is cell i. *)
Lemma oix_cell osh i : posl osh -> 0 <= i < zprod osh -> lin (oix osh i) (l_strides (dense osh)) = i.
Proof.
  intros HP Hi.
  assert (Hn : Forall (fun d => 0 <= d) osh) by (eapply Forall_impl; [|exact HP]; cbn; lia).
  pose proof (dense_cells osh Hn) as D. rewrite all_indices_digits in D by exact HP. rewrite map_map in D.
  assert (E : cell (dense osh) (oix osh i) = i).
  { apply (f_equal (fun l => nth_error l (Z.to_nat i))) in D. rewrite nth_error_map, nth_error_zrange in D by exact Hi.
    cbn in D. injection D as D. exact D. }
  rewrite cell_lin in E.
  - assert (Z0 : zsum (l_offsets (dense osh)) = 0) by (cbn; clear; induction osh; cbn; auto). lia.
  - apply dense_wf.
  - apply in_range_length, oix_range, HP.
Qed.
