(** Reductions visit each contributing element exactly once. *)
From Verif Require Export RedModel RedSpec NdProofs.
From Coq Require Import ZifyBool ZifyNat.
Ltac Zify.zify_post_hook ::= Z.div_mod_to_equations.
Local Open Scope Z_scope.

Arguments getz : simpl never.
Arguments setz : simpl never.

Definition inr (n d : Z) : Prop := 0 <= d < n.

Lemma setz_length idx d v : length (setz idx d v) = length idx.
Proof. apply upd_length. Qed.

Lemma nth_upd_same {A} (l : list A) n f x0 : (n < length l)%nat -> nth n (upd l n f) x0 = f (nth n l x0).
Proof. revert n; induction l as [|x l IH]; intros [|n] H; cbn in *; try lia; auto. apply IH. lia. Qed.
Lemma nth_upd_other {A} (l : list A) n m f (x0 : A) : n <> m -> nth m (upd l n f) x0 = nth m l x0.
Proof. revert n m; induction l as [|x l IH]; intros [|n] [|m] H; cbn in *; auto; try lia. Qed.

Lemma getz_same idx d v : inr (zlen idx) d -> getz (setz idx d v) d = v.
Proof. unfold inr, zlen. intros H. unfold getz, setz. rewrite nth_upd_same by lia. reflexivity. Qed.
Lemma getz_other idx d e v : 0 <= d -> 0 <= e -> d <> e -> getz (setz idx d v) e = getz idx e.
Proof. intros. unfold getz, setz. apply nth_upd_other. lia. Qed.

Lemma getz_ext a b : length a = length b -> (forall d, inr (zlen a) d -> getz a d = getz b d) -> a = b.
Proof.
  intros HL H. apply (nth_ext a b 0 0 HL). intros n Hn.
  specialize (H (Z.of_nat n)). unfold getz, inr, zlen in H. rewrite Nat2Z.id in H. apply H. lia.
Qed.

Fixpoint put (idx ra vs : list Z) : list Z :=
  match ra, vs with
  | d :: ra', v :: vs' => setz (put idx ra' vs') d v
  | _, _ => idx
  end.

Lemma put_length idx ra vs : length (put idx ra vs) = length idx.
Proof. revert vs; induction ra as [|d ra IH]; intros [|v vs]; cbn; auto. rewrite setz_length. auto. Qed.
Lemma put_zlen idx ra vs : zlen (put idx ra vs) = zlen idx.
Proof. unfold zlen. rewrite put_length. reflexivity. Qed.

Lemma getz_put_other idx ra vs d : Forall (inr (zlen idx)) ra -> inr (zlen idx) d -> ~ In d ra ->
  getz (put idx ra vs) d = getz idx d.
Proof.
  intros H Hd; revert vs; induction H as [|e ra He Hra IH]; intros [|v vs] Hn; cbn in *; auto.
  rewrite getz_other by (unfold inr in *; intuition lia). apply IH. tauto.
Qed.

Lemma map_getz_put idx ra vs : Forall (inr (zlen idx)) ra -> NoDup ra -> length vs = length ra ->
  map (getz (put idx ra vs)) ra = vs.
Proof.
  intros H; revert vs; induction H as [|d ra Hd Hra IH]; intros [|v vs] HN HL; cbn in *; try discriminate; auto.
  inversion HN as [|? ? Hn HN']; subst. f_equal.
  - apply getz_same. rewrite put_zlen. exact Hd.
  - rewrite <- (IH vs HN' ltac:(lia)) at 2. apply map_ext_in. intros e He.
    rewrite Forall_forall in Hra. apply getz_other; [apply Hd|apply (Hra e He)|]. intros ->. contradiction.
Qed.

Lemma put_setz idx ra vs d v : Forall (inr (zlen idx)) ra -> inr (zlen idx) d -> ~ In d ra ->
  put (setz idx d v) ra vs = setz (put idx ra vs) d v.
Proof.
  intros H Hd Hn. apply getz_ext; [rewrite put_length, !setz_length, put_length; reflexivity|].
  intros e He. rewrite put_zlen in He. unfold zlen in He. rewrite setz_length in He. fold (zlen idx) in He.
  revert vs Hn. induction H as [|x ra Hx Hra IH]; intros [|w vs] Hn; cbn [put]; auto.
  cbn in Hn.
  destruct (Z.eq_dec x e) as [->|Hxe].
  - rewrite getz_same by (rewrite put_zlen; unfold zlen; rewrite setz_length; exact He).
    rewrite getz_other by (unfold inr in *; intuition lia).
    rewrite getz_same by (rewrite put_zlen; exact He). reflexivity.
  - rewrite getz_other by (unfold inr in *; intuition lia). rewrite IH by tauto.
    destruct (Z.eq_dec d e) as [->|Hde].
    + rewrite !getz_same; auto; unfold zlen; rewrite ?setz_length, ?put_length; exact He.
    + rewrite !getz_other by (unfold inr in *; intuition lia). reflexivity.
Qed.

Lemma setz_setz idx d v w : setz (setz idx d v) d w = setz idx d w.
Proof. unfold setz. rewrite upd_upd. reflexivity. Qed.

Lemma setz_id idx d : inr (zlen idx) d -> setz idx d (getz idx d) = idx.
Proof.
  intros Hd. apply getz_ext; [apply setz_length|]. intros e He.
  unfold zlen in He. rewrite setz_length in He. fold (zlen idx) in He.
  destruct (Z.eq_dec d e) as [->|H]; [rewrite getz_same; auto|]. apply getz_other; unfold inr in *; lia.
Qed.

Lemma put_zeros idx ra : Forall (inr (zlen idx)) ra -> (forall d, In d ra -> getz idx d = 0) ->
  put idx ra (map (fun _ => 0) ra) = idx.
Proof.
  induction 1 as [|d ra Hd Hra IH]; intros H; cbn; auto. rewrite IH by (intros; apply H; right; auto).
  rewrite <- (H d (or_introl eq_refl)) at 1. apply setz_id. exact Hd.
Qed.

Lemma advance_put sh ra idx n :
  Forall (inr (zlen idx)) ra -> NoDup ra -> posl (map (getz sh) ra) -> 0 <= n ->
  advance sh ra (put idx ra (digits (map (getz sh) ra) n)) = put idx ra (digits (map (getz sh) ra) (n + 1)).
Proof.
  intros H; revert idx n H; induction ra as [|d ra IH]; intros idx n H HN HP Hn; [reflexivity|].
  inversion H as [|? ? Hd Hra]; subst. inversion HN as [|? ? Hnd HN']; subst.
  cbn [map] in HP. inversion HP as [|? ? Hpd HP']; subst.
  cbn [advance map digits put]. rewrite getz_same by (rewrite put_zlen; exact Hd).
  destruct (succ_digit n (getz sh d) Hpd Hn) as [(E1 & E2 & E3)|(E1 & E2 & E3)].
  - rewrite E1, Z.eqb_refl. cbn [negb]. rewrite setz_setz.
    rewrite <- put_setz by auto. rewrite IH; auto.
    + rewrite put_setz, E2, E3 by auto. reflexivity.
    + unfold zlen. rewrite setz_length. exact Hra.
    + apply Z.div_pos; lia.
  - replace (n mod getz sh d + 1 =? getz sh d) with false by (symmetry; apply Z.eqb_neq; lia).
    cbn [negb]. rewrite setz_setz, E2, E3. reflexivity.
Qed.

(** The cell used by the loops is the cell of the element when the index is in range. *)
Lemma rcell_loop_cell offs idx sh st : in_range sh idx -> length offs = length sh -> length st = length sh ->
  rcell_loop offs idx sh st = cell_loop offs idx st.
Proof.
  intros H; revert offs st; induction H as [|d i sh idx Hd H IH]; intros [|o offs] [|s st] H1 H2;
    cbn in *; try discriminate; auto.
  rewrite IH by lia. rewrite Z.rem_small by lia. reflexivity.
Qed.
Lemma rcell_cell l idx : wf l -> in_range (l_shape l) idx -> rcell l idx = cell l idx.
Proof. intros [H1 H2] H. apply rcell_loop_cell; auto. Qed.

Lemma in_range_getz sh idx : in_range sh idx <-> length idx = length sh /\ forall d, inr (zlen sh) d -> 0 <= getz idx d < getz sh d.
Proof.
  split.
  - intros H. split; [apply in_range_length; auto|]. intros d Hd.
    unfold inr, zlen in Hd. unfold getz.
    assert (Hk : (Z.to_nat d < length sh)%nat) by lia. revert Hk. generalize (Z.to_nat d). clear Hd.
    induction H; intros [|k] Hk; cbn in *; try lia. apply IHForall2. lia.
  - intros [HL H]. unfold in_range. revert idx HL H. induction sh as [|s sh IH]; intros [|i idx] HL H; cbn in *; try discriminate; constructor.
    + apply (H 0). unfold inr, zlen. cbn. lia.
    + apply IH; [lia|]. intros d Hd. specialize (H (d + 1)). unfold inr, zlen, getz in *. cbn [length] in H.
      replace (Z.to_nat (d + 1)) with (S (Z.to_nat d)) in H by lia. cbn in H. apply H. lia.
Qed.

Lemma digits_range rsh n : posl rsh -> in_range rsh (digits rsh n).
Proof.
  intros H; revert n; induction H as [|d t Hd Ht IH]; intros n; cbn; constructor.
  - apply Z.mod_pos_bound. exact Hd.
  - apply IH.
Qed.

Lemma put_range sh idx ra vs : length idx = length sh -> Forall (inr (zlen sh)) ra -> NoDup ra ->
  in_range (map (getz sh) ra) vs -> (forall d, inr (zlen sh) d -> ~ In d ra -> 0 <= getz idx d < getz sh d) ->
  in_range sh (put idx ra vs).
Proof.
  intros HL H HN Hv Ho. apply in_range_getz. rewrite put_length. split; [exact HL|].
  assert (HZ : zlen idx = zlen sh) by (unfold zlen; lia).
  intros d Hd. destruct (in_dec Z.eq_dec d ra) as [Hi|Hi].
  - assert (E : map (getz (put idx ra vs)) ra = vs).
    { apply map_getz_put; [rewrite HZ; exact H|exact HN|]. apply in_range_length in Hv. rewrite Hv, map_length. reflexivity. }
    rewrite <- E in Hv. clear E HN. revert Hv. generalize (put idx ra vs). intros q Hv. clear H Ho.
    unfold in_range in Hv. induction ra as [|e ra IH]; [destruct Hi|].
    cbn in Hv. inversion Hv; subst. destruct Hi as [->|Hi]; auto.
  - rewrite getz_put_other by (rewrite ?HZ; auto). apply Ho; auto.
Qed.

(** ** Inner loop *)
Lemma reduce_inner_fold {S} k (step : S -> Z -> outcome S) l ra s base n :
  wf l -> zlen base = ndim l -> Forall (inr (ndim l)) ra -> NoDup ra -> posl (map (getz (l_shape l)) ra) -> 0 <= n ->
  (forall d, inr (ndim l) d -> ~ In d ra -> 0 <= getz base d < getz (l_shape l) d) ->
  reduce_inner k step l ra s (put base ra (digits (map (getz (l_shape l)) ra) n)) =
  ofold step s (map (fun j => cell l (put base ra (digits (map (getz (l_shape l)) ra) (n + Z.of_nat j)))) (seq 0 k)).
Proof.
  intros Hw HL Hra HN HP Hn Hb. revert n s Hn. induction k as [|k IH]; intros n s Hn; [reflexivity|].
  cbn [reduce_inner seq map ofold]. rewrite Z.add_0_r.
  rewrite rcell_cell; [|exact Hw|].
  2:{ apply put_range; [unfold ndim, zlen in HL; lia|exact Hra|exact HN| |exact Hb]. apply digits_range. exact HP. }
  destruct (step s _) as [s'| |]; cbn [obind]; auto.
  rewrite advance_put by (rewrite ?HL; auto). rewrite IH by lia.
  rewrite <- seq_shift, map_map. f_equal. apply map_ext. intros j. replace (n + 1 + Z.of_nat j) with (n + Z.of_nat (Datatypes.S j)) by lia. reflexivity.
Qed.

(** ** The list of contributing indices *)
Definition zeros (sh : list Z) : list Z := map (fun _ => 0) sh.
Definition base_of (sh kaxes : list Z) (o : list Z) : list Z := put (zeros sh) (rev kaxes) (rev o).
Definition fibre_at (sh axes : list Z) (b : list Z) : list (list Z) :=
  map (fun r => put b (rev axes) (rev r)) (all_indices (map (getz sh) axes)).

Lemma reduce_inner_fibre {S} (step : S -> Z -> outcome S) l axes s base :
  wf l -> zlen base = ndim l -> Forall (inr (ndim l)) axes -> NoDup axes ->
  Forall (fun d => 0 <= d) (map (getz (l_shape l)) axes) ->
  (forall d, inr (ndim l) d -> ~ In d axes -> 0 <= getz base d < getz (l_shape l) d) ->
  (forall d, In d axes -> getz base d = 0) ->
  reduce_inner (Z.to_nat (zprod (map (getz (l_shape l)) axes))) step l (rev axes) s base =
  ofold step s (map (cell l) (fibre_at (l_shape l) axes base)).
Proof.
  intros Hw HL Hra HN Hp Hb Hz. unfold fibre_at. set (rs := map (getz (l_shape l)) axes) in *.
  destruct (posl_dec rs) as [HP|HP].
  - assert (Er : map (getz (l_shape l)) (rev axes) = rev rs) by (unfold rs; apply map_rev).
    assert (E0 : base = put base (rev axes) (digits (map (getz (l_shape l)) (rev axes)) 0)).
    { rewrite Er, digits_zero by (apply posl_rev; exact HP).
      symmetry. etransitivity; [|apply (put_zeros base (rev axes))].
      - f_equal. rewrite <- Er, map_map. reflexivity.
      - rewrite HL. apply Forall_rev. exact Hra.
      - intros d Hd. apply in_rev in Hd. auto. }
    rewrite E0 at 1. rewrite reduce_inner_fold; auto; try lia.
    + f_equal. rewrite all_indices_digits by exact HP. rewrite !map_map. unfold zrange. rewrite map_map.
      apply map_ext. intros j. rewrite Er, rev_involutive. reflexivity.
    + apply Forall_rev. exact Hra.
    + apply NoDup_rev. exact HN.
    + rewrite Er. apply posl_rev. exact HP.
    + intros d Hd Hn. apply Hb; auto. intros C. apply Hn. apply in_rev. rewrite rev_involutive. exact C.
  - rewrite all_indices_empty by auto. rewrite zprod_zero by auto. reflexivity.
Qed.

(** ** Outer loop *)
Lemma store_split {V} (pre post : list V) x v : store (pre ++ x :: post) (zlen pre) v = Ok ((pre ++ [v]) ++ post).
Proof.
  unfold store, zlen. rewrite app_length. cbn [length].
  replace ((0 <=? Z.of_nat (length pre)) && (Z.of_nat (length pre) <? Z.of_nat (length pre + S (length post)))) with true by lia.
  rewrite Nat2Z.id. f_equal. induction pre as [|p pre IH]; cbn; [reflexivity|]. f_equal. exact IH.
Qed.

Lemma reduce_outer_map {S V} (start : list Z -> outcome S) step (finish : S -> outcome V) lo l ra ka count
      (oi ii : Z -> list Z) (f : Z -> outcome V) k : forall (pre post : list V),
  length post = k ->
  (forall n, zlen pre <= n < zlen pre + Z.of_nat k ->
     cell lo (oi n) = n /\
     advance (l_shape lo) (rev (zrange (ndim lo))) (oi n) = oi (n + 1) /\
     advance (l_shape l) ka (ii n) = ii (n + 1) /\
     (let! s0 := start (oi n) in let! s := reduce_inner count step l ra s0 (ii n) in finish s) = f n) ->
  reduce_outer k start step finish lo l ra ka count (pre ++ post) (oi (zlen pre)) (ii (zlen pre)) =
  (let! vs := omapM f (map (fun j => zlen pre + Z.of_nat j) (seq 0 k)) in Ok (pre ++ vs)).
Proof.
  induction k as [|k IH]; intros pre post HL H; cbn [reduce_outer seq map omapM].
  - destruct post; [|discriminate]. cbn. reflexivity.
  - destruct post as [|x post]; [discriminate|].
    destruct (H (zlen pre) ltac:(lia)) as (H1 & H2 & H3 & H4). rewrite Z.add_0_r, <- H4.
    destruct (start (oi (zlen pre))) as [s0| |]; cbn [obind]; auto.
    destruct (reduce_inner count step l ra s0 (ii (zlen pre))) as [s| |]; cbn [obind]; auto.
    destruct (finish s) as [v| |]; cbn [obind]; auto.
    rewrite H1, store_split. cbn [obind]. rewrite H2, H3.
    assert (EL : zlen pre + 1 = zlen (pre ++ [v])) by (unfold zlen; rewrite app_length; cbn; lia).
    rewrite EL. rewrite IH; [|cbn in HL; lia|intros n Hn; apply H; lia].
    rewrite <- seq_shift, map_map.
    rewrite (map_ext (fun x => zlen pre + Z.of_nat (Datatypes.S x)) (fun j => zlen (pre ++ [v]) + Z.of_nat j)) by (intros j; lia).
    destruct (omapM f _) as [vs| |]; cbn [obind]; auto. rewrite <- app_assoc. reflexivity.
Qed.

(** The counter over all axes is the row-major counter. *)
Lemma all_axes_put vs idx : length idx = length vs -> put idx (rev (zrange (zlen vs))) (rev vs) = vs.
Proof.
  intros HL. apply getz_ext; [rewrite put_length; exact HL|].
  intros d Hd. rewrite put_zlen in Hd. assert (HZ : zlen idx = zlen vs) by (unfold zlen; lia).
  assert (E : map (getz (put idx (rev (zrange (zlen vs))) (rev vs))) (rev (zrange (zlen vs))) = rev vs).
  { apply map_getz_put.
    - apply Forall_rev. apply Forall_forall. intros x Hx. apply in_zrange in Hx. rewrite HZ. exact Hx.
    - apply NoDup_rev. apply zrange_nodup.
    - rewrite !rev_length. pose proof (zrange_length (zlen vs)) as P. unfold zlen in *. lia. }
  rewrite map_rev in E. apply (f_equal (@rev Z)) in E. rewrite !rev_involutive in E.
  rewrite HZ in Hd. set (q := put _ _ _) in *.
  assert (E2 : nth (Z.to_nat d) (map (getz q) (zrange (zlen vs))) 0 = nth (Z.to_nat d) vs 0) by (f_equal; exact E).
  unfold inr in Hd.
  assert (N : nth_error (map (getz q) (zrange (zlen vs))) (Z.to_nat d) = Some (getz q d)).
  { rewrite nth_error_map, nth_error_zrange by exact Hd. reflexivity. }
  apply nth_error_nth with (d := 0) in N. rewrite <- N. exact E2.
Qed.

Lemma map_getz_all sh : map (getz sh) (zrange (zlen sh)) = sh.
Proof.
  induction sh as [|s sh IH]; [reflexivity|].
  unfold zlen in *. cbn [length]. rewrite zrange_cons by lia. cbn [map]. f_equal.
  rewrite map_map. replace (Z.of_nat (S (length sh)) - 1) with (Z.of_nat (length sh)) by lia.
  rewrite <- IH at 2. apply map_ext_in. intros d Hd. apply in_zrange in Hd.
  unfold getz. replace (Z.to_nat (1 + d)) with (S (Z.to_nat d)) by lia. reflexivity.
Qed.

Lemma advance_all sh n : posl sh -> 0 <= n ->
  advance sh (rev (zrange (zlen sh))) (rev (digits (rev sh) n)) = rev (digits (rev sh) (n + 1)).
Proof.
  intros HP Hn.
  assert (Er : map (getz sh) (rev (zrange (zlen sh))) = rev sh) by (rewrite map_rev, map_getz_all; reflexivity).
  assert (HF : forall m, rev (digits (rev sh) m) = put (zeros sh) (rev (zrange (zlen sh))) (digits (map (getz sh) (rev (zrange (zlen sh)))) m)).
  { intros m. rewrite Er. symmetry.
    assert (HL : length (rev (digits (rev sh) m)) = length sh) by (rewrite rev_length, digits_length, rev_length; reflexivity).
    etransitivity; [|apply (all_axes_put (rev (digits (rev sh) m)) (zeros sh))].
    - rewrite rev_involutive. unfold zlen. rewrite HL. reflexivity.
    - rewrite HL. unfold zeros. apply map_length. }
  rewrite !HF. apply advance_put; auto.
  - apply Forall_rev, Forall_forall. intros x Hx. apply in_zrange in Hx. unfold zeros, zlen in *. rewrite map_length. exact Hx.
  - apply NoDup_rev, zrange_nodup.
  - rewrite Er. apply posl_rev. exact HP.
Qed.

(** ** Facts on kept axes *)
Lemma in_kept n axes d : In d (kept_axes n axes) <-> inr n d /\ ~ In d axes.
Proof.
  unfold kept_axes. rewrite filter_In, in_zrange. unfold inr.
  assert (existsb (Z.eqb d) axes = true <-> In d axes).
  { rewrite existsb_exists. split; [intros (x & Hx & E); apply Z.eqb_eq in E; subst; auto|].
    intros H. exists d. split; [auto|apply Z.eqb_refl]. }
  destruct (existsb (Z.eqb d) axes); intuition (try discriminate).
Qed.
Lemma kept_nodup n axes : NoDup (kept_axes n axes).
Proof. apply NoDup_filter, zrange_nodup. Qed.

Lemma drop_axes_kept sh axes : drop_axes 0 axes sh = map (getz sh) (kept_axes (zlen sh) axes).
Proof.
  assert (G : forall l k, 0 <= k ->
    drop_axes k axes l = map (fun d => getz l (d - k)) (filter (fun ax => negb (existsb (Z.eqb ax) axes)) (map (fun i => k + i) (zrange (zlen l))))).
  { induction l as [|x l IH]; intros k Hk; [reflexivity|].
    unfold zlen in *. cbn [length drop_axes]. rewrite zrange_cons by lia. cbn [map]. rewrite Z.add_0_r.
    cbn [filter]. rewrite IH by lia.
    replace (Z.of_nat (S (length l)) - 1) with (Z.of_nat (length l)) by lia. rewrite map_map.
    assert (R : forall P, map (fun d => getz l (d - (k + 1))) (filter P (map (fun i => k + 1 + i) (zrange (Z.of_nat (length l))))) =
                map (fun d => getz (x :: l) (d - k)) (filter P (map (fun i => k + (1 + i)) (zrange (Z.of_nat (length l)))))).
    { intros P. rewrite (map_ext (fun i => k + (1 + i)) (fun i => k + 1 + i)) by (intros; lia).
      apply map_ext_in. intros d Hd. apply filter_In in Hd. destruct Hd as [Hd _]. apply in_map_iff in Hd.
      destruct Hd as (i & <- & Hi). apply in_zrange in Hi. unfold getz.
      replace (Z.to_nat (k + 1 + i - k)) with (S (Z.to_nat (k + 1 + i - (k + 1)))) by lia. reflexivity. }
    rewrite R.
    assert (B : existsb (Z.eqb k) axes = true <-> In k axes).
    { rewrite existsb_exists. split; [intros (y & Hy & E); apply Z.eqb_eq in E; subst; auto|].
      intros H. exists k. split; [auto|apply Z.eqb_refl]. }
    destruct (in_dec Z.eq_dec k axes) as [Hi|Hi]; destruct (existsb (Z.eqb k) axes); cbn [negb map]; try tauto.
    - assert (~ false = true) by discriminate. tauto.
    - f_equal. rewrite Z.sub_diag. reflexivity. }
  rewrite (G sh 0) by lia. unfold kept_axes.
  rewrite (map_ext (fun i => 0 + i) (fun i => i)) by (intros; lia). rewrite map_id.
  apply map_ext. intros d. f_equal. lia.
Qed.

Lemma out_shape_reduced sh axes : out_shape axes sh = reduced_shape sh axes.
Proof. unfold out_shape, reduced_shape. destruct axes; [reflexivity|]. rewrite drop_axes_kept. reflexivity. Qed.

(** ** The whole reduction *)
Definition all_if_nil (n : Z) (axes : list Z) : list Z := match axes with [] => zrange n | _ => axes end.
Definition fibre (sh axes o : list Z) : list (list Z) :=
  let axes' := all_if_nil (zlen sh) axes in
  fibre_at sh axes' (base_of sh (kept_axes (zlen sh) axes') o).

Lemma zeros_zlen sh : zlen (zeros sh) = zlen sh.
Proof. unfold zeros, zlen. rewrite map_length. reflexivity. Qed.
Lemma getz_zeros sh d : getz (zeros sh) d = 0.
Proof.
  unfold getz, zeros. generalize (Z.to_nat d). induction sh as [|s sh IH]; intros [|n]; cbn; auto.
Qed.
Lemma kept_inr n axes : Forall (inr n) (kept_axes n axes).
Proof. apply Forall_forall. intros d Hd. apply in_kept in Hd. tauto. Qed.

Lemma getz_base_kept sh axes o : length o = length (kept_axes (zlen sh) axes) ->
  map (getz (base_of sh (kept_axes (zlen sh) axes) o)) (kept_axes (zlen sh) axes) = o.
Proof.
  intros HL. unfold base_of. set (k := kept_axes _ _) in *.
  assert (E : map (getz (put (zeros sh) (rev k) (rev o))) (rev k) = rev o).
  { apply map_getz_put.
    - rewrite zeros_zlen. apply Forall_rev, kept_inr.
    - apply NoDup_rev, kept_nodup.
    - rewrite !rev_length. exact HL. }
  rewrite map_rev in E. apply (f_equal (@rev Z)) in E. rewrite !rev_involutive in E. exact E.
Qed.
Lemma getz_base_axes sh axes o d : inr (zlen sh) d -> In d axes ->
  getz (base_of sh (kept_axes (zlen sh) axes) o) d = 0.
Proof.
  intros Hd Hi. unfold base_of. rewrite getz_put_other; [apply getz_zeros| | |].
  - rewrite zeros_zlen. apply Forall_rev, kept_inr.
  - rewrite zeros_zlen. exact Hd.
  - rewrite <- in_rev, in_kept. tauto.
Qed.
Lemma base_zlen sh k o : zlen (base_of sh k o) = zlen sh.
Proof. unfold base_of. rewrite put_zlen, zeros_zlen. reflexivity. Qed.

Lemma Forall2_map_l {A B C} (f : A -> B) (P : B -> C -> Prop) l m : Forall2 P (map f l) m <-> Forall2 (fun a c => P (f a) c) l m.
Proof.
  split; revert m; induction l as [|a l IH]; intros m H; inversion H; subst; constructor; auto.
Qed.
Lemma Forall2_map_r {A B C} (f : A -> B) (P : C -> B -> Prop) l m : Forall2 P l (map f m) <-> Forall2 (fun c a => P c (f a)) l m.
Proof.
  split; revert l; induction m as [|a m IH]; intros l H; inversion H; subst; constructor; auto.
Qed.
Lemma Forall2_diag {A} (P : A -> A -> Prop) l : Forall2 P l l <-> Forall (fun a => P a a) l.
Proof. split; induction l as [|a l IH]; intros H; inversion H; subst; constructor; auto. Qed.

Lemma in_range_map sh idx k : in_range (map (getz sh) k) (map (getz idx) k) <-> (forall d, In d k -> 0 <= getz idx d < getz sh d).
Proof.
  unfold in_range. rewrite Forall2_map_l, Forall2_map_r, Forall2_diag, Forall_forall. reflexivity.
Qed.

Lemma base_range sh axes o : in_range (map (getz sh) (kept_axes (zlen sh) axes)) o ->
  forall d, inr (zlen sh) d -> ~ In d axes -> 0 <= getz (base_of sh (kept_axes (zlen sh) axes) o) d < getz sh d.
Proof.
  intros H d Hd Hn. set (k := kept_axes _ _) in *.
  assert (E := getz_base_kept sh axes o). fold k in E.
  rewrite <- (E ltac:(apply in_range_length in H; rewrite H, map_length; reflexivity)) in H.
  rewrite in_range_map in H. apply H. apply in_kept. auto.
Qed.

Lemma fibre_at_enum sh axes o :
  good_axes (zlen sh) axes -> in_range (map (getz sh) (kept_axes (zlen sh) axes)) o ->
  let es := fibre_at sh axes (base_of sh (kept_axes (zlen sh) axes) o) in
  NoDup es /\ forall idx, In idx es <-> in_range sh idx /\ map (getz idx) (kept_axes (zlen sh) axes) = o.
Proof.
  intros [HN HF] Ho es. set (b := base_of _ _ _) in *.
  assert (HL : length o = length (kept_axes (zlen sh) axes)) by (apply in_range_length in Ho; rewrite Ho, map_length; reflexivity).
  assert (Hb : zlen b = zlen sh) by apply base_zlen.
  assert (HR : Forall (inr (zlen b)) (rev axes)) by (rewrite Hb; apply Forall_rev; exact HF).
  assert (HNR : NoDup (rev axes)) by (apply NoDup_rev; exact HN).
  assert (G : forall r, length r = length axes -> map (getz (put b (rev axes) (rev r))) axes = r).
  { intros r Hr. pose proof (map_getz_put b (rev axes) (rev r) HR HNR ltac:(rewrite !rev_length; exact Hr)) as E.
    rewrite map_rev in E. apply (f_equal (@rev Z)) in E. rewrite !rev_involutive in E. exact E. }
  assert (K : forall r d, inr (zlen sh) d -> ~ In d axes -> getz (put b (rev axes) (rev r)) d = getz b d).
  { intros r d Hd Hn. apply getz_put_other; auto; [rewrite Hb; exact Hd|rewrite <- in_rev; exact Hn]. }
  split.
  - unfold es, fibre_at. pose proof (all_indices_nodup (map (getz sh) axes)) as HD.
    assert (HI : forall r, In r (all_indices (map (getz sh) axes)) -> length r = length axes).
    { intros r Hr. apply in_all_indices, in_range_length in Hr. rewrite Hr, map_length. reflexivity. }
    revert HI. induction HD as [|r rs Hr HD IH]; intros HI; cbn; constructor.
    + intros C. apply in_map_iff in C. destruct C as (r2 & E & Hr2).
      apply (f_equal (fun q => map (getz q) axes)) in E. rewrite !G in E by (apply HI; cbn; auto).
      subst. contradiction.
    + apply IH. intros r2 Hr2. apply HI. right. exact Hr2.
  - intros idx. unfold es, fibre_at. rewrite in_map_iff. split.
    + intros (r & <- & Hr). apply in_all_indices in Hr.
      assert (Hlr : length r = length axes) by (apply in_range_length in Hr; rewrite Hr, map_length; reflexivity).
      split.
      * apply in_range_getz. rewrite put_length. split; [unfold zlen in Hb; lia|].
        intros d Hd. destruct (in_dec Z.eq_dec d axes) as [Hi|Hi].
        -- rewrite <- (G r Hlr) in Hr. rewrite in_range_map in Hr. auto.
        -- rewrite K by auto. apply base_range; auto.
      * rewrite <- (getz_base_kept sh axes o HL). fold b. apply map_ext_in. intros d Hd. apply in_kept in Hd.
        apply K; tauto.
    + intros [Hr Hk]. apply in_range_getz in Hr. destruct Hr as [Hil Hr].
      exists (map (getz idx) axes). split.
      * apply getz_ext; [rewrite put_length; unfold zlen in Hb; lia|].
        intros d Hd. rewrite put_zlen, Hb in Hd. destruct (in_dec Z.eq_dec d axes) as [Hi|Hi].
        -- specialize (G (map (getz idx) axes) ltac:(apply map_length)).
           rewrite map_ext_in_iff in G. apply G. exact Hi.
        -- rewrite K by auto. pose proof (getz_base_kept sh axes o HL) as E. fold b in E.
           rewrite <- Hk in E. rewrite map_ext_in_iff in E. apply E. apply in_kept. auto.
      * apply in_all_indices. apply in_range_map. intros d Hd. apply Hr.
        rewrite Forall_forall in HF. apply HF. exact Hd.
Qed.

Lemma good_all n : good_axes n (zrange n).
Proof. split; [apply zrange_nodup|]. apply Forall_forall. intros d Hd. apply in_zrange in Hd. exact Hd. Qed.
Lemma kept_all n : kept_axes n (zrange n) = [].
Proof.
  destruct (kept_axes n (zrange n)) as [|d t] eqn:E; [reflexivity|].
  assert (H : In d (kept_axes n (zrange n))) by (rewrite E; left; reflexivity).
  apply in_kept in H. destruct H as [H1 H2]. elim H2. apply in_zrange. exact H1.
Qed.
Lemma good_all_if_nil n axes : good_axes n axes -> good_axes n (all_if_nil n axes).
Proof. intros H. destruct axes; [apply good_all|exact H]. Qed.

(** What the output axes look like: the kept dims, or [1] when none is kept. *)
Lemma out_shape_cases sh axes :
  let k := kept_axes (zlen sh) (all_if_nil (zlen sh) axes) in
  (k = [] /\ out_shape axes sh = [1] /\ forall idx, length idx = length sh -> out_index axes idx = [0]) \/
  (k <> [] /\ out_shape axes sh = map (getz sh) k /\ forall idx, length idx = length sh -> out_index axes idx = map (getz idx) k).
Proof.
  intros k. destruct axes as [|a axes].
  - left. unfold k, all_if_nil. rewrite kept_all. auto.
  - unfold k, all_if_nil, out_shape, out_index. rewrite drop_axes_kept.
    assert (E : forall idx, length idx = length sh -> drop_axes 0 (a :: axes) idx = map (getz idx) (kept_axes (zlen sh) (a :: axes))).
    { intros idx HL. rewrite drop_axes_kept. unfold zlen. rewrite HL. reflexivity. }
    destruct (kept_axes (zlen sh) (a :: axes)) as [|d t] eqn:EK.
    + left. split; [reflexivity|]. split; [reflexivity|]. intros idx HL. rewrite E by exact HL. reflexivity.
    + right. split; [discriminate|]. split; [reflexivity|]. intros idx HL. rewrite E by exact HL. reflexivity.
Qed.

Lemma fibre_enumerates sh axes o :
  good_axes (zlen sh) axes -> in_range (out_shape axes sh) o -> enumerates sh axes o (fibre sh axes o).
Proof.
  intros Hg Ho. unfold fibre. set (ax := all_if_nil (zlen sh) axes) in *.
  assert (Hga : good_axes (zlen sh) ax) by (apply good_all_if_nil; exact Hg).
  destruct (out_shape_cases sh axes) as [(Hk & Hs & Hi)|(Hk & Hs & Hi)]; fold ax in Hk, Hs, Hi.
  - assert (Hb : forall o', base_of sh (kept_axes (zlen sh) ax) o' = base_of sh (kept_axes (zlen sh) ax) []) by (intros; rewrite Hk; reflexivity).
    rewrite Hb. destruct (fibre_at_enum sh ax [] Hga) as [H1 H2]; [rewrite Hk; constructor|].
    split; [exact H1|]. intros idx. rewrite H2, Hk. cbn.
    rewrite Hs in Ho. inversion Ho as [|? ? ? ? Hi0 Ho']; subst. inversion Ho'; subst.
    split; intros [Hr _]; (split; [exact Hr|]); [|reflexivity].
    rewrite Hi by (apply in_range_length; exact Hr). f_equal. lia.
  - rewrite Hs in Ho. destruct (fibre_at_enum sh ax o Hga Ho) as [H1 H2].
    split; [exact H1|]. intros idx. rewrite H2.
    split; intros [Hr He]; (split; [exact Hr|]); rewrite Hi in * by (apply in_range_length; exact Hr); exact He.
Qed.

Lemma omapM_map {A B C} (h : A -> B) (f : B -> outcome C) l : omapM f (map h l) = omapM (fun x => f (h x)) l.
Proof. induction l as [|x l IH]; cbn; auto. rewrite IH. reflexivity. Qed.
Lemma omapM_ext_in {A B} (f g : A -> outcome B) l : (forall x, In x l -> f x = g x) -> omapM f l = omapM g l.
Proof. induction l as [|x l IH]; intros H; cbn; auto. rewrite H by (left; auto). rewrite IH by (intros; apply H; right; auto). reflexivity. Qed.

Lemma getz_nonneg sh d : Forall (fun x => 0 <= x) sh -> 0 <= getz sh d.
Proof. intros H. unfold getz. destruct (nth_in_or_default (Z.to_nat d) sh 0) as [Hi| ->]; [|lia]. rewrite Forall_forall in H. auto. Qed.

Lemma out_shape_nonneg sh axes : Forall (fun x => 0 <= x) sh -> Forall (fun x => 0 <= x) (out_shape axes sh).
Proof.
  intros H. destruct (out_shape_cases sh axes) as [(_ & -> & _)|(_ & -> & _)].
  - constructor; [lia|constructor].
  - apply Forall_forall. intros x Hx. apply in_map_iff in Hx. destruct Hx as (d & <- & _). apply getz_nonneg. exact H.
Qed.

Theorem reduce_fibres {S V} (start : list Z -> outcome S) step (finish : S -> outcome V) junk l axes :
  wf l -> Forall (fun d => 0 <= d) (l_shape l) -> good_axes (ndim l) axes ->
  zprod (out_shape axes (l_shape l)) < 2 ^ 31 ->
  reduce start step finish junk l axes =
  (let! vs := omapM (fun o => let! s0 := start o in
                              let! s := ofold step s0 (map (cell l) (fibre (l_shape l) axes o)) in
                              finish s) (all_indices (out_shape axes (l_shape l))) in
   Ok (dense (out_shape axes (l_shape l)), vs)).
Proof.
  intros Hw Hnn Hg Hsm. unfold reduce. rewrite <- out_shape_reduced.
  pose proof (out_shape_nonneg _ axes Hnn) as Hon.
  pose proof (fresh_length junk _ Hon) as HFL.
  set (sh := l_shape l) in *. set (osh := out_shape axes sh) in *.
  unfold reduce_kernel. fold (all_if_nil (ndim l) axes). set (ax := all_if_nil (ndim l) axes).
  assert (Hga : good_axes (ndim l) ax) by (apply good_all_if_nil; exact Hg). destruct Hga as [HN HF].
  replace (forallb (fun d => (0 <=? d) && (d <? ndim l)) ax) with true.
  2:{ symmetry. apply forallb_forall. intros d Hd. rewrite Forall_forall in HF. specialize (HF d Hd). lia. }
  cbn [negb]. fold sh.
  set (k := kept_axes (ndim l) ax).
  set (f := fun o => let! s0 := start o in let! s := ofold step s0 (map (cell l) (fibre sh axes o)) in finish s).
  assert (HM : reduce_outer (Z.to_nat (numel (dense osh))) start step finish (dense osh) l (rev ax) (rev k)
                 (Z.to_nat (zprod (map (getz sh) ax))) (fresh junk osh) (map (fun _ => 0) (l_shape (dense osh)))
                 (map (fun _ => 0) sh) =
               (let! vs := omapM f (all_indices osh) in Ok vs)).
  2:{ rewrite HM. destruct (omapM f (all_indices osh)); reflexivity. }
  unfold numel. cbn [dense l_shape]. rewrite small_numel by (split; assumption).
  destruct (posl_dec osh) as [HP|HP].
  2:{ rewrite all_indices_empty, zprod_zero by auto. rewrite zprod_zero in HFL by auto.
      destruct (fresh junk osh); [reflexivity|unfold zlen in HFL; cbn in HFL; lia]. }
  set (oi := fun n => rev (digits (rev osh) n)).
  set (ii := fun n => base_of sh k (oi n)).
  assert (Hrange : forall n, in_range osh (oi n)).
  { intros n. unfold oi. pose proof (digits_range (rev osh) n (posl_rev _ HP)) as R.
    unfold in_range in *. rewrite <- (rev_involutive osh) at 1. clear -R. revert R. generalize (rev osh) (digits (rev osh) n).
    intros a b R. induction R; cbn; [constructor|]. apply Forall2_app; [exact IHR|]. constructor; auto. }
  assert (Hkin : forall n, k = [] \/ in_range (map (getz sh) k) (oi n)).
  { intros n. destruct (out_shape_cases sh axes) as [(Hk & _ & _)|(Hk & Hs & _)]; [left; exact Hk|right].
    unfold k, ax, ndim. fold sh. rewrite <- Hs. apply Hrange. }
  assert (Hbase : forall n d, inr (ndim l) d -> ~ In d ax -> 0 <= getz (ii n) d < getz sh d).
  { intros n d Hd Hnd. destruct (Hkin n) as [Hk|Hin].
    - assert (In d k) by (apply in_kept; auto). rewrite Hk in H. destruct H.
    - apply base_range; auto. }
  assert (Hadv : forall n, 0 <= n -> advance sh (rev k) (ii n) = ii (n + 1)).
  { intros n Hn. unfold ii, base_of. destruct (out_shape_cases sh axes) as [(Hk & _ & _)|(Hk & Hs & _)].
    - unfold k, ax, ndim. fold sh. rewrite Hk. reflexivity.
    - fold osh in Hs. change (kept_axes (zlen sh) (all_if_nil (zlen sh) axes)) with k in Hs.
      unfold oi. rewrite !rev_involutive. rewrite Hs. rewrite <- map_rev. apply advance_put; auto.
      + rewrite zeros_zlen. apply Forall_rev, kept_inr.
      + apply NoDup_rev, kept_nodup.
      + rewrite map_rev, <- Hs. apply posl_rev. exact HP. }
  assert (E0 : map (fun _ : Z => 0) osh = oi 0).
  { unfold oi. rewrite <- rev_zeros by exact HP. rewrite rev_involutive. reflexivity. }
  assert (E1 : map (fun _ : Z => 0) sh = ii 0).
  { unfold ii, base_of. rewrite <- E0. symmetry. destruct (Hkin 0) as [Hk|Hin]; [rewrite Hk; reflexivity|].
    etransitivity; [|apply (put_zeros (zeros sh) (rev k))].
    - f_equal. rewrite <- map_rev. apply in_range_length in Hin. rewrite <- E0, !map_length in Hin.
      assert (EL : length (rev osh) = length (rev k)) by (rewrite !rev_length; exact Hin).
      revert EL. generalize (rev osh) (rev k). induction l0 as [|x l0 IH]; intros [|y l1] H; cbn in *; try discriminate; auto.
      f_equal. apply IH. lia.
    - rewrite zeros_zlen. apply Forall_rev, kept_inr.
    - intros; apply getz_zeros. }
  rewrite E0, E1.
  pose proof (reduce_outer_map start step finish (dense osh) l (rev ax) (rev k)
    (Z.to_nat (zprod (map (getz sh) ax))) oi ii (fun n => f (oi n)) (Z.to_nat (zprod osh)) [] (fresh junk osh)) as R.
  cbn [app] in R. change (zlen (@nil V)) with 0 in R. rewrite R; clear R.
  - rewrite all_indices_digits by exact HP. fold oi. rewrite omapM_map. unfold zrange. rewrite omapM_map, omapM_map.
    reflexivity.
  - unfold zlen in HFL. lia.
  - intros n Hn. rewrite Z2Nat.id in Hn by (apply Z.lt_le_incl, zprod_posl; exact HP).
    split; [|split; [|split]].
    + pose proof (dense_cells osh Hon) as D. rewrite all_indices_digits in D by exact HP. rewrite map_map in D.
      assert (N : nth_error (map (fun x => cell (dense osh) (rev (digits (rev osh) x))) (zrange (zprod osh))) (Z.to_nat n) = Some n).
      { rewrite D. apply nth_error_zrange. lia. }
      rewrite nth_error_map, nth_error_zrange in N by lia. cbn [option_map] in N. injection N as N. exact N.
    + cbn [dense l_shape ndim]. apply advance_all; [exact HP|lia].
    + apply Hadv. lia.
    + unfold f. destruct (start (oi n)) as [s0| |]; cbn [obind]; auto.
      unfold sh. rewrite reduce_inner_fibre; auto.
      * apply base_zlen.
      * apply Forall_forall. intros x Hx. apply in_map_iff in Hx. destruct Hx as (d & <- & _). apply getz_nonneg. exact Hnn.
      * intros d Hd. apply getz_base_axes; [|exact Hd]. rewrite Forall_forall in HF. apply HF. exact Hd.
Qed.
