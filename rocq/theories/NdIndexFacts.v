(** Mixed-radix numerals and the odometer loops. *)
From Verif Require Export NdSpec BaseFacts.
From Coq Require Import ZifyBool ZifyNat.
Ltac Zify.zify_post_hook ::= Z.div_mod_to_equations.
Local Open Scope Z_scope.

(** Digits of [n], least significant first; [rsh] is a reversed shape. *)
Fixpoint digits (rsh : list Z) (n : Z) : list Z :=
  match rsh with
  | [] => []
  | d :: t => n mod d :: digits t (n / d)
  end.

Fixpoint dot (a b : list Z) : Z :=
  match a, b with
  | x :: a', y :: b' => x * y + dot a' b'
  | _, _ => 0
  end.

Definition posl (l : list Z) : Prop := Forall (fun d => 0 < d) l.

Lemma posl_rev l : posl l -> posl (rev l).
Proof. apply Forall_rev. Qed.

Lemma digits_length rsh n : length (digits rsh n) = length rsh.
Proof. revert n; induction rsh as [|d t IH]; intros n; cbn; auto. Qed.

Lemma digits_zero rsh : posl rsh -> digits rsh 0 = map (fun _ => 0) rsh.
Proof.
  induction 1 as [|d t Hd Ht IH]; cbn; [reflexivity|].
  rewrite Z.mod_0_l, Z.div_0_l, IH by lia. reflexivity.
Qed.

Lemma dot_nil_r a : dot a [] = 0.
Proof. destruct a; reflexivity. Qed.

Lemma dot_zeros (a : list Z) (b : list Z) : dot (map (fun _ => 0) a) b = 0.
Proof. revert b; induction a as [|x a IH]; intros [|y b]; cbn; auto. rewrite IH. lia. Qed.

Lemma dot_app a b c d : length a = length c -> dot (a ++ b) (c ++ d) = dot a c + dot b d.
Proof.
  revert c; induction a as [|x a IH]; intros [|y c] H; cbn in *; try discriminate; [lia|].
  rewrite IH by lia. lia.
Qed.

Lemma dot_rev a b : length a = length b -> dot (rev a) (rev b) = dot a b.
Proof.
  revert b; induction a as [|x a IH]; intros [|y b] H; cbn in *; try discriminate; auto.
  rewrite dot_app by (rewrite !rev_length; lia). rewrite IH by lia. cbn. lia.
Qed.

Lemma dot_comm a b : dot a b = dot b a.
Proof. revert b; induction a as [|x a IH]; intros [|y b]; cbn; auto. rewrite IH. lia. Qed.

Lemma cell_loop_dot offs idx strides :
  length idx = length offs -> length strides = length offs ->
  cell_loop offs idx strides = zsum offs + dot idx strides.
Proof.
  revert idx strides; induction offs as [|o offs IH]; intros [|i idx] [|s strides] H1 H2;
    cbn in *; try discriminate; auto.
  rewrite IH by lia. rewrite zsum_cons. lia.
Qed.

Lemma cell_dot l idx : wf l -> length idx = length (l_shape l) ->
  cell l idx = zsum (l_offsets l) + dot idx (l_strides l).
Proof. intros [H1 H2] H. unfold cell. apply cell_loop_dot; lia. Qed.

(** Row-major enumeration through digits. *)
Lemma zprod_posl l : posl l -> 0 < zprod l.
Proof. apply zprod_pos. Qed.

Lemma digits_app_last r d n : posl r ->
  digits (r ++ [d]) n = digits r n ++ [(n / zprod r) mod d].
Proof.
  intros H; revert n; induction H as [|x t Hx Ht IH]; intros n; cbn.
  - rewrite zprod_nil, Z.div_1_r. reflexivity.
  - rewrite IH. rewrite zprod_cons, Z.div_div by (pose proof (zprod_posl _ Ht); lia). reflexivity.
Qed.

Lemma digits_mod_prod r q m : posl r -> 0 <= m -> digits r (q * zprod r + m) = digits r m.
Proof.
  intros H; revert q m; induction H as [|x t Hx Ht IH]; intros q m Hm; cbn; [reflexivity|].
  rewrite zprod_cons. f_equal.
  - replace (q * (x * zprod t) + m) with (m + (q * zprod t) * x) by ring.
    apply Z.mod_add. lia.
  - replace (q * (x * zprod t) + m) with (m + (q * zprod t) * x) by ring.
    rewrite Z.div_add by lia. rewrite Z.add_comm. apply IH. apply Z.div_pos; lia.
Qed.

Lemma zrange_flat d P : 0 <= d -> 0 <= P ->
  zrange (d * P) = flat_map (fun q => map (fun r => q * P + r) (zrange P)) (zrange d).
Proof.
  intros Hd HP.
  revert d Hd. apply natlike_ind; [reflexivity|].
  intros d Hd IH. unfold Z.succ. rewrite Z.mul_add_distr_r, Z.mul_1_l.
  rewrite zrange_app by nia. rewrite (zrange_snoc d) by lia. rewrite flat_map_app, IH. cbn.
  rewrite app_nil_r. reflexivity.
Qed.

Lemma all_indices_digits sh : posl sh ->
  all_indices sh = map (fun n => rev (digits (rev sh) n)) (zrange (zprod sh)).
Proof.
  induction 1 as [|d t Hd Ht IH]; [reflexivity|].
  cbn [all_indices rev]. rewrite zprod_cons.
  pose proof (zprod_posl _ Ht) as HP.
  rewrite (zrange_flat d (zprod t)) by lia.
  rewrite map_flat_map. rewrite !flat_map_concat_map. f_equal.
  apply map_ext_in. intros q Hq. apply in_zrange in Hq.
  rewrite IH, !map_map. apply map_ext_in. intros r Hr. apply in_zrange in Hr.
  rewrite digits_app_last by (apply posl_rev; auto).
  rewrite rev_app_distr. cbn [rev app]. rewrite zprod_rev. f_equal.
  - replace (q * zprod t + r) with (r + q * zprod t) by ring.
    rewrite Z.div_add, Z.div_small, Z.mod_small by lia. lia.
  - f_equal. rewrite <- (zprod_rev t). rewrite digits_mod_prod; [reflexivity|apply posl_rev; auto|lia].
Qed.

Lemma all_indices_empty sh : Forall (fun d => 0 <= d) sh -> ~ posl sh -> all_indices sh = [].
Proof.
  induction 1 as [|d t Hd Ht IH]; intros H; [elim H; constructor|].
  cbn. destruct (Z.eq_dec d 0) as [->|Hd0]; [reflexivity|].
  assert (Hnt : ~ posl t) by (intros C; apply H; constructor; [lia|auto]).
  rewrite (IH Hnt). cbn. clear. induction (zrange d); auto.
Qed.

Lemma posl_dec sh : {posl sh} + {~ posl sh}.
Proof. apply Forall_dec. intros x. apply Z_lt_dec. Qed.

Lemma in_all_indices sh idx : In idx (all_indices sh) <-> in_range sh idx.
Proof.
  revert idx; induction sh as [|d t IH]; intros idx; cbn.
  - split; [intros [<-|[]]; constructor | inversion 1; auto].
  - rewrite in_flat_map. split.
    + intros (i & Hi & Hin). apply in_zrange in Hi. apply in_map_iff in Hin.
      destruct Hin as (r & <- & Hr). constructor; [lia|]. apply IH. exact Hr.
    + inversion 1 as [|d' i t' r Hd Hr]; subst. exists i. split; [apply in_zrange; lia|].
      apply in_map. apply IH. exact Hr.
Qed.


Lemma nodup_app {A} (l m : list A) :
  NoDup l -> NoDup m -> (forall x, In x l -> ~ In x m) -> NoDup (l ++ m).
Proof.
  induction 1 as [|x l Hx Hl IH]; intros Hm Hd; cbn; [exact Hm|].
  constructor.
  - rewrite in_app_iff. intros [H|H]; [auto|]. apply (Hd x); [left; auto|auto].
  - apply IH; auto. intros y Hy. apply Hd. right. exact Hy.
Qed.

Lemma all_indices_nodup sh : NoDup (all_indices sh).
Proof.
  induction sh as [|d t IH]; cbn; [constructor; [intros []|constructor]|].
  induction (zrange_nodup d) as [|i l Hi Hl IHl]; cbn; [constructor|].
  apply nodup_app; [|exact IHl|].
  - apply FinFun.Injective_map_NoDup; [|exact IH]. intros a b H. congruence.
  - intros x Hx Hx'. apply in_map_iff in Hx. destruct Hx as (r & <- & _).
    apply in_flat_map in Hx'. destruct Hx' as (j & Hj & Hin).
    apply in_map_iff in Hin. destruct Hin as (r' & Heq & _). congruence.
Qed.

Lemma in_range_length sh idx : in_range sh idx -> length idx = length sh.
Proof. induction 1; cbn; auto. Qed.

(** ** Counters *)

(** Pointer with per-axis extents [ash] and strides [ast] follows an odometer of shape [osh]. *)
Inductive follows : list Z -> list Z -> list Z -> Prop :=
| follows_nil : follows [] [] []
| follows_cons d ad sa osh ash ast :
    ad = d \/ sa = 0 -> follows osh ash ast -> follows (d :: osh) (ad :: ash) (sa :: ast).

Lemma follows_refl osh ast : length ast = length osh -> follows osh osh ast.
Proof.
  revert ast; induction osh as [|d osh IH]; intros [|s ast] H; cbn in *; try discriminate;
    constructor; auto.
Qed.

Lemma follows_lengths osh ash ast : follows osh ash ast -> length ash = length osh /\ length ast = length osh.
Proof. induction 1 as [|? ? ? ? ? ? _ _ [H1 H2]]; cbn; auto. Qed.

Lemma follows_app o1 a1 s1 o2 a2 s2 :
  follows o1 a1 s1 -> follows o2 a2 s2 -> follows (o1 ++ o2) (a1 ++ a2) (s1 ++ s2).
Proof. induction 1; intros H2; cbn; auto. constructor; auto. Qed.

Lemma follows_rev osh ash ast : follows osh ash ast -> follows (rev osh) (rev ash) (rev ast).
Proof.
  induction 1; cbn; [constructor|]. apply follows_app; auto. constructor; [assumption|constructor].
Qed.

Lemma succ_digit n d : 0 < d -> 0 <= n ->
  (n mod d + 1 = d /\ (n + 1) mod d = 0 /\ (n + 1) / d = n / d + 1) \/
  (n mod d + 1 < d /\ (n + 1) mod d = n mod d + 1 /\ (n + 1) / d = n / d).
Proof.
  intros Hd Hn. pose proof (Z.mod_pos_bound n d Hd) as Hm.
  pose proof (Z.div_mod n d ltac:(lia)) as Hdm.
  assert (n mod d + 1 = d \/ n mod d + 1 < d) as [H|H] by lia.
  - left. split; [exact H|].
    assert (E : n + 1 = (n / d + 1) * d) by nia.
    split; rewrite E; [apply Z.mod_mul|apply Z.div_mul]; lia.
  - right. split; [exact H|].
    assert (E : n + 1 = (n mod d + 1) + (n / d) * d) by nia.
    split; rewrite E at 1.
    + rewrite Z.mod_add, Z.mod_small by lia. reflexivity.
    + rewrite Z.div_add, Z.div_small by lia. lia.
Qed.

Lemma odo2_step osh ash ast ost n ai oi :
  posl osh -> follows osh ash ast -> length ost = length osh -> 0 <= n ->
  odo2 osh ash ast ost (digits osh n) (ai + dot (digits osh n) ast) (oi + dot (digits osh n) ost)
  = (digits osh (n + 1), ai + dot (digits osh (n + 1)) ast, oi + dot (digits osh (n + 1)) ost).
Proof.
  intros Hpos Hf; revert ost n ai oi Hpos.
  induction Hf as [|d ad sa osh ash ast Had Hf IH]; intros ost n ai oi Hpos Hlo Hn; cbn.
  - reflexivity.
  - destruct ost as [|so ost]; [discriminate|]. cbn in Hlo.
    inversion Hpos as [|d' osh' Hd Hpos']; subst.
    cbn [dot].
    destruct (succ_digit n d Hd Hn) as [(H1 & H2 & H3)|(H1 & H2 & H3)].
    + rewrite H1, Z.eqb_refl. cbn [negb].
      assert (Hq : 0 <= n / d) by (apply Z.div_pos; lia).
      replace (ai + (n mod d * sa + dot (digits osh (n / d)) ast) - (ad - 1) * sa)
        with (ai + dot (digits osh (n / d)) ast)
        by (destruct Had as [->| ->]; [nia|lia]).
      replace (oi + (n mod d * so + dot (digits osh (n / d)) ost) - (d - 1) * so)
        with (oi + dot (digits osh (n / d)) ost) by nia.
      rewrite (IH ost (n / d) ai oi Hpos') by (try assumption; lia).
      rewrite H2, H3. repeat f_equal; lia.
    + replace (n mod d + 1 =? d) with false by lia. cbn [negb].
      rewrite H2, H3. f_equal; [f_equal|]; lia.
Qed.

Lemma loop2_digits k osh ash ast ost n ai oi :
  posl osh -> follows osh ash ast -> length ost = length osh -> 0 <= n ->
  loop2 k osh ash ast ost (digits osh n) (ai + dot (digits osh n) ast) (oi + dot (digits osh n) ost)
  = map (fun j => (oi + dot (digits osh (n + j)) ost, ai + dot (digits osh (n + j)) ast))
        (zrange (Z.of_nat k)).
Proof.
  intros Hpos Hf Hlo. revert n; induction k as [|k IH]; intros n Hn; [reflexivity|].
  cbn [loop2]. rewrite odo2_step by assumption. rewrite IH by lia.
  rewrite Nat2Z.inj_succ. unfold Z.succ. rewrite (zrange_cons (Z.of_nat k + 1)) by lia.
  cbn [map]. rewrite Z.add_0_r. f_equal. rewrite map_map.
  replace (Z.of_nat k + 1 - 1) with (Z.of_nat k) by lia.
  apply map_ext. intros j. rewrite <- Z.add_assoc. reflexivity.
Qed.

Lemma odo1_odo2 osh ost idx oi :
  length ost = length osh ->
  odo1 osh ost idx oi = let '(i, _, o) := odo2 osh osh ost ost idx oi oi in (i, o).
Proof.
  enough (H : forall ai, length ost = length osh ->
    odo1 osh ost idx oi = let '(i, _, o) := odo2 osh osh ost ost idx ai oi in (i, o)) by apply H.
  revert ost idx oi; induction osh as [|d osh IH]; intros [|so ost] [|i idx] oi ai H;
    cbn in *; try discriminate; auto.
  destruct (negb (i + 1 =? d)); [reflexivity|].
  rewrite (IH ost idx (oi - (d - 1) * so) (ai - (d - 1) * so)) by lia.
  destruct (odo2 osh osh ost ost idx (ai - (d - 1) * so) (oi - (d - 1) * so)) as [[? ?] ?]. reflexivity.
Qed.

Lemma loop1_digits k osh ost n oi :
  posl osh -> length ost = length osh -> 0 <= n ->
  loop1 k osh ost (digits osh n) (oi + dot (digits osh n) ost)
  = map (fun j => oi + dot (digits osh (n + j)) ost) (zrange (Z.of_nat k)).
Proof.
  intros Hpos Hlo. revert n; induction k as [|k IH]; intros n Hn; [reflexivity|].
  cbn [loop1]. rewrite odo1_odo2 by assumption.
  rewrite odo2_step by (try assumption; apply follows_refl; auto).
  rewrite IH by lia.
  rewrite Nat2Z.inj_succ. unfold Z.succ. rewrite (zrange_cons (Z.of_nat k + 1)) by lia.
  cbn [map]. rewrite Z.add_0_r. f_equal. rewrite map_map.
  replace (Z.of_nat k + 1 - 1) with (Z.of_nat k) by lia.
  apply map_ext. intros j. rewrite <- Z.add_assoc. reflexivity.
Qed.

(** ** Unrolled loop *)

Ltac quad := apply (f_equal2 pair); [apply (f_equal2 pair); [apply (f_equal2 pair)|]|]; try reflexivity; try ring.

Lemma bin_carry_step osh ash bsh ast bst ost n u ai bi oi :
  posl osh -> follows osh ash ast -> follows osh bsh bst -> length ost = length osh -> 0 <= n ->
  bin_advance false u osh ash bsh ast bst ost (digits osh n)
    (ai + dot (digits osh n) ast) (bi + dot (digits osh n) bst) (oi + dot (digits osh n) ost)
  = (digits osh (n + 1), ai + dot (digits osh (n + 1)) ast, bi + dot (digits osh (n + 1)) bst,
     oi + dot (digits osh (n + 1)) ost).
Proof.
  intros Hpos Hf; revert bsh bst ost n ai bi oi Hpos.
  induction Hf as [|d ad sa osh ash ast Had Hf IH]; intros bsh bst ost n ai bi oi Hpos Hfb Hlo Hn; cbn.
  - inversion Hfb; subst. reflexivity.
  - inversion Hfb as [|d' bd sb osh' bsh' bst' Hbd Hfb']; subst.
    destruct ost as [|so ost]; [discriminate|]. cbn in Hlo.
    inversion Hpos as [|d' osh' Hd Hpos']; subst.
    cbn [dot].
    destruct (succ_digit n d Hd Hn) as [(H1 & H2 & H3)|(H1 & H2 & H3)].
    + rewrite H1, Z.ltb_irrefl.
      assert (Hq : 0 <= n / d) by (apply Z.div_pos; lia).
      replace (ai + (n mod d * sa + dot (digits osh (n / d)) ast) + 1 * sa - ad * sa)
        with (ai + dot (digits osh (n / d)) ast)
        by (destruct Had as [->| ->]; [nia|lia]).
      replace (bi + (n mod d * sb + dot (digits osh (n / d)) bst') + 1 * sb - bd * sb)
        with (bi + dot (digits osh (n / d)) bst')
        by (destruct Hbd as [->| ->]; [nia|lia]).
      replace (oi + (n mod d * so + dot (digits osh (n / d)) ost) + 1 * so - d * so)
        with (oi + dot (digits osh (n / d)) ost) by nia.
      rewrite (IH bsh' bst' ost (n / d) ai bi oi Hpos') by (try assumption; lia).
      rewrite H2, H3. quad.
    + replace (n mod d + 1 <? d) with true by lia.
      rewrite H2, H3. quad.
Qed.

(** The first (unrolled) axis advances by [u] without passing the end of the row. *)
Lemma digits_within_row d t n j : 0 < d -> 0 <= n -> 0 <= j -> n mod d + j < d ->
  digits (d :: t) (n + j) = (n mod d + j) :: digits t (n / d).
Proof.
  intros Hd Hn Hj H. cbn.
  pose proof (Z.div_mod n d ltac:(lia)) as Hdm.
  pose proof (Z.mod_pos_bound n d Hd) as Hm.
  assert (E : n + j = (n mod d + j) + (n / d) * d) by nia.
  rewrite E at 1 2.
  rewrite Z.mod_add, Z.div_add, (Z.mod_small (n mod d + j)), (Z.div_small (n mod d + j)) by lia. reflexivity.
Qed.

Lemma bin_unrolled_step d osh ad ash bd bsh sa ast sb bst so ost n u ai bi oi :
  posl (d :: osh) -> follows (d :: osh) (ad :: ash) (sa :: ast) -> follows (d :: osh) (bd :: bsh) (sb :: bst) ->
  length ost = length osh -> 0 <= n -> 1 <= u -> n mod d + u <= d ->
  bin_advance true u (d :: osh) (ad :: ash) (bd :: bsh) (sa :: ast) (sb :: bst) (so :: ost) (digits (d :: osh) n)
    (ai + dot (digits (d :: osh) n) (sa :: ast)) (bi + dot (digits (d :: osh) n) (sb :: bst))
    (oi + dot (digits (d :: osh) n) (so :: ost))
  = (digits (d :: osh) (n + u), ai + dot (digits (d :: osh) (n + u)) (sa :: ast),
     bi + dot (digits (d :: osh) (n + u)) (sb :: bst),
     oi + dot (digits (d :: osh) (n + u)) (so :: ost)).
Proof.
  intros Hpos Hfa Hfb Hlo Hn Hu Hrow.
  inversion Hfa as [|? ? ? ? ? ? Had Hfa']; subst. inversion Hfb as [|? ? ? ? ? ? Hbd Hfb']; subst.
  inversion Hpos as [|d' osh' Hd Hpos']; subst.
  cbn [bin_advance digits dot].
  assert (Hq : 0 <= n / d) by (apply Z.div_pos; lia).
  pose proof (Z.div_mod n d ltac:(lia)) as Hdm.
  pose proof (Z.mod_pos_bound n d Hd) as Hm.
  destruct (Z.ltb_spec (n mod d + u) d) as [H|H].
  - pose proof (digits_within_row d osh n u Hd Hn ltac:(lia) H) as E. cbn [digits] in E.
    inversion E as [[E1 E2]]. rewrite E1, E2. quad.
  - assert (E : n + u = (n / d + 1) * d) by nia.
    assert (E1 : (n + u) mod d = 0) by (rewrite E; apply Z.mod_mul; lia).
    assert (E2 : (n + u) / d = n / d + 1) by (rewrite E; apply Z.div_mul; lia).
    replace (ai + (n mod d * sa + dot (digits osh (n / d)) ast) + u * sa - ad * sa)
      with (ai + dot (digits osh (n / d)) ast)
      by (destruct Had as [->| ->]; [nia|lia]).
    replace (bi + (n mod d * sb + dot (digits osh (n / d)) bst) + u * sb - bd * sb)
      with (bi + dot (digits osh (n / d)) bst)
      by (destruct Hbd as [->| ->]; [nia|lia]).
    replace (oi + (n mod d * so + dot (digits osh (n / d)) ost) + u * so - d * so)
      with (oi + dot (digits osh (n / d)) ost) by nia.
    rewrite bin_carry_step by assumption.
    rewrite E1, E2. quad.
Qed.

Lemma chunk_row d osh sa ast sb bst so ost n u ai bi oi :
  0 < d -> 0 <= n -> n mod d + u <= d ->
  chunk u so sa sb (oi + dot (digits (d :: osh) n) (so :: ost)) (ai + dot (digits (d :: osh) n) (sa :: ast))
        (bi + dot (digits (d :: osh) n) (sb :: bst))
  = map (fun j => (oi + dot (digits (d :: osh) (n + j)) (so :: ost),
                   ai + dot (digits (d :: osh) (n + j)) (sa :: ast),
                   bi + dot (digits (d :: osh) (n + j)) (sb :: bst))) (zrange u).
Proof.
  intros Hd Hn Hrow. unfold chunk. apply map_ext_in. intros j Hj. apply in_zrange in Hj.
  rewrite (digits_within_row d osh n j) by lia. cbn [digits dot].
  apply (f_equal2 pair); [apply (f_equal2 pair)|]; ring.
Qed.

Lemma bin_loop_digits fuel osh ash bsh ast bst ost n ai bi oi :
  posl osh -> osh <> [] -> follows osh ash ast -> follows osh bsh bst -> length ost = length osh -> 0 <= n ->
  n <= zprod osh -> zprod osh - n <= Z.of_nat fuel ->
  bin_loop fuel n (zprod osh) osh ash bsh ast bst ost (digits osh n)
    (ai + dot (digits osh n) ast) (bi + dot (digits osh n) bst) (oi + dot (digits osh n) ost)
  = Some (map (fun j => (oi + dot (digits osh (n + j)) ost, ai + dot (digits osh (n + j)) ast,
                         bi + dot (digits osh (n + j)) bst)) (zrange (zprod osh - n))).
Proof.
  intros Hpos Hne Hfa Hfb Hlo. revert n; induction fuel as [|fuel IH]; intros n Hn Hle Hfuel.
  - cbn [bin_loop]. replace (n <? zprod osh) with false by lia.
    rewrite zrange_nil by lia. reflexivity.
  - cbn [bin_loop]. destruct (Z.ltb_spec n (zprod osh)) as [Hlt|Hge].
    2:{ rewrite zrange_nil by lia. reflexivity. }
    destruct osh as [|d osh]; [congruence|].
    destruct ost as [|so ost]; [discriminate|].
    inversion Hfa as [|? ad sa ? ash' ast' Had Hfa']; subst.
    inversion Hfb as [|? bd sb ? bsh' bst' Hbd Hfb']; subst.
    inversion Hpos as [|d' osh' Hd Hpos']; subst.
    cbn [digits]. change (n mod d :: digits osh (n / d)) with (digits (d :: osh) n).
    set (u := if 8 <=? d - 1 - n mod d then 8 else 1 + (d - 1 - n mod d)).
    pose proof (Z.mod_pos_bound n d Hd) as Hm.
    assert (Hu : 1 <= u /\ n mod d + u <= d).
    { unfold u. destruct (Z.leb_spec 8 (d - 1 - n mod d)); lia. }
    destruct Hu as [Hu1 Hu2].
    rewrite bin_unrolled_step by (auto; cbn in Hlo; lia).
    assert (Hnu : n + u <= zprod (d :: osh)).
    { rewrite zprod_cons in *. pose proof (zprod_posl _ Hpos') as HP.
      pose proof (Z.div_mod n d ltac:(lia)) as Hdm.
      assert (n / d < zprod osh) by (apply Z.div_lt_upper_bound; lia). nia. }
    rewrite IH by lia.
    rewrite chunk_row by lia.
    f_equal. replace (zprod (d :: osh) - n) with (u + (zprod (d :: osh) - (n + u))) by lia.
    rewrite (zrange_app u) by lia. rewrite map_app. f_equal.
    rewrite map_map. apply map_ext. intros j. rewrite !Z.add_assoc. reflexivity.
Qed.
