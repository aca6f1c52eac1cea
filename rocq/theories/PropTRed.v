(** C90: reductions of integer arrays. *)
From Verif Require Import TypeFloat RedProofs3 NdIndexFacts NdMemFacts NdProofs NdProofs2 PropRed.
From Verif Require Import DriftFloatProofs PropType TRedProofs2 TRedProofs TRedFacts TRedModel TypeFacts TypeModel.
From Coq Require Import ZifyBool Lia Reals Lra.
From Flocq Require Import Core BinarySingleNaN.
Local Open Scope Z_scope.

(** ** What is expected *)
(** An array of integers, none of its dimensions empty, of less than 2^31 elements, and axes that it has. *)
Definition int_array (t : ty) (a : tarr) (axes : list Z) : Prop :=
  small_int t /\ array_of t a /\ red_hyps (x_mem a) (x_lay a) axes /\ Forall (fun d => 0 < d) (l_shape (x_lay a)) /\ zprod (l_shape (x_lay a)) < 2 ^ 31.
(** [r] is an array of type [t] with one element for each index [o] that is left; it is related by [P] to the elements that [use] selects among those reduced to it. *)
Definition reduced (t : ty) (a : tarr) (axes : list Z) (use : list Z -> bool) (P : Z -> list Z -> outcome elem -> Prop) (r : outcome tarr) : Prop :=
  exists rs, elementwise t (out_shape axes (l_shape (x_lay a))) rs r /\
    forall o, in_range (out_shape axes (l_shape (x_lay a))) o -> exists es zs,
      enumerates (l_shape (x_lay a)) axes o es /\ reads (x_mem a) (x_lay a) (filter use es) (map NZ zs) /\ P (zlen es) zs (rs o).
Definition all_used (_ : list Z) : bool := true.
(** A mask excludes an element by a value other than zero. *)
Definition unmasked (lm : layout) (mask : mem Z) (idx : list Z) : bool := match elt mask lm idx with Some b => b =? 0 | None => false end.
Definition is_int_mean (t : ty) (zs : list Z) (r : outcome elem) : Prop :=
  ((zlen zs - 1) mod modulus t <> 0 -> is_mean t zs (zlen zs) r) /\ ((zlen zs - 1) mod modulus t = 0 -> r = UB).

(** ** Facts *)
Lemma elem_ty_true t : small_int t -> elem_ty true (dtype_of t) = Ok t. Proof. intros [-> |[-> | ->]]; reflexivity. Qed.
Lemma small_array t : small_int t -> array_ty t. Proof. intros H. now right. Qed.
Lemma reads_ints t (m : mem elem) l es xs : small_int t -> Forall (of_type t) m -> reads m l es xs -> exists zs, xs = map NZ zs /\ Forall (fun z => of_type t (NZ z)) zs.
Proof.
  intros Ht Hm H. induction H as [|idx x es xs Hx H IH]; [now exists []|]. destruct IH as (zs & -> & Hz). pose proof (elt_typed t m l idx x Hm Hx) as T.
  destruct x as [v|z]; [destruct Ht as [-> |[-> | ->]]; destruct T|]. exists (z :: zs). split; [reflexivity|]. now constructor.
Qed.
Lemma filter_all {A} (l : list A) : filter (fun _ => true) l = l. Proof. induction l; cbn; congruence. Qed.
Lemma zlen_map {A B} (f : A -> B) l : zlen (map f l) = zlen l. Proof. unfold zlen. now rewrite map_length. Qed.
Lemma enumerated_count sh axes o es : good_axes (zlen sh) axes -> Forall (fun d => 0 < d) sh -> zprod sh < 2 ^ 31 -> in_range (out_shape axes sh) o -> enumerates sh axes o es ->
  1 <= zlen es < 2 ^ 31 /\ zlen es = zprod (map (getz sh) (all_if_nil (zlen sh) axes)).
Proof.
  intros Hg Hp Hb Ho He. assert (H0 : Forall (fun d => 0 <= d) sh) by (apply Forall_impl with (2 := Hp); intros; lia).
  pose proof (enumerates_perm _ _ _ _ _ He (fibre_enumerates sh axes o Hg Ho)) as Pm. apply Permutation.Permutation_length in Pm.
  assert (E : zlen es = zprod (map (getz sh) (all_if_nil (zlen sh) axes))).
  { transitivity (zlen (fibre sh axes o)); [unfold zlen; now rewrite Pm|]. unfold fibre. now rewrite fibre_at_count. }
  split; [|exact E]. split.
  - rewrite E. enough (0 < zprod (map (getz sh) (all_if_nil (zlen sh) axes))) by lia. apply zprod_pos. apply Forall_forall. intros d Hd. apply in_map_iff in Hd as (k & <- & Hk).
    assert (G : good_axes (zlen sh) (all_if_nil (zlen sh) axes)) by now apply good_all_if_nil. destruct G as (_ & G).
    rewrite Forall_forall in G. specialize (G k Hk). cbv beta in G. rewrite Forall_forall in Hp. apply Hp. unfold getz. apply nth_In. unfold zlen in G. lia.
  - apply Z.le_lt_trans with (zprod sh); [|exact Hb]. destruct He as (N & He).
    assert (I : incl es (all_indices sh)) by (intros idx Hi; apply in_all_indices; now apply He).
    pose proof (NoDup_incl_length N I) as L. assert (Q : posl sh) by exact Hp. rewrite all_indices_digits, map_length in L by exact Q.
    pose proof (zrange_length (zprod sh)). pose proof (zprod_pos sh Hp). unfold zlen in *. lia.
Qed.
Definition decides (t : ty) (r : outcome elem) : Prop := r = UB \/ exists z, r = Ok (NZ z) /\ least t <= z <= greatest t.
Lemma in_ty t z : small_int t -> least t <= z <= greatest t -> of_type t (NZ z). Proof. intros [-> |[-> | ->]] H; exact H. Qed.
Lemma make_reduced t a axes use (P : Z -> list Z -> outcome elem -> Prop) vs :
  int_array t a axes -> zlen vs = zprod (out_shape axes (l_shape (x_lay a))) ->
  (forall o, in_range (out_shape axes (l_shape (x_lay a))) o -> exists es zs v,
     enumerates (l_shape (x_lay a)) axes o es /\ reads (x_mem a) (x_lay a) (filter use es) (map NZ zs) /\
     elt vs (dense (out_shape axes (l_shape (x_lay a)))) o = Some v /\ P (zlen es) zs v /\ decides t v) ->
  reduced t a axes use P (finish_op (dtype_of t) (Ok (dense (out_shape axes (l_shape (x_lay a))), vs))).
Proof.
  intros (Hs & Ha & Hr & Hp & Hb) Hl H. exists (read_out (out_shape axes (l_shape (x_lay a))) vs). split.
  - apply finish_elementwise; [now apply small_array| |exact Hl|].
    + destruct Hr as (_ & Hn & Hg & _). now apply out_shape_nonneg.
    + intros o Ho. destruct (H o Ho) as (es & zs & v & _ & _ & E & _ & D). unfold read_out. rewrite E. split; [reflexivity|]. destruct D as [-> |(z & -> & R)]; [split; discriminate|].
      split; [discriminate|]. intros w Hw. inversion Hw; subst. now apply in_ty.
  - intros o Ho. destruct (H o Ho) as (es & zs & v & He & Hx & E & Hv & _). exists es, zs. unfold read_out. rewrite E. auto.
Qed.

Lemma sum_decides t zs r : small_int t -> is_sum t zs r -> decides t r.
Proof. intros Hs (A & B). destruct (sums_fit_dec t zs) as [F|F]; [|left; auto]. destruct (A F) as (z & E & S). right. exists z. split; [exact E|]. now apply stands_range in S. Qed.
Lemma mean_decides t zs n r : small_int t -> 1 <= n -> is_mean t zs n r -> decides t r.
Proof.
  intros Hs Hn (A & B). destruct (sums_fit_dec t zs) as [F|F]; [|left; auto]. destruct (A F) as (z & E & S). right. exists (Z.quot z n). split; [exact E|]. apply stands_range in S.
  destruct Hs as [-> |[-> | ->]]; cbn [least greatest] in *; apply quot_between; lia.
Qed.
Lemma sqrt_range t v : small_int t -> 0 <= v <= greatest t -> least t <= Z.sqrt v <= greatest t.
Proof. intros Hs Hv. destruct (small_not t Hs) as (Ht & _). apply fits_spec; [exact Ht|]. now apply sqrt_fits. Qed.
Lemma squares_dec t zs : each_square_fits t zs \/ ~ each_square_fits t zs.
Proof. unfold each_square_fits. destruct (unsigned_ty t); [now left; left|]. destruct (Forall_dec (fun x => x * x <= greatest t) (fun x => Z_le_dec (x * x) (greatest t)) zs) as [F|F]; [left; now right|right; intros [C|C]; [discriminate|contradiction]]. Qed.
Lemma stddev_decides t zs : small_int t -> Forall (fun z => of_type t (NZ z)) zs -> zlen zs < 2 ^ 31 -> forall r, is_stddev t zs r -> decides t r.
Proof.
  intros Hs Hz Hn r (A & B). destruct (Z.eq_dec (zlen zs mod modulus t) 0) as [E|E]; [left; auto|]. destruct (squares_dec t zs) as [F|F]; [|left; auto].
  rewrite (A E F). right. eexists. split; [reflexivity|].
  destruct (_ =? 1) eqn:C; [|destruct Hs as [-> |[-> | ->]]; cbn; lia].
  destruct (small_cases t Hs) as [Hu| ->].
  - apply sqrt_range; [exact Hs|]. pose proof (mod_typed t (zsum (squares zs) - zsum zs * zsum zs) Hu) as T. destruct t; try discriminate; exact T.
  - assert (L : zlen zs = 1). { assert (0 <= zlen zs) by (unfold zlen; lia). apply Z.eqb_eq in C. rewrite Z.mod_small in C by (cbn; lia). exact C. }
    destruct zs as [|x [|y zs]]; unfold zlen in L; cbn [length] in L; try lia. unfold squares. cbn [map]. rewrite !zsum_cons, !zsum_nil. replace (x * x + 0 - (x + 0) * (x + 0)) with 0 by ring. split; vm_compute; discriminate.
Qed.
Lemma masked_decides t n0 zs r : small_int t -> 1 <= zlen zs -> is_masked_stddev t n0 zs r -> decides t r.
Proof.
  intros Hs Hn (A & B). destruct (Z.eq_dec (n0 mod modulus t) 0) as [E|E]; [left; auto|]. destruct (sums_fit_dec t (squares zs)) as [F|F]; [|left; auto].
  destruct (A E F) as (s1 & s2 & S1 & S2 & V). cbv zeta in V. destruct (_ <? 0) eqn:C; [now left|]. right. eexists. split; [exact V|]. apply sqrt_range; [exact Hs|].
  apply stands_range in S2. set (q := Z.quot s1 (zlen zs)) in *. assert (0 <= q * q) by nia. split; [lia|].
  assert (s2 / zlen zs <= greatest t); [|lia]. assert (0 <= greatest t) by (destruct Hs as [-> |[-> | ->]]; cbn; lia). apply Z.div_le_upper_bound; nia.
Qed.

(** ** The reductions *)
(** The sum of unsigned elements is reduced modulo the range of their type; that of int32 is undefined once a partial sum leaves the range. *)
Theorem C90_sum : forall junk t a axes, int_array t a axes -> reduced t a axes all_used (fun _ => is_sum t) (int_sum junk a axes).
Proof.
  intros junk t a axes H. pose proof H as (Hs & (_ & Hd & Hm) & Hr & Hp & Hb). unfold int_sum. rewrite Hd, elem_ty_true by exact Hs. cbn [obind]. unfold finish_red.
  destruct (mean_correct (Ok (NZ 0) : outcome elem) (accumulate t) (fun s _ => s) (junk' junk) (x_lay a) (x_mem a) axes Hr) as (vs & -> & Hl & Hv).
  apply make_reduced; [exact H|exact Hl|]. intros o Ho. destruct (Hv o Ho) as (es & xs & He & Hx & E). destruct (reads_ints t _ _ _ _ Hs Hm Hx) as (zs & -> & Hz).
  exists es, zs. eexists. split; [exact He|]. unfold all_used. rewrite filter_all. split; [exact Hx|]. split; [exact E|]. pose proof (sum_result t zs Hs Hz) as R. split; [exact R|]. now apply (sum_decides t zs).
Qed.
Print Assumptions C90_sum.

(** The mean is that sum divided by the number of elements, truncated. *)
Theorem C90_mean : forall junk t a axes, int_array t a axes -> reduced t a axes all_used (fun _ => is_int_mean t) (int_mean junk a axes).
Proof.
  intros junk t a axes H. pose proof H as (Hs & (_ & Hd & Hm) & Hr & Hp & Hb). unfold int_mean. rewrite Hd, elem_ty_true by exact Hs. cbn [obind]. unfold finish_red.
  destruct (mean_correct (Ok (NZ 0) : outcome elem) (accumulate t) (mean_value t) (junk' junk) (x_lay a) (x_mem a) axes Hr) as (vs & -> & Hl & Hv).
  apply make_reduced; [exact H|exact Hl|]. intros o Ho. destruct (Hv o Ho) as (es & xs & He & Hx & E). destruct (reads_ints t _ _ _ _ Hs Hm Hx) as (zs & -> & Hz).
  exists es, zs. eexists. split; [exact He|]. unfold all_used. rewrite filter_all. split; [exact Hx|]. split; [exact E|].
  pose proof (reads_length _ _ _ _ Hx) as L. rewrite zlen_map in L.
  destruct (enumerated_count _ _ _ _ (proj1 (proj2 (proj2 Hr))) Hp Hb Ho He) as (N & _). rewrite <- L in *.
  destruct (int_mean_result t zs (zlen zs) Hs Hz N) as (R1 & R2). split; [split; assumption|].
  destruct (Z.eq_dec ((zlen zs - 1) mod modulus t) 0) as [Z0|Z0]; [left; auto|]. apply (mean_decides t zs (zlen zs)); [exact Hs|lia|auto].
Qed.
Print Assumptions C90_mean.

(** The population standard deviation of integers is computed with the truncated reciprocal of the number of elements. *)
Theorem C90_stddev : forall junk t a axes, int_array t a axes -> reduced t a axes all_used (fun _ => is_stddev t) (int_stddev junk a axes).
Proof.
  intros junk t a axes H. pose proof H as (Hs & (_ & Hd & Hm) & Hr & Hp & Hb). unfold int_stddev. rewrite Hd, elem_ty_true by exact Hs. cbn [obind]. unfold finish_red.
  set (n := reduced_count axes (x_lay a)).
  destruct (stddev_correct (Ok (NZ 0) : outcome elem) (scaled t n) (scaled_square t n) (stddev_value t n) (junk' junk) (x_lay a) (x_mem a) axes Hr) as (vs & -> & Hl & Hv).
  apply make_reduced; [exact H|exact Hl|]. intros o Ho. destruct (Hv o Ho) as (es & xs & He & Hx & E). destruct (reads_ints t _ _ _ _ Hs Hm Hx) as (zs & -> & Hz).
  exists es, zs. eexists. split; [exact He|]. unfold all_used. rewrite filter_all. split; [exact Hx|]. split; [exact E|].
  pose proof (reads_length _ _ _ _ Hx) as L. rewrite zlen_map in L.
  destruct (enumerated_count _ _ _ _ (proj1 (proj2 (proj2 Hr))) Hp Hb Ho He) as (N & C). rewrite <- L in *. change (zprod _) with n in C. rewrite <- C.
  pose proof (stddev_result t zs Hs Hz (proj2 N)) as R. split; [exact R|]. revert R. apply stddev_decides; [exact Hs|exact Hz|apply N].
Qed.
Print Assumptions C90_stddev.

(** Masked: the elements whose mask value is zero are used; each result must have one. *)
Definition has_unmasked (a : tarr) (axes : list Z) (lm : layout) (mask : mem Z) : Prop :=
  forall o, in_range (out_shape axes (l_shape (x_lay a))) o -> exists idx, in_range (l_shape (x_lay a)) idx /\ out_index axes idx = o /\ elt mask lm idx = Some 0.
Definition mask_of (a : tarr) (lm : layout) (mask : mem Z) : Prop :=
  l_shape (x_lay a) = l_shape lm /\ (forall idx, in_range (l_shape (x_lay a)) idx -> cell lm idx = cell (x_lay a) idx) /\ inside lm (zlen mask).
Lemma used_some a axes lm mask o es : has_unmasked a axes lm mask -> in_range (out_shape axes (l_shape (x_lay a))) o -> enumerates (l_shape (x_lay a)) axes o es ->
  1 <= zlen (filter (unmasked lm mask) es) <= zlen es.
Proof.
  intros Hu Ho (N & He). destruct (Hu o Ho) as (idx & R & O & E). split.
  - assert (I : In idx (filter (unmasked lm mask) es)) by (apply filter_In; split; [now apply He|unfold unmasked; now rewrite E]).
    destruct (filter _ es); [destruct I|]. unfold zlen. cbn [length]. lia.
  - clear. induction es as [|e es IH]; cbn [filter]; [reflexivity|]. destruct (unmasked lm mask e); unfold zlen in *; cbn [length]; lia.
Qed.
Theorem C90_masked_mean : forall junk t a axes lm mask, int_array t a axes -> mask_of a lm mask -> has_unmasked a axes lm mask ->
  reduced t a axes (unmasked lm mask) (fun _ zs => is_mean t zs (zlen zs)) (int_masked_mean junk a axes lm mask).
Proof.
  intros junk t a axes lm mask H (M1 & M2 & M3) Hu. pose proof H as (Hs & (_ & Hd & Hm) & Hr & Hp & Hb). unfold int_masked_mean. rewrite Hd, elem_ty_true by exact Hs. cbn [obind]. unfold finish_red.
  destruct (C10_masked _ _ _ (Ok (NZ 0) : outcome elem) (accumulate t) (masked_value t) (junk' junk) (x_lay a) (x_mem a) lm mask axes Hr M1 M2 M3) as (C & _).
  destruct (C Hu) as (vs & -> & Hl & Hv). apply make_reduced; [exact H|exact Hl|]. intros o Ho. destruct (Hv o Ho) as (es & xs & He & Hx & E). destruct (reads_ints t _ _ _ _ Hs Hm Hx) as (zs & -> & Hz).
  exists es, zs. eexists. split; [exact He|]. split; [exact Hx|]. split; [exact E|]. assert (L : zlen zs = zlen (filter (unmasked lm mask) es)) by (pose proof (reads_length _ _ _ _ Hx) as L; rewrite zlen_map in L; exact L).
  destruct (enumerated_count _ _ _ _ (proj1 (proj2 (proj2 Hr))) Hp Hb Ho He) as (N & _). pose proof (used_some _ _ _ _ _ _ Hu Ho He) as U. rewrite <- L in U.
  rewrite zlen_map. assert (R : is_mean t zs (zlen zs) (masked_value t (fold_left (accumulate t) (map NZ zs) (Ok (NZ 0))) (zlen zs))) by (apply mean_result; [exact Hs|exact Hz|lia]).
  split; [exact R|]. apply (mean_decides t zs (zlen zs)); [exact Hs|lia|exact R].
Qed.
Print Assumptions C90_masked_mean.
Theorem C90_masked_mean_none : forall junk t a axes lm mask o, int_array t a axes -> mask_of a lm mask -> unsigned_ty t = true ->
  in_range (out_shape axes (l_shape (x_lay a))) o -> (forall idx, in_range (l_shape (x_lay a)) idx -> out_index axes idx = o -> elt mask lm idx <> Some 0) ->
  int_masked_mean junk a axes lm mask = Throw RuntimeError.
Proof.
  intros junk t a axes lm mask o H (M1 & M2 & M3) _ Ho Hn. pose proof H as (Hs & (_ & Hd & Hm) & Hr & Hp & Hb). unfold int_masked_mean. rewrite Hd, elem_ty_true by exact Hs. cbn [obind]. unfold finish_red, finish_op.
  destruct (C10_masked _ _ _ (Ok (NZ 0) : outcome elem) (accumulate t) (masked_value t) (junk' junk) (x_lay a) (x_mem a) lm mask axes Hr M1 M2 M3) as (_ & C).
  rewrite C by (exists o; auto). reflexivity.
Qed.
Print Assumptions C90_masked_mean_none.
Theorem C90_masked_stddev : forall junk t a axes lm mask, int_array t a axes -> mask_of a lm mask -> has_unmasked a axes lm mask ->
  reduced t a axes (unmasked lm mask) (is_masked_stddev t) (int_masked_stddev junk a axes lm mask).
Proof.
  intros junk t a axes lm mask H (M1 & M2 & M3) Hu. pose proof H as (Hs & (_ & Hd & Hm) & Hr & Hp & Hb). unfold int_masked_stddev. rewrite Hd, elem_ty_true by exact Hs. cbn [obind]. unfold finish_red.
  set (n := reduced_count axes (x_lay a)).
  destruct (C10_masked _ _ _ (Ok (NZ 0, NZ 0) : outcome (elem * elem)) (accumulate2 t) (masked_dev_value t n) (junk' junk) (x_lay a) (x_mem a) lm mask axes Hr M1 M2 M3) as (C & _).
  destruct (C Hu) as (vs & -> & Hl & Hv). apply make_reduced; [exact H|exact Hl|]. intros o Ho. destruct (Hv o Ho) as (es & xs & He & Hx & E). destruct (reads_ints t _ _ _ _ Hs Hm Hx) as (zs & -> & Hz).
  exists es, zs. eexists. split; [exact He|]. split; [exact Hx|]. split; [exact E|]. assert (L : zlen zs = zlen (filter (unmasked lm mask) es)) by (pose proof (reads_length _ _ _ _ Hx) as L; rewrite zlen_map in L; exact L).
  destruct (enumerated_count _ _ _ _ (proj1 (proj2 (proj2 Hr))) Hp Hb Ho He) as (N & En). change (zprod _) with n in En. pose proof (used_some _ _ _ _ _ _ Hu Ho He) as U. rewrite <- L in U.
  rewrite zlen_map, En. assert (R : is_masked_stddev t n zs (masked_dev_value t n (fold_left (accumulate2 t) (map NZ zs) (Ok (NZ 0, NZ 0))) (zlen zs))) by (apply masked_stddev_result; [exact Hs|exact Hz|lia|lia]).
  split; [exact R|]. apply (masked_decides t n zs); [exact Hs|lia|exact R].
Qed.
Print Assumptions C90_masked_stddev.

(** The maximum is exact. *)
Theorem C90_max : forall junk t a axes, int_array t a axes ->
  exists c, int_max junk a axes = Ok c /\ array_of t c /\ x_lay c = dense (out_shape axes (l_shape (x_lay a))) /\
    forall o, in_range (out_shape axes (l_shape (x_lay a))) o -> exists z, elt (x_mem c) (x_lay c) o = Some (NZ z) /\
      (exists idx, in_range (l_shape (x_lay a)) idx /\ out_index axes idx = o /\ elt (x_mem a) (x_lay a) idx = Some (NZ z)) /\
      (forall idx y, in_range (l_shape (x_lay a)) idx -> out_index axes idx = o -> elt (x_mem a) (x_lay a) idx = Some (NZ y) -> y <= z).
Proof.
  intros junk t a axes H. pose proof H as (Hs & (_ & Hd & Hm) & Hr & Hp & Hb). unfold int_max. rewrite Hd, elem_ty_true by exact Hs. cbn [obind].
  assert (Lo : lo_of t = least t) by (destruct Hs as [-> |[-> | ->]]; reflexivity).
  destruct (max_correct (NZ (lo_of t)) greater junk (x_lay a) (x_mem a) axes Hr) as (vs & -> & Hl & Hv).
  { intros [x|x]; cbn; [reflexivity|lia]. }
  { intros [x|x] [y|y] [z|z]; cbn; intros; try reflexivity; try discriminate; lia. }
  { intros [x|x] [y|y]; cbn; intros; try reflexivity; try discriminate; lia. }
  cbn [obind fst snd]. eexists. split; [reflexivity|]. cbn [x_dt x_lay x_mem].
  assert (G : forall o, in_range (out_shape axes (l_shape (x_lay a))) o -> exists z, elt vs (dense (out_shape axes (l_shape (x_lay a)))) o = Some (NZ z) /\
      (exists idx, in_range (l_shape (x_lay a)) idx /\ out_index axes idx = o /\ elt (x_mem a) (x_lay a) idx = Some (NZ z)) /\
      (forall idx y, in_range (l_shape (x_lay a)) idx -> out_index axes idx = o -> elt (x_mem a) (x_lay a) idx = Some (NZ y) -> y <= z)).
  { intros o Ho. destruct (Hv o Ho) as (r & E & Up & Att).
    destruct (mean_correct (Ok (NZ 0) : outcome elem) (accumulate t) (fun s _ => s) (junk' junk) (x_lay a) (x_mem a) axes Hr) as (vs' & _ & _ & Hv'). destruct (Hv' o Ho) as (es & xs & He & Hx & _).
    destruct (reads_ints t _ _ _ _ Hs Hm Hx) as (zs & -> & Hz).
    destruct (enumerated_count _ _ _ _ (proj1 (proj2 (proj2 Hr))) Hp Hb Ho He) as (N & _).
    inversion Hx as [Ee Ex|idx x es' xs' Hix Hrest Ee Ex]; subst; [unfold zlen in N; cbn in N; lia|]. destruct zs as [|z0 zs]; [discriminate|]. cbn [map] in Ex. injection Ex as -> ->.
    assert (I0 : in_range (l_shape (x_lay a)) idx /\ out_index axes idx = o) by (apply He; now left). destruct I0 as (R0 & O0).
    pose proof (Up idx _ R0 O0 Hix) as U0. pose proof (elt_typed t _ _ _ _ Hm Hix) as T0.
    assert (Er : exists z, r = NZ z). { destruct Att as [-> |(j & _ & _ & Ej)]; [eauto|]. pose proof (elt_typed t _ _ _ _ Hm Ej) as Tj. destruct r; [destruct Hs as [-> |[-> | ->]]; destruct Tj|eauto]. }
    destruct Er as (z & ->). exists z. split; [exact E|]. split.
    - destruct Att as [Eq|(j & Rj & Oj & Ej)]; [|eauto]. injection Eq as ->. exists idx. split; [exact R0|]. split; [exact O0|]. rewrite Hix. do 2 f_equal. cbn [greater] in U0. rewrite Lo in *.
      destruct Hs as [-> |[-> | ->]]; cbn [of_type least greatest] in *; lia.
    - intros j y Rj Oj Ej. pose proof (Up j _ Rj Oj Ej) as Uj. cbn [greater] in Uj. lia. }
  split; [|split; [reflexivity|exact G]]. split; [now apply small_array|]. split; [reflexivity|].
  apply Forall_forall. intros v Hvin. apply in_znth in Hvin as (i & Hi & Ei). cbn [x_mem] in Hi, Ei. rewrite Hl in Hi.
  destruct (dense_onto _ i (out_shape_nonneg _ axes (proj1 (proj2 Hr))) Hi) as (o & Ro & Co). destruct (G o Ro) as (z & E & (idx & _ & _ & Ex) & _). unfold elt in E. rewrite Co in E. rewrite Ei in E. injection E as ->.
  exact (elt_typed t _ _ _ _ Hm Ex).
Qed.
Print Assumptions C90_max.

(** A mean into an array of floats: exact sum, quotient rounded to double, then to float. *)
Theorem C90_mean_into_float : forall junk t a axes, int_array t a axes ->
  (forall o es zs, in_range (out_shape axes (l_shape (x_lay a))) o -> enumerates (l_shape (x_lay a)) axes o es -> reads (x_mem a) (x_lay a) es (map NZ zs) -> zsum (map Z.abs zs) <= 2 ^ 53) ->
  exists c, mean_into_float junk a axes = Ok c /\ x_dt c = dtype_of F32 /\ x_lay c = dense (out_shape axes (l_shape (x_lay a))) /\
    forall o, in_range (out_shape axes (l_shape (x_lay a))) o -> exists es zs v,
      enumerates (l_shape (x_lay a)) axes o es /\ reads (x_mem a) (x_lay a) es (map NZ zs) /\
      elt (x_mem c) (x_lay c) o = Some (NF v) /\ is_finite v = true /\ B2R v = RN (round radix2 (FLT_exp (-1074) 53) ZnearestE (IZR (zsum zs) / IZR (zlen zs))).
Proof.
  intros junk t a axes H Hbig. pose proof H as (Hs & (_ & Hd & Hm) & Hr & Hp & Hb). unfold mean_into_float. rewrite Hd, elem_ty_true by exact Hs. cbn [obind].
  destruct (mean_correct (B754_zero false : f64) add_double quotient_float junk (x_lay a) (x_mem a) axes Hr) as (vs & -> & Hl & Hv). cbn [obind fst snd].
  eexists. split; [reflexivity|]. split; [reflexivity|]. split; [reflexivity|]. cbn [x_mem x_lay]. intros o Ho. destruct (Hv o Ho) as (es & xs & He & Hx & E). destruct (reads_ints t _ _ _ _ Hs Hm Hx) as (zs & -> & Hz).
  pose proof (reads_length _ _ _ _ Hx) as L. rewrite zlen_map in L. destruct (enumerated_count _ _ _ _ (proj1 (proj2 (proj2 Hr))) Hp Hb Ho He) as (N & _). rewrite <- L in *.
  destruct (quotient_result zs (zlen zs) N (Hbig o es zs Ho He Hx)) as (v & Ev & F & V). exists es, zs, v. split; [exact He|]. split; [exact Hx|]. split; [now rewrite E, Ev|]. auto.
Qed.
Print Assumptions C90_mean_into_float.

(** Its hypothesis holds for all arrays of uint8, and for others if no more than 2^21 elements are reduced to one. *)
Theorem C90_float_range : forall t zs, small_int t -> Forall (fun z => of_type t (NZ z)) zs -> zlen zs < 2 ^ 31 -> t = U8 \/ zlen zs <= 2 ^ 21 -> zsum (map Z.abs zs) <= 2 ^ 53.
Proof.
  intros t zs Hs Hz Hn Ht. assert (G : exists g, 0 <= g /\ Forall (fun z => Z.abs z <= g) zs /\ g * zlen zs <= 2 ^ 53).
  { assert (0 <= zlen zs) by (unfold zlen; lia). destruct Ht as [-> |Ht].
    - exists 255. split; [lia|]. split; [|lia]. apply Forall_impl with (2 := Hz). cbn. lia.
    - exists (2 ^ 32). split; [lia|]. split; [|lia]. apply Forall_impl with (2 := Hz). destruct Hs as [-> |[-> | ->]]; cbn; lia. }
  destruct G as (g & Hg & H & Hb). apply Z.le_trans with (2 := Hb). clear Hb Ht Hn Hz. induction H as [|x zs Hx H IH]; cbn [map]; rewrite ?zsum_nil, ?zsum_cons; [unfold zlen; cbn; lia|].
  replace (zlen (x :: zs)) with (zlen zs + 1) by (unfold zlen; cbn [length]; lia). lia.
Qed.
Print Assumptions C90_float_range.

(** ** When the results are exact *)
Lemma abs_prefix zs k : Z.abs (zsum (firstn k zs)) <= zsum (map Z.abs zs).
Proof.
  revert k. induction zs as [|x zs IH]; intros [|k]; cbn [firstn map]; rewrite ?zsum_nil, ?zsum_cons; try (cbn; lia).
  - specialize (IH O). cbn [firstn] in IH. rewrite zsum_nil in IH. lia.
  - specialize (IH k). lia.
Qed.
Lemma nonneg_sum t zs : unsigned_ty t = true -> Forall (fun z => of_type t (NZ z)) zs -> 0 <= zsum zs.
Proof. intros Hu H. induction H as [|x zs Hx H IH]; rewrite ?zsum_nil, ?zsum_cons; [lia|]. destruct t; try discriminate; cbn in Hx; lia. Qed.
Theorem C90_exact : forall t zs n r, small_int t -> Forall (fun z => of_type t (NZ z)) zs -> zsum (map Z.abs zs) <= greatest t ->
  (is_sum t zs r -> r = Ok (NZ (zsum zs))) /\ (is_mean t zs n r -> r = Ok (NZ (Z.quot (zsum zs) n))).
Proof.
  intros t zs n r Hs Hz Hb.
  assert (F : sums_fit t zs). { destruct (small_cases t Hs) as [Hu| ->]; [now left|right]. intros k. pose proof (abs_prefix zs k). cbn [least greatest] in *. lia. }
  assert (S : stands_for t (zsum zs) (zsum zs)).
  { apply stands_self. pose proof (abs_prefix zs (length zs)) as A. rewrite firstn_all in A. destruct (small_cases t Hs) as [Hu| ->]; [|cbn [least greatest] in *; lia].
    pose proof (nonneg_sum t zs Hu Hz). destruct t; try discriminate; cbn [least greatest] in *; lia. }
  destruct (small_not t Hs) as (Ht & _).
  split; intros (A & _); destruct (A F) as (z & -> & Sz); now rewrite (stands_unique t _ _ _ Ht Sz S).
Qed.
Print Assumptions C90_exact.
Lemma cauchy zs : zsum zs * zsum zs <= zlen zs * zsum (squares zs).
Proof.
  induction zs as [|x zs IH]; [apply Z.le_refl|]. rewrite squares_cons, !zsum_cons. pose proof (squares_sum zs) as Q. assert (E : zlen (x :: zs) = zlen zs + 1) by (unfold zlen; cbn [length]; lia). rewrite E.
  assert (N : 0 <= zlen zs) by (unfold zlen; lia). set (n := zlen zs) in *. set (s := zsum zs) in *. set (q := zsum (squares zs)) in *. clearbody n s q. clear E zs.
  assert (G : 2 * s * x <= q + n * (x * x)).
  { destruct (Z.eq_dec n 0) as [-> |Hn]; [assert (S0 : s * s <= 0) by lia; assert (S1 : s = 0) by (clear - S0; nia); rewrite S1; lia|]. pose proof (Z.square_nonneg (s - n * x)). apply Zmult_le_reg_r with n; [lia|]. lia. }
  lia.
Qed.
Theorem C90_masked_stddev_exact : forall t n0 zs r, small_int t -> Forall (fun z => of_type t (NZ z)) zs -> 1 <= zlen zs -> n0 mod modulus t <> 0 -> zsum (squares zs) <= greatest t ->
  is_masked_stddev t n0 zs r -> let mu := Z.quot (zsum zs) (zlen zs) in
  0 <= zsum (squares zs) / zlen zs - mu * mu /\ r = Ok (NZ (Z.sqrt (zsum (squares zs) / zlen zs - mu * mu))).
Proof.
  intros t n0 zs r Hs Hz Hn E0 Hb (A & _). pose proof (squares_sum zs) as Q.
  assert (F : sums_fit t (squares zs)). { destruct (small_cases t Hs) as [Hu| ->]; [now left|right]. intros k. pose proof (squares_nonneg zs k). pose proof (prefix_le zs k). cbn [least greatest] in *. clear - H H0 Hb. lia. }
  destruct (A E0 F) as (s1 & s2 & S1 & S2 & V). destruct (small_not t Hs) as (Ht & _).
  assert (Ab : Z.abs (zsum zs) <= zsum (squares zs)) by (pose proof (abs_le_squares zs (length zs)) as P; now rewrite firstn_all in P).
  assert (T1 : stands_for t (zsum zs) (zsum zs)).
  { apply stands_self. destruct (small_cases t Hs) as [Hu| ->]; [|cbn [least greatest] in *; clear - Hb Ab; lia]. pose proof (nonneg_sum t zs Hu Hz) as P. clear - Hb Ab P Hu. destruct t; try discriminate; cbn [least greatest] in *; lia. }
  assert (T2 : stands_for t (zsum (squares zs)) (zsum (squares zs))) by (apply stands_self; clear - Hb Q Hs; destruct Hs as [-> |[-> | ->]]; cbn [least greatest] in *; lia).
  rewrite (stands_unique t _ _ _ Ht S1 T1), (stands_unique t _ _ _ Ht S2 T2) in V. intros mu. cbv zeta in V. fold mu in V.
  assert (P : 0 <= zsum (squares zs) / zlen zs - mu * mu).
  { apply Zle_minus_le_0. apply Z.div_le_lower_bound; [clear - Hn; lia|]. pose proof (cauchy zs) as C.
    assert (M : Z.abs mu * zlen zs <= Z.abs (zsum zs)).
    { unfold mu. rewrite <- Z.quot_abs by (clear - Hn; lia). rewrite (Z.abs_eq (zlen zs)) by (clear - Hn; lia). rewrite Z.quot_div_nonneg by (clear - Hn; lia). rewrite Z.mul_comm. apply Z.mul_div_le. clear - Hn; lia. }
    clear V A S1 S2 T1 T2. clearbody mu. set (n := zlen zs) in *. set (s := zsum zs) in *. set (q := zsum (squares zs)) in *. clearbody n s q. clear - C M Hn Q.
    assert (Sq : (Z.abs mu * n) * (Z.abs mu * n) <= Z.abs s * Z.abs s) by (apply Z.mul_le_mono_nonneg; [|exact M| |exact M]; clear - Hn; nia).
    rewrite <- (Z.abs_square s) in C. rewrite <- (Z.abs_square mu). apply Zmult_le_reg_r with n; [lia|]. lia. }
  split; [exact P|]. apply Z.ltb_ge in P. rewrite P in V. exact V.
Qed.
Print Assumptions C90_masked_stddev_exact.

(** ** What is not so *)
(** The standard deviation of two or more integers does not depend on them. *)
Theorem C90_stddev_refuted : forall t zs r, 2 <= zlen zs < modulus t -> each_square_fits t zs -> is_stddev t zs r -> r = Ok (NZ 0).
Proof.
  intros t zs r Hn F (A & _). rewrite Z.mod_small in A by lia. rewrite A by (try assumption; lia). replace (zlen zs =? 1) with false by lia. reflexivity.
Qed.
Print Assumptions C90_stddev_refuted.
(** The mean need not lie between the elements, a sum of int32 may be undefined although it is representable, and a deviation of equal elements may be undefined. *)
Theorem C90_mean_refuted :
  int_mean nojunk (ints U8 [200; 100]) [] = Ok (ints U8 [22]) /\ int_mean nojunk (ints U8 [7]) [] = UB /\
  int_sum nojunk (ints I32 [2147483647; 1; -1]) [] = UB /\ int_sum nojunk (ints U8 [200; 100]) [] = Ok (ints U8 [44]) /\
  int_stddev nojunk (ints I32 [0; 100]) [] = Ok (ints I32 [0]) /\
  int_masked_stddev nojunk (ints U8 [16; 16]) [] (dense [2]) [0; 0] = UB.
Proof. vm_compute. repeat split; reflexivity. Qed.
Print Assumptions C90_mean_refuted.

(** The hypotheses are met by a 2x3 view of int32 reduced over its last axis, with and without a mask. *)
Definition c90_array : tarr := TArr (dtype_of I32) (Layout [2; 3] [4; 1] [0; 1]) (map NZ [99; 4; -10; 8; 99; 1; 2; 3]).
Definition c90_mask : list Z := [0; 0; 1; 0; 0; 0; 0; 1].
Example C90_case : int_array I32 c90_array [1] /\ mask_of c90_array (x_lay c90_array) c90_mask /\ has_unmasked c90_array [1] (x_lay c90_array) c90_mask /\
  int_sum nojunk c90_array [1] = Ok (ints I32 [2; 6]) /\ int_mean nojunk c90_array [1] = Ok (ints I32 [0; 2]) /\ int_max nojunk c90_array [1] = Ok (ints I32 [8; 3]) /\
  int_stddev nojunk c90_array [1] = Ok (ints I32 [0; 0]) /\ int_masked_mean nojunk c90_array [1] (x_lay c90_array) c90_mask = Ok (ints I32 [6; 1]) /\
  int_masked_stddev nojunk c90_array [1] (x_lay c90_array) c90_mask = Ok (ints I32 [2; 1]) /\
  (let! c := mean_into_float nojunk c90_array [1] in Ok (map (fun v => match v with NF f => trunc_Z (Bmult mode_NE (widen f) (f64_of_Z 6)) | NZ _ => None end) (x_mem c))) = Ok [Some 4; Some 12].
Proof.
  assert (In : inside (x_lay c90_array) 8).
  { intros idx R. inversion R as [|? i ? r Hi R']; subst. inversion R' as [|? j ? r' Hj R'']; subst. inversion R''; subst. unfold cell, c90_array. cbn. lia. }
  split; [|split; [|split; [|vm_compute; repeat split; reflexivity]]].
  - split; [now left|]. split; [|split; [|split; [|reflexivity]]].
    + split; [right; now left|]. split; [reflexivity|]. repeat (apply Forall_cons || apply Forall_nil); cbn; lia.
    + split; [split; reflexivity|]. split; [repeat (apply Forall_cons || apply Forall_nil); cbn; lia|]. split; [|split; [reflexivity|exact In]].
      split; [constructor; [intros []|constructor]|]. constructor; [cbn; repeat split; try lia|constructor].
    + repeat (apply Forall_cons || apply Forall_nil); cbn; lia.
  - split; [reflexivity|]. split; [reflexivity|exact In].
  - intros o R. change (out_shape _ _) with [2] in R. inversion R as [|? i ? r Hi R']; subst. inversion R'; subst. exists [i; 0]. split; [repeat (apply Forall2_cons || apply Forall2_nil); cbn; lia|].
    split; [reflexivity|]. assert (i = 0 \/ i = 1) as [-> | ->] by lia; reflexivity.
Qed.
