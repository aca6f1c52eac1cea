(** The spectral kurtosis of a column over the reals, of a dead column in double, and the filter taps over the reals. *)
From Coq Require Import Reals Lra Permutation.
From Flocq Require Import BinarySingleNaN.
From Verif Require Import RedProofs3.
From Verif Require Export FlagProofs2.
From Coq Require Import ZifyBool.
Local Open Scope R_scope.
Local Open Scope list_scope.

Fixpoint rsum (l : list R) : R := match l with [] => 0 | x :: r => x + rsum r end.
Definition squares (l : list R) : list R := map (fun x => x * x) l.

Lemma fold_rsum l : forall a, fold_left Rplus l a = a + rsum l.
Proof. induction l as [|x l IH]; intros a; cbn; [lra|]. rewrite IH. lra. Qed.

(** The samples of a column in time order. *)
Definition column (T : Z) (f : list Z -> R) (c : Z) : list R := map (fun t => f [t; c]) (zrange T).

Lemma sk_column_R N M d T f c : sk_column opsR N M d T f c =
  (IZR M * rsum (squares (column T f c)) / (rsum (column T f c) * rsum (column T f c)) - 1) * ((IZR (M * N) * d + 1) / IZR (M - 1)).
Proof.
  unfold sk_column, sk_value, colsum. cbn [o_add o_sub o_mul o_div o_of opsR]. rewrite !fold_rsum, !Rplus_0_l.
  unfold squares, column. rewrite map_map. unfold Rdiv. f_equal. f_equal. lra.
Qed.

(** The estimate of a list of samples. *)
Definition sk_list (N M : Z) (d : R) (l : list R) : R :=
  (IZR M * rsum (squares l) / (rsum l * rsum l) - 1) * ((IZR (M * N) * d + 1) / IZR (M - 1)).

Lemma rsum_perm l l' : Permutation l l' -> rsum l = rsum l'.
Proof. induction 1; cbn; lra. Qed.
Lemma sk_perm N M d l l' : Permutation l l' -> sk_list N M d l = sk_list N M d l'.
Proof. intros H. unfold sk_list. rewrite (rsum_perm _ _ H), (rsum_perm (squares l) (squares l')); [reflexivity|]. now apply Permutation_map. Qed.

Lemma rsum_scale a l : rsum (map (Rmult a) l) = a * rsum l.
Proof. induction l as [|x l IH]; cbn; [lra|]. rewrite IH. lra. Qed.
Lemma squares_scale a l : rsum (squares (map (Rmult a) l)) = a * a * rsum (squares l).
Proof. induction l as [|x l IH]; cbn; [lra|]. fold (squares (map (Rmult a) l)). fold (squares l). rewrite IH. lra. Qed.
Lemma sk_scale N M d a l : a <> 0 -> rsum l <> 0 -> sk_list N M d (map (Rmult a) l) = sk_list N M d l.
Proof. intros Ha Hl. unfold sk_list. rewrite rsum_scale, squares_scale. f_equal. f_equal. field. split; assumption. Qed.

Lemma squares_nonneg l : 0 <= rsum (squares l).
Proof. induction l as [|x l IH]; [cbn; lra|]. change (rsum (squares (x :: l))) with (x * x + rsum (squares l)). pose proof (Rle_0_sqr x) as H. unfold Rsqr in H. lra. Qed.

Lemma cauchy_schwarz l : rsum l * rsum l <= IZR (zlen l) * rsum (squares l).
Proof.
  assert (G : forall y l, 0 <= IZR (zlen l) * (y * y) - 2 * y * rsum l + rsum (squares l)).
  { intros y. induction l0 as [|x l0 IH]; [change (zlen []) with 0%Z; cbn [rsum squares map]; lra|]. unfold zlen in *. cbn [List.length rsum squares map]. fold (squares l0).
    rewrite Nat2Z.inj_succ, succ_IZR. pose proof (Rle_0_sqr (x - y)) as Q. unfold Rsqr in Q. nra. }
  destruct l as [|x0 l0] eqn:El; [change (zlen []) with 0%Z; cbn [rsum squares map]; lra|]. rewrite <- El.
  set (n := IZR (zlen l)). assert (Hn : 0 < n). { unfold n. apply IZR_lt. rewrite El. unfold zlen. cbn [List.length]. lia. }
  specialize (G (rsum l / n) l). fold n in G.
  replace (n * (rsum l / n * (rsum l / n)) - 2 * (rsum l / n) * rsum l + rsum (squares l)) with ((n * rsum (squares l) - rsum l * rsum l) / n) in G by (field; lra).
  assert (0 <= n * ((n * rsum (squares l) - rsum l * rsum l) / n)) by (apply Rmult_le_pos; lra).
  replace (n * ((n * rsum (squares l) - rsum l * rsum l) / n)) with (n * rsum (squares l) - rsum l * rsum l) in H by (field; lra). lra.
Qed.

Lemma squares_le l : Forall (fun x => 0 <= x) l -> 0 <= rsum l /\ rsum (squares l) <= rsum l * rsum l.
Proof. induction 1 as [|x l Hx Hl [IH1 IH2]]; cbn; [lra|]. fold (squares l). split; [lra|]. nra. Qed.

(** Bounds for M samples that do not sum to zero. *)
Lemma sk_lower N d l : (2 <= zlen l)%Z -> 0 <= IZR (zlen l * N) * d -> rsum l <> 0 -> 0 <= sk_list N (zlen l) d l.
Proof.
  intros Hl Hd Hs. unfold sk_list. assert (P : 0 < rsum l * rsum l) by nra. pose proof (cauchy_schwarz l).
  assert (HM : 0 < IZR (zlen l - 1)) by (apply IZR_lt; lia). apply Rmult_le_pos.
  - assert (1 <= IZR (zlen l) * rsum (squares l) / (rsum l * rsum l)); [|lra]. apply Rmult_le_reg_r with (rsum l * rsum l); [exact P|].
    unfold Rdiv. rewrite Rmult_assoc, Rinv_l by lra. lra.
  - apply Rmult_le_pos; [lra|]. apply Rlt_le, Rinv_0_lt_compat, HM.
Qed.

Lemma sk_upper N d l : (2 <= zlen l)%Z -> 0 <= IZR (zlen l * N) * d -> Forall (fun x => 0 <= x) l -> rsum l <> 0 ->
  sk_list N (zlen l) d l <= IZR (zlen l * N) * d + 1.
Proof.
  intros Hl Hd Hp Hs. destruct (squares_le l Hp) as [H0 H1]. unfold sk_list. assert (P : 0 < rsum l * rsum l) by nra.
  assert (HM : 0 < IZR (zlen l - 1)) by (apply IZR_lt; lia).
  replace (IZR (zlen l * N) * d + 1) with (IZR (zlen l - 1) * ((IZR (zlen l * N) * d + 1) / IZR (zlen l - 1))) at 2 by (field; lra).
  apply Rmult_le_compat_r; [apply Rmult_le_pos; [lra|]; apply Rlt_le, Rinv_0_lt_compat, HM|].
  rewrite minus_IZR. apply Rplus_le_compat_r. replace (IZR (zlen l)) with (IZR (zlen l) * (rsum l * rsum l) / (rsum l * rsum l)) at 2 by (field; lra).
  unfold Rdiv. apply Rmult_le_compat_r; [apply Rlt_le, Rinv_0_lt_compat, P|]. apply Rmult_le_compat_l; [apply IZR_le; lia|exact H1].
Qed.

Lemma rsum_repeat a n : rsum (repeat a n) = INR n * a /\ rsum (squares (repeat a n)) = INR n * (a * a).
Proof. induction n as [|n [IH1 IH2]]; [cbn; lra|]. rewrite S_INR. cbn [repeat rsum squares map]. fold (squares (repeat a n)). rewrite IH1, IH2. lra. Qed.

Lemma sk_constant N M d a n : M = Z.of_nat n -> (2 <= M)%Z -> a <> 0 -> sk_list N M d (repeat a n) = 0.
Proof.
  intros -> HM Ha. unfold sk_list. destruct (rsum_repeat a n) as [-> ->]. rewrite <- INR_IZR_INZ.
  assert (INR n <> 0) by (apply not_0_INR; lia). replace (INR n * (INR n * (a * a)) / (INR n * a * (INR n * a))) with 1 by (field; split; assumption).
  lra.
Qed.

(** All the power in one sample: the largest value. *)
Lemma sk_impulse N d a l : (2 <= zlen l)%Z -> a <> 0 -> rsum l = a -> rsum (squares l) = a * a -> sk_list N (zlen l) d l = IZR (zlen l * N) * d + 1.
Proof.
  intros Hl Ha S1 S2. unfold sk_list. rewrite S1, S2. assert (HM : 0 < IZR (zlen l - 1)) by (apply IZR_lt; lia). rewrite minus_IZR in HM |- *.
  field. split; lra.
Qed.

(** ** A column of zeros in double arithmetic *)
Local Open Scope Z_scope.
Definition z64 : f64 := o_of ops64 0.
Lemma fold_zeros n : fold_left (o_add ops64) (repeat z64 n) z64 = z64.
Proof.
  assert (Z1 : o_add ops64 z64 z64 = z64) by reflexivity.
  induction n as [|n IH]; [reflexivity|]. cbn [repeat fold_left]. now rewrite Z1.
Qed.

Lemma map_const {A} (f : Z -> A) v l : (forall x, In x l -> f x = v) -> map f l = repeat v (List.length l).
Proof. induction l as [|x l IH]; intros H; [reflexivity|]. cbn. rewrite H by now left. f_equal. apply IH. intros; apply H; now right. Qed.

Lemma dead_column N M d T f c : 0 <= T -> (forall t, 0 <= t < T -> f [t; c] = z64) ->
  sk_column ops64 N M d T f c = B754_nan.
Proof.
  intros HT H. unfold sk_column, colsum.
  assert (Z2 : o_mul ops64 z64 z64 = z64) by reflexivity.
  rewrite (map_const _ z64) by (intros t Ht; apply in_zrange in Ht; apply H; lia).
  rewrite (map_const (fun t => o_mul ops64 (f [t; c]) (f [t; c])) z64) by (intros t Ht; apply in_zrange in Ht; rewrite H by lia; exact Z2).
  change (o_of ops64 0) with z64. rewrite fold_zeros. unfold sk_value. rewrite Z2.
  replace (o_div ops64 z64 z64) with (@B754_nan 53 1024) by reflexivity.
  reflexivity.
Qed.

Lemma dead_not_flagged lower upper : sk_bits ops64 B754_nan lower upper = 0.
Proof. unfold sk_bits. cbn [o_lt ops64]. destruct lower, upper; reflexivity. Qed.

(** ** Filter taps over the reals *)
Local Open Scope R_scope.
Lemma taps_symmetric sinc a0 a1 fc (taps n : Z) : (forall x, sinc (- x) = sinc x) -> (2 <= taps)%Z ->
  fir_tap opsR cos sinc (2 * PI) a0 a1 fc taps (taps - 1 - n) = fir_tap opsR cos sinc (2 * PI) a0 a1 fc taps n.
Proof.
  intros Hs Ht. unfold fir_tap. cbn [o_add o_sub o_mul o_div o_of opsR]. assert (HM : 0 < IZR (taps - 1)) by (apply IZR_lt; lia).
  rewrite (minus_IZR (taps - 1) n). set (M := IZR (taps - 1)) in *. f_equal.
  - rewrite <- Hs. f_equal. field.
  - f_equal. f_equal. replace (2 * PI * (M - IZR n) / M) with (- (2 * PI * IZR n / M) + 2 * PI) by (field; lra).
    rewrite cos_plus, cos_2PI, sin_2PI, cos_neg. ring.
Qed.
