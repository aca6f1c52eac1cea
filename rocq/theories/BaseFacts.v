(** Facts about the shared vocabulary. *)
From Verif Require Export Base.
From Coq Require Import ZifyBool ZifyNat Permutation.
Ltac Zify.zify_post_hook ::= Z.div_mod_to_equations.
Local Open Scope Z_scope.

Lemma zrange_nil n : n <= 0 -> zrange n = [].
Proof. intros H. unfold zrange. replace (Z.to_nat n) with O by lia. reflexivity. Qed.

Lemma zrange_length n : zlen (zrange n) = Z.max 0 n.
Proof. unfold zlen, zrange. rewrite map_length, seq_length. lia. Qed.

Lemma in_zrange n i : In i (zrange n) <-> 0 <= i < n.
Proof.
  unfold zrange. rewrite in_map_iff. split.
  - intros (k & Hk & Hin). apply in_seq in Hin. lia.
  - intros H. exists (Z.to_nat i). split; [lia|]. apply in_seq. lia.
Qed.

Lemma zrange_nodup n : NoDup (zrange n).
Proof.
  unfold zrange. apply FinFun.Injective_map_NoDup; [|apply seq_NoDup].
  intros a b H. lia.
Qed.

Lemma zrange_snoc n : 0 <= n -> zrange (n + 1) = zrange n ++ [n].
Proof.
  intros H. unfold zrange. replace (Z.to_nat (n + 1)) with (S (Z.to_nat n)) by lia.
  rewrite seq_S, map_app. cbn. repeat f_equal. lia.
Qed.

Lemma zrange_app n m : 0 <= n -> 0 <= m -> zrange (n + m) = zrange n ++ map (fun i => n + i) (zrange m).
Proof.
  intros Hn Hm. unfold zrange. replace (Z.to_nat (n + m)) with (Z.to_nat n + Z.to_nat m)%nat by lia.
  rewrite seq_app, map_app. f_equal. rewrite map_map. cbn.
  rewrite <- (map_id (seq (Z.to_nat n) (Z.to_nat m))).
  replace (Z.to_nat n) with (Z.to_nat n + 0)%nat at 1 by lia.
  generalize (Z.to_nat m) as k, 0%nat as s. intros k.
  induction k as [|k IH]; intros s; cbn; [reflexivity|].
  rewrite <- IH. rewrite Nat.add_succ_r. f_equal. lia.
Qed.

Lemma zrange_cons n : 0 < n -> zrange n = 0 :: map (fun i => 1 + i) (zrange (n - 1)).
Proof.
  intros H. replace n with (1 + (n - 1)) at 1 by lia. rewrite zrange_app by lia. reflexivity.
Qed.

Lemma nth_error_zrange n i : 0 <= i < n -> nth_error (zrange n) (Z.to_nat i) = Some i.
Proof.
  intros H. unfold zrange. rewrite nth_error_map.
  rewrite (nth_error_nth' _ 0%nat) by (rewrite seq_length; lia).
  rewrite seq_nth by lia. cbn. f_equal. lia.
Qed.

Lemma upd_length {A} (l : list A) n f : length (upd l n f) = length l.
Proof. revert n; induction l as [|x l IH]; intros [|n]; cbn; auto. Qed.

Lemma nth_error_upd_same {A} (l : list A) n f x :
  nth_error l n = Some x -> nth_error (upd l n f) n = Some (f x).
Proof.
  revert n; induction l as [|y l IH]; intros [|n] H; cbn in *; try discriminate.
  - congruence.
  - auto.
Qed.

Lemma nth_error_upd_other {A} (l : list A) n m f :
  n <> m -> nth_error (upd l n f) m = nth_error l m.
Proof.
  revert n m; induction l as [|y l IH]; intros [|n] [|m] H; cbn; auto; try congruence.
Qed.

Lemma zprod_nil : zprod [] = 1. Proof. reflexivity. Qed.
Lemma zprod_cons x l : zprod (x :: l) = x * zprod l. Proof. reflexivity. Qed.
Lemma zsum_nil : zsum [] = 0. Proof. reflexivity. Qed.
Lemma zsum_cons x l : zsum (x :: l) = x + zsum l. Proof. reflexivity. Qed.

Lemma zprod_app l1 l2 : zprod (l1 ++ l2) = zprod l1 * zprod l2.
Proof. induction l1 as [|x l IH]; cbn [app]; rewrite ?zprod_nil, ?zprod_cons, ?IH; ring. Qed.

Lemma zprod_rev l : zprod (rev l) = zprod l.
Proof.
  induction l as [|x l IH]; cbn [rev]; [reflexivity|].
  rewrite zprod_app, IH, !zprod_cons, zprod_nil. ring.
Qed.

Lemma zsum_app l1 l2 : zsum (l1 ++ l2) = zsum l1 + zsum l2.
Proof. induction l1 as [|x l IH]; cbn [app]; rewrite ?zsum_nil, ?zsum_cons, ?IH; ring. Qed.

Lemma zsum_rev l : zsum (rev l) = zsum l.
Proof.
  induction l as [|x l IH]; cbn [rev]; [reflexivity|].
  rewrite zsum_app, IH, !zsum_cons, zsum_nil. ring.
Qed.

Lemma zprod_nonneg l : Forall (fun d => 0 <= d) l -> 0 <= zprod l.
Proof. induction 1 as [|x l Hx Hl IH]; rewrite ?zprod_nil, ?zprod_cons; [lia|nia]. Qed.

Lemma zprod_pos l : Forall (fun d => 0 < d) l -> 0 < zprod l.
Proof. induction 1 as [|x l Hx Hl IH]; rewrite ?zprod_nil, ?zprod_cons; [lia|nia]. Qed.

Lemma flat_map_map {A B C} (f : A -> B) (g : B -> list C) l :
  flat_map g (map f l) = flat_map (fun x => g (f x)) l.
Proof. induction l as [|x l IH]; cbn; [reflexivity|]. rewrite IH. reflexivity. Qed.

Lemma map_flat_map {A B C} (f : A -> list B) (g : B -> C) l :
  map g (flat_map f l) = flat_map (fun x => map g (f x)) l.
Proof. induction l as [|x l IH]; cbn; [reflexivity|]. rewrite map_app, IH. reflexivity. Qed.

Lemma flat_map_single {A B} (f : A -> B) l : flat_map (fun x => [f x]) l = map f l.
Proof. induction l as [|x l IH]; cbn; [reflexivity|]. rewrite IH. reflexivity. Qed.

Lemma flat_map_flat_map {A B C} (f : A -> list B) (g : B -> list C) l :
  flat_map g (flat_map f l) = flat_map (fun x => flat_map g (f x)) l.
Proof. induction l as [|x l IH]; cbn; [reflexivity|]. rewrite flat_map_app, IH. reflexivity. Qed.

Lemma to_int32_small z : - 2 ^ 31 <= z < 2 ^ 31 -> to_int32 z = z.
Proof. intros H. unfold to_int32. rewrite Z.mod_small by lia. lia. Qed.

Lemma to_uint8_small z : 0 <= z < 256 -> to_uint8 z = z.
Proof. intros H. unfold to_uint8. rewrite Z.mod_small by lia. lia. Qed.
