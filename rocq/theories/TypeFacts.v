(** Element types: what results are expected, and the lemmas about single elements. *)
From Verif Require Export TypeModel NdSpec BaseFacts.
From Verif Require Import NdIndexFacts NdMemFacts NdProofs NdProofs2.
From Coq Require Import Reals Lra.
Local Open Scope Z_scope.

(** ** What is expected *)
Definition least (t : ty) : Z := match t with I32 => - 2147483648 | I64 => - 9223372036854775808 | _ => 0 end.
Definition greatest (t : ty) : Z := match t with U8 => 255 | U32 => 4294967295 | I32 => 2147483647 | I64 => 9223372036854775807 | F32 => 0 end.
Definition modulus (t : ty) : Z := match t with U8 => 256 | I64 => 18446744073709551616 | _ => 4294967296 end.
(** A value of type [t]. *)
Definition of_type (t : ty) (v : elem) : Prop :=
  match t, v with F32, NF _ => True | F32, NZ _ | _, NF _ => False | _, NZ z => least t <= z <= greatest t end.
(** [r] is the number of type [t] that stands for [z]: equal to it up to a multiple of the modulus, and equal if [z] itself has the type. *)
Definition stands_for (t : ty) (z r : Z) : Prop := least t <= r <= greatest t /\ exists k, r = z + k * modulus t.
(** Operands of which one is a 32-bit unsigned integer are read as such. *)
Definition unsigned_pair (ta tb : ty) : bool := match ta, tb with U32, _ | _, U32 => true | _, _ => false end.
Definition read_as (u : bool) (x : Z) : Z := if u then x mod 4294967296 else x.
Definition int_exact (u : bool) (o : aop) (x y : Z) : Z :=
  match o with OpAdd => x + y | OpSub => x - y | OpMul => x * y | OpDiv => Z.quot (read_as u x) (read_as u y) end.
Definition int_defined (u : bool) (o : aop) (x y : Z) : Prop :=
  match o with
  | OpDiv => y <> 0 /\ (u = true \/ ~ (x = - 2147483648 /\ y = -1))
  | _ => u = true \/ - 2147483648 <= int_exact u o x y <= 2147483647
  end.
Definition small_int (t : ty) : Prop := t = I32 \/ t = U8 \/ t = U32.

(** ** Integers *)
Lemma fits_spec t z : t <> F32 -> fits t z = true <-> least t <= z <= greatest t.
Proof. intros H. unfold fits, lo_of, hi_of. destruct t; cbn [signed bits least greatest]; try congruence; lia. Qed.
Lemma wrap_stands t z : t <> F32 -> stands_for t z (wrap t z).
Proof.
  intros H. unfold stands_for, wrap. destruct t; cbn [signed bits least greatest modulus]; try congruence.
  - change (2 ^ (32 - 1)) with 2147483648. change (2 ^ 32) with 4294967296. split; [lia|]. exists (- ((z + 2147483648) / 4294967296)). lia.
  - change (2 ^ (64 - 1)) with 9223372036854775808. change (2 ^ 64) with 18446744073709551616. split; [lia|]. exists (- ((z + 9223372036854775808) / 18446744073709551616)). lia.
  - change (2 ^ 8) with 256. split; [lia|]. exists (- (z / 256)). lia.
  - change (2 ^ 32) with 4294967296. split; [lia|]. exists (- (z / 4294967296)). lia.
Qed.
Lemma stands_unique t z r r' : t <> F32 -> stands_for t z r -> stands_for t z r' -> r = r'.
Proof. intros H (A & k & ->) (B & k' & ->). destruct t; cbn [least greatest modulus] in *; try congruence; nia. Qed.
Lemma stands_self t z : least t <= z <= greatest t -> stands_for t z z.
Proof. intros H. split; [exact H|]. exists 0. lia. Qed.
Lemma wrap_id t z : t <> F32 -> least t <= z <= greatest t -> wrap t z = z.
Proof. intros H R. eapply stands_unique; [exact H|apply wrap_stands; exact H|apply stands_self; exact R]. Qed.
Lemma stands_trans t z w r : (exists k, w = z + k * 4294967296) -> t <> I64 -> stands_for t w r -> stands_for t z r.
Proof.
  intros (k & ->) H (A & j & ->). split; [exact A|]. destruct t; cbn [modulus] in *; try congruence; try (exists (k + j); lia). exists (k * 16777216 + j). lia.
Qed.

Lemma small_not t : small_int t -> t <> F32 /\ t <> I64. Proof. intros [-> |[-> | ->]]; split; discriminate. Qed.
Lemma common_small ta tb : small_int ta -> small_int tb -> common ta tb = if unsigned_pair ta tb then U32 else I32.
Proof. intros [-> |[-> | ->]] [-> |[-> | ->]]; reflexivity. Qed.
Lemma small_in_I32 ta tb x y : small_int ta -> small_int tb -> unsigned_pair ta tb = false -> of_type ta (NZ x) -> of_type tb (NZ y) ->
  least I32 <= x <= greatest I32 /\ least I32 <= y <= greatest I32.
Proof. intros [-> |[-> | ->]] [-> |[-> | ->]]; cbn [unsigned_pair of_type least greatest]; try discriminate; lia. Qed.
Lemma small_nonzero ta tb x y : small_int ta -> small_int tb -> of_type ta (NZ x) -> of_type tb (NZ y) -> (y mod 4294967296 = 0 <-> y = 0) .
Proof. intros [-> |[-> | ->]] [-> |[-> | ->]]; cbn [of_type least greatest]; lia. Qed.

Lemma quot_range x y : - 2147483648 <= x <= 2147483647 -> y <> 0 -> ~ (x = - 2147483648 /\ y = -1) -> - 2147483648 <= Z.quot x y <= 2147483647.
Proof.
  intros R H Hn. assert (A : Z.abs (Z.quot x y) = Z.abs x / Z.abs y) by (rewrite <- Z.quot_abs by exact H; apply Z.quot_div_nonneg; lia).
  set (q := Z.quot x y) in *. destruct (Z.eq_dec (Z.abs y) 1) as [E|E].
  - rewrite E, Z.div_1_r in A. destruct (Z.eq_dec y 1) as [->|]; [unfold q in *; rewrite Z.quot_1_r in *; lia|]. assert (x <> - 2147483648) by (intros ->; apply Hn; lia). lia.
  - assert (Z.abs x / Z.abs y <= Z.abs x / 2) by (apply Z.div_le_compat_l; lia). assert (Z.abs x / 2 <= 1073741824) by (apply Z.div_le_upper_bound; lia). lia.
Qed.
Lemma arith_int ta tb o x y : small_int ta -> small_int tb -> of_type ta (NZ x) -> of_type tb (NZ y) ->
  let u := unsigned_pair ta tb in
  (int_defined u o x y -> exists r, arith ta ta tb o (NZ x) (NZ y) = Ok (NZ r) /\ stands_for ta (int_exact u o x y) r) /\
  (~ int_defined u o x y -> arith ta ta tb o (NZ x) (NZ y) = UB).
Proof.
  intros Sa Sb Hx Hy u. destruct (small_not _ Sa) as (Na & Na'). unfold arith. rewrite (common_small _ _ Sa Sb).
  assert (C : forall t z, t <> F32 -> cast t (NZ z) = Ok (NZ (wrap t z))) by (intros [] z H; try congruence; reflexivity).
  pose proof (small_nonzero _ _ _ _ Sa Sb Hx Hy) as Hz.
  fold u. destruct u eqn:Eu.
  - rewrite !C by discriminate. cbn [obind in_type signed].
    assert (W : forall z, wrap U32 z = z mod 4294967296) by reflexivity.
    assert (D : int_defined true o x y <-> (o = OpDiv -> y <> 0)) by (destruct o; cbn; intuition congruence).
    rewrite !W. split.
    + intros Hd. destruct (match o with OpDiv => true | _ => false end && (y mod 4294967296 =? 0)) eqn:E.
      { exfalso. destruct o; try discriminate. cbn in E. apply (proj1 D Hd); [reflexivity|]. apply Hz. lia. }
      cbn [obind]. rewrite C by exact Na. eexists. split; [reflexivity|].
      eapply stands_trans; [|exact Na'|apply wrap_stands; exact Na].
      destruct o; cbn [zop int_exact read_as].
      * exists (- (x / 4294967296) - y / 4294967296 - ((x mod 4294967296 + y mod 4294967296) / 4294967296)). lia.
      * exists (- (x / 4294967296) + y / 4294967296 - ((x mod 4294967296 - y mod 4294967296) / 4294967296)). lia.
      * pose proof (Z.mul_mod x y 4294967296 ltac:(lia)) as Em. rewrite <- Em. exists (- (x * y / 4294967296)). lia.
      * exists 0. rewrite Z.mul_0_l, Z.add_0_r. apply Z.mod_small. pose proof (Z.mod_pos_bound x 4294967296 ltac:(lia)). pose proof (Z.mod_pos_bound y 4294967296 ltac:(lia)).
        cbn in E. rewrite Z.quot_div_nonneg by lia. split; [apply Z.div_pos; lia|]. apply Z.div_lt_upper_bound; nia.
    + intros Hd. assert (o = OpDiv /\ y = 0) as (-> & ->) by (destruct o; try (exfalso; apply Hd, D; discriminate); split; auto; destruct (Z.eq_dec y 0); auto; exfalso; apply Hd, D; auto).
      reflexivity.
  - destruct (small_in_I32 _ _ _ _ Sa Sb Eu Hx Hy) as (Rx & Ry).
    rewrite !C by discriminate. rewrite !wrap_id by (try discriminate; assumption). cbn [obind in_type signed].
    assert (D : int_defined false o x y <-> ((o = OpDiv -> y <> 0) /\ least I32 <= int_exact false o x y <= greatest I32)).
    { cbn [least greatest] in *. destruct o; cbn; [intuition congruence|intuition congruence|intuition congruence|].
      - split.
        + intros (H & [|Hn]); [discriminate|]. split; [auto|]. now apply quot_range.
        + intros (H & R). split; [auto|]. right. intros (-> & ->). cbn in R. lia. }
    assert (E0 : zop o x y = int_exact false o x y) by (destruct o; reflexivity). rewrite E0.
    split.
    + intros Hd. apply D in Hd as (H0 & R). destruct (match o with OpDiv => true | _ => false end && (y =? 0)) eqn:E.
      { exfalso. destruct o; try discriminate. cbn in E. apply H0; [reflexivity|lia]. }
      apply fits_spec in R; [|discriminate]. rewrite R. cbn [obind]. rewrite C by exact Na. eexists. split; [reflexivity|]. now apply wrap_stands.
    + intros Hd. destruct (match o with OpDiv => true | _ => false end && (y =? 0)) eqn:E; [reflexivity|].
      destruct (fits I32 (int_exact false o x y)) eqn:F; [|reflexivity]. exfalso. apply Hd, D. apply fits_spec in F; [|discriminate]. split; [|exact F].
      intros ->. cbn in E. lia.
Qed.
