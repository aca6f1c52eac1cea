(** Reductions of integer arrays: means, deviations. *)
From Verif Require Import DriftFloatProofs CudaOffsetProofs.
From Verif Require Export TRedFacts TRedModel TypeFacts TypeModel.
From Coq Require Import ZifyBool Lia Reals Lra.
From Flocq Require Import Core BinarySingleNaN.
Local Open Scope Z_scope.

Lemma stands_range t z r : stands_for t z r -> least t <= r <= greatest t. Proof. intros H. apply H. Qed.
Lemma I64_fits z : - 9223372036854775808 <= z <= 9223372036854775807 -> fits I64 z = true.
Proof. intros H. apply fits_spec; [discriminate|exact H]. Qed.
Lemma small_bounds t z : small_int t -> least t <= z <= greatest t -> - 4294967296 <= z <= 4294967295.
Proof. intros [-> |[-> | ->]]; cbn [least greatest]; lia. Qed.
Lemma quot_between z n lo hi : lo <= 0 -> 0 <= hi -> 1 <= n -> lo <= z <= hi -> lo <= Z.quot z n <= hi.
Proof.
  intros Hl Hh Hn Hz. destruct (Z.le_gt_cases 0 z) as [P|P].
  - rewrite Z.quot_div_nonneg by lia. pose proof (Z.div_pos z n P ltac:(lia)). assert (z / n <= z) by (apply Z.div_le_upper_bound; nia). lia.
  - replace z with (- (- z)) by lia. rewrite Z.quot_opp_l by lia. rewrite Z.quot_div_nonneg by lia. pose proof (Z.div_pos (- z) n ltac:(lia) ltac:(lia)).
    assert (- z / n <= - z) by (apply Z.div_le_upper_bound; nia). lia.
Qed.
Lemma divide_small t z n : small_int t -> least t <= z <= greatest t -> 1 <= n -> n < 2 ^ 62 ->
  in_type I64 OpDiv (NZ z) (NZ n) = Ok (NZ (Z.quot z n)) /\ cast t (NZ (Z.quot z n)) = Ok (NZ (Z.quot z n)).
Proof.
  intros Hs Hz Hn _. destruct (small_not t Hs) as (Ht & _). pose proof (small_bounds t z Hs Hz) as B.
  assert (R : least t <= Z.quot z n <= greatest t) by (apply quot_between; try assumption; destruct Hs as [-> |[-> | ->]]; cbn; lia).
  split.
  - cbn [in_type zop signed]. replace (n =? 0) with false by lia. cbn [andb]. rewrite I64_fits; [reflexivity|]. pose proof (small_bounds t _ Hs R). lia.
  - assert (C : cast t (NZ (Z.quot z n)) = Ok (NZ (wrap t (Z.quot z n)))) by (destruct t; try congruence; reflexivity). rewrite C. now rewrite wrap_id.
Qed.
Lemma mean_result t zs n : small_int t -> Forall (fun z => of_type t (NZ z)) zs -> 1 <= n < 2 ^ 31 ->
  is_mean t zs n (masked_value t (fold_left (accumulate t) (map NZ zs) (Ok (NZ 0))) n).
Proof.
  intros Hs H Hn. destruct (sum_result t zs Hs H) as (A & B). split.
  - intros F. destruct (A F) as (z & E & S). exists z. split; [|exact S]. unfold masked_value. rewrite E. cbn [obind].
    destruct (divide_small t z n Hs (stands_range _ _ _ S) ltac:(lia) ltac:(lia)) as (D1 & D2). rewrite D1. exact D2.
  - intros F. unfold masked_value. rewrite (B F). reflexivity.
Qed.
Lemma wrap_count t n : small_int t -> 0 <= n < 2 ^ 31 -> wrap t n = n mod modulus t.
Proof.
  intros Hs Hn. destruct Hs as [-> |[-> | ->]]; try reflexivity. rewrite wrap_id by (try discriminate; cbn; lia). cbn [modulus]. rewrite Z.mod_small; lia.
Qed.
Lemma quot_one c : 0 < c -> Z.quot 1 c = if c =? 1 then 1 else 0.
Proof. intros H. destruct (Z.eqb_spec c 1) as [-> |]; [reflexivity|]. apply Z.quot_small. lia. Qed.
Lemma scale_zero t n : small_int t -> 0 <= n < 2 ^ 31 -> n mod modulus t = 0 -> scale_of t n = UB.
Proof. intros Hs Hn E. unfold scale_of. rewrite wrap_count, E by assumption. reflexivity. Qed.
Lemma scale_some t n : small_int t -> 0 <= n < 2 ^ 31 -> n mod modulus t <> 0 -> scale_of t n = Ok (NZ (if n mod modulus t =? 1 then 1 else 0)).
Proof.
  intros Hs Hn E. unfold scale_of. rewrite wrap_count by assumption. pose proof (Z.mod_pos_bound n (modulus t) (modulus_pos t)).
  replace (n mod modulus t =? 0) with false by lia. now rewrite quot_one by lia.
Qed.
Lemma int_mean_result t zs n : small_int t -> Forall (fun z => of_type t (NZ z)) zs -> 1 <= n < 2 ^ 31 ->
  let r := mean_value t (fold_left (accumulate t) (map NZ zs) (Ok (NZ 0))) n in
  ((n - 1) mod modulus t <> 0 -> is_mean t zs n r) /\ ((n - 1) mod modulus t = 0 -> r = UB).
Proof.
  intros Hs H Hn r. unfold r, mean_value. split; intros E.
  - rewrite scale_some by (try assumption; lia). cbn [obind]. now apply mean_result.
  - rewrite scale_zero by (try assumption; lia). reflexivity.
Qed.

(** ** Standard deviation *)
Lemma scaled_0 t n s x : small_int t -> of_type t (NZ s) -> scale_of t n = Ok (NZ 0) -> scaled t n (Ok (NZ s)) (NZ x) = Ok (NZ s).
Proof.
  intros Hs Ts E. unfold scaled. cbn [obind]. rewrite E. cbn [obind]. unfold promoted, in_type. cbn [zop andb].
  assert (W : wrap t s = s) by (apply wrap_id; [apply small_not; exact Hs|destruct Hs as [-> |[-> | ->]]; exact Ts]).
  rewrite Z.mul_0_r. destruct Hs as [-> |[-> | ->]]; cbn [common signed]; cbn [fits lo_of hi_of signed bits].
  - change (fits I32 0) with true. cbn [obind]. rewrite Z.add_0_r. rewrite (proj2 (fits_spec I32 s ltac:(discriminate)) Ts). cbn [obind cast]. now rewrite W.
  - change (fits I32 0) with true. cbn [obind]. rewrite Z.add_0_r. rewrite (proj2 (fits_spec I32 s ltac:(discriminate))) by (cbn in *; lia). cbn [obind cast]. now rewrite W.
  - change (wrap U32 0) with 0. cbn [obind]. rewrite Z.add_0_r. cbn [cast]. now rewrite !W.
Qed.
Lemma scaled_square_0 t n s x : small_int t -> of_type t (NZ s) -> of_type t (NZ x) -> scale_of t n = Ok (NZ 0) ->
  scaled_square t n (Ok (NZ s)) (NZ x) = if unsigned_ty t || (x * x <=? greatest t) then Ok (NZ s) else UB.
Proof.
  intros Hs Ts Tx E. unfold scaled_square. cbn [obind in_type zop andb signed]. rewrite E. cbn [obind in_type zop andb signed].
  assert (W : wrap t s = s) by (apply wrap_id; [apply small_not; exact Hs|destruct Hs as [-> |[-> | ->]]; exact Ts]).
  unfold promoted. cbn [in_type zop andb].
  destruct Hs as [-> |[-> | ->]]; cbn [common signed unsigned_ty orb].
  - destruct (x * x <=? greatest I32) eqn:Q.
    + rewrite (proj2 (fits_spec I32 (x * x) ltac:(discriminate))) by (cbn in *; nia). cbn [obind in_type zop andb signed]. rewrite Z.mul_0_r. change (fits I32 0) with true. cbn [obind in_type zop andb signed]. rewrite Z.add_0_r.
      rewrite (proj2 (fits_spec I32 s ltac:(discriminate)) Ts). cbn [obind cast]. now rewrite W.
    + destruct (fits I32 (x * x)) eqn:F; [|reflexivity]. apply fits_spec in F; [|discriminate]. exfalso. lia.
  - rewrite (proj2 (fits_spec I32 (x * x) ltac:(discriminate))) by (cbn in *; nia). cbn [obind in_type zop andb signed]. rewrite Z.mul_0_r. change (fits I32 0) with true. cbn [obind in_type zop andb signed]. rewrite Z.add_0_r.
    rewrite (proj2 (fits_spec I32 s ltac:(discriminate))) by (cbn in *; lia). cbn [obind cast]. now rewrite W.
  - cbn [obind in_type zop andb signed]. rewrite Z.mul_0_r. change (wrap U32 0) with 0. cbn [obind in_type zop andb signed]. rewrite Z.add_0_r. cbn [cast]. now rewrite !W.
Qed.
Lemma scaled_1 t n s x : unsigned_ty t = true -> of_type t (NZ s) -> of_type t (NZ x) -> scale_of t n = Ok (NZ 1) ->
  scaled t n (Ok (NZ s)) (NZ x) = Ok (NZ ((s + x) mod modulus t)).
Proof.
  intros Hu Ts Tx E. unfold scaled. cbn [obind]. rewrite E. cbn [obind].
  destruct (prom_unsigned t OpMul x 1 Hu ltac:(discriminate)) as (p & -> & P1 & P2); [intros ->; cbn in *; lia|]. cbn [obind].
  destruct (prom_unsigned t OpAdd s p Hu ltac:(discriminate)) as (q & -> & Q1 & Q2); [intros ->; specialize (P2 eq_refl); cbn in *; lia|]. cbn [obind].
  rewrite cast_unsigned by exact Hu. rewrite Q1. cbn [zop] in *. do 2 f_equal. rewrite <- Z.add_mod_idemp_r, P1, Z.mul_1_r, Z.add_mod_idemp_r by (destruct t; discriminate). reflexivity.
Qed.
Lemma scaled_square_1 t n s x : unsigned_ty t = true -> of_type t (NZ s) -> of_type t (NZ x) -> scale_of t n = Ok (NZ 1) ->
  scaled_square t n (Ok (NZ s)) (NZ x) = Ok (NZ ((s + x * x) mod modulus t)).
Proof.
  intros Hu Ts Tx E. unfold scaled_square. cbn [obind]. rewrite E. cbn [obind].
  destruct (prom_unsigned t OpMul x x Hu ltac:(discriminate)) as (p & -> & P1 & P2); [intros ->; cbn in *; nia|]. cbn [obind].
  destruct (prom_unsigned t OpMul p 1 Hu ltac:(discriminate)) as (p' & -> & P1' & P2'); [intros ->; specialize (P2 eq_refl); cbn in *; nia|]. cbn [obind].
  destruct (prom_unsigned t OpAdd s p' Hu ltac:(discriminate)) as (q & -> & Q1 & Q2); [intros ->; specialize (P2 eq_refl); specialize (P2' eq_refl); cbn in *; nia|]. cbn [obind].
  rewrite cast_unsigned by exact Hu. rewrite Q1. cbn [zop] in *. do 2 f_equal. rewrite <- Z.add_mod_idemp_r, P1', Z.mul_1_r, P1, Z.add_mod_idemp_r by (destruct t; discriminate). reflexivity.
Qed.
Lemma fold_scaled_0 t n zs s : small_int t -> of_type t (NZ s) -> scale_of t n = Ok (NZ 0) -> fold_left (scaled t n) (map NZ zs) (Ok (NZ s)) = Ok (NZ s).
Proof. intros Hs Ts E. induction zs as [|x zs IH]; [reflexivity|]. cbn [map fold_left]. now rewrite scaled_0. Qed.
Lemma fold_sq_ub t n (xs : list elem) : fold_left (scaled_square t n) xs UB = UB. Proof. induction xs; [reflexivity|exact IHxs]. Qed.
Lemma fold_square_0 t n zs s : small_int t -> of_type t (NZ s) -> Forall (fun z => of_type t (NZ z)) zs -> scale_of t n = Ok (NZ 0) ->
  (each_square_fits t zs -> fold_left (scaled_square t n) (map NZ zs) (Ok (NZ s)) = Ok (NZ s)) /\
  (~ each_square_fits t zs -> fold_left (scaled_square t n) (map NZ zs) (Ok (NZ s)) = UB).
Proof.
  intros Hs Ts H E. induction H as [|x zs Hx H IH].
  - split; [reflexivity|]. intros N. exfalso. apply N. right. constructor.
  - cbn [map fold_left]. rewrite scaled_square_0 by assumption. destruct (unsigned_ty t) eqn:Eu.
    + cbn [orb]. destruct IH as (IH & _). split; [intros _; apply IH; now left|]. intros N. exfalso. apply N. now left.
    + cbn [orb]. destruct (x * x <=? greatest t) eqn:Q.
      * assert (G : each_square_fits t (x :: zs) <-> each_square_fits t zs).
        { unfold each_square_fits. rewrite Eu. split; intros [|F]; try discriminate; right; [now inversion F|constructor; [lia|exact F]]. }
        rewrite G. exact IH.
      * rewrite fold_sq_ub. split; [|reflexivity]. intros [F|F]; [congruence|]. inversion F; subst. lia.
Qed.
Lemma fold_scaled_1 t n zs : unsigned_ty t = true -> Forall (fun z => of_type t (NZ z)) zs -> scale_of t n = Ok (NZ 1) -> forall s, of_type t (NZ s) ->
  fold_left (scaled t n) (map NZ zs) (Ok (NZ s)) = Ok (NZ ((s + zsum zs) mod modulus t)).
Proof.
  intros Hu H E. induction H as [|x zs Hx H IH]; intros s Ts; cbn [map fold_left].
  - rewrite zsum_nil, Z.add_0_r, Z.mod_small; [reflexivity|]. destruct t; try discriminate; cbn in *; lia.
  - rewrite scaled_1 by assumption. rewrite IH by now apply mod_typed. do 2 f_equal. rewrite zsum_cons, Z.add_mod_idemp_l by (destruct t; discriminate). f_equal. lia.
Qed.
Lemma fold_square_1 t n zs : unsigned_ty t = true -> Forall (fun z => of_type t (NZ z)) zs -> scale_of t n = Ok (NZ 1) -> forall s, of_type t (NZ s) ->
  fold_left (scaled_square t n) (map NZ zs) (Ok (NZ s)) = Ok (NZ ((s + zsum (squares zs)) mod modulus t)).
Proof.
  intros Hu H E. induction H as [|x zs Hx H IH]; intros s Ts; cbn [map fold_left squares].
  - rewrite zsum_nil, Z.add_0_r, Z.mod_small; [reflexivity|]. destruct t; try discriminate; cbn in *; lia.
  - rewrite scaled_square_1 by assumption. rewrite IH by now apply mod_typed. do 2 f_equal. fold (squares zs). rewrite zsum_cons, Z.add_mod_idemp_l by (destruct t; discriminate). f_equal. lia.
Qed.
Lemma stddev_zero t n : small_int t -> (exists k, scale_of t n = Ok k) -> stddev_value t n (Ok (NZ 0)) (Ok (NZ 0)) = Ok (NZ 0).
Proof.
  intros Hs (k & E). unfold stddev_value. rewrite E. destruct Hs as [-> |[-> | ->]]; vm_compute; reflexivity.
Qed.
Lemma stddev_result t zs : small_int t -> Forall (fun z => of_type t (NZ z)) zs -> zlen zs < 2 ^ 31 ->
  is_stddev t zs (stddev_value t (zlen zs) (fold_left (scaled t (zlen zs)) (map NZ zs) (Ok (NZ 0))) (fold_left (scaled_square t (zlen zs)) (map NZ zs) (Ok (NZ 0)))).
Proof.
  intros Hs H Hn. assert (H0 : 0 <= zlen zs) by (unfold zlen; lia). unfold is_stddev. cbv zeta. set (n := zlen zs) in *. set (c := n mod modulus t).
  pose proof (zero_typed t Hs) as T0. destruct (Z.eq_dec c 0) as [Ec|Ec].
  { split; [intros; contradiction|]. intros _. unfold stddev_value. rewrite scale_zero by (try assumption; lia). reflexivity. }
  pose proof (scale_some t n Hs ltac:(lia) Ec) as Sc. fold c in Sc. destruct (Z.eqb_spec c 1) as [E1|E1].
  - destruct (small_cases t Hs) as [Hu| ->].
    + split; [|intros [|N]; [contradiction|]; exfalso; apply N; now left]. intros _ _.
      rewrite (fold_scaled_1 t n zs Hu H Sc 0 T0), (fold_square_1 t n zs Hu H Sc 0 T0). rewrite !Z.add_0_l. unfold stddev_value. rewrite Sc. cbn [obind].
      set (s1 := zsum zs mod modulus t). set (s2 := zsum (squares zs) mod modulus t).
      assert (R1 : of_type t (NZ s1)) by now apply mod_typed. assert (R2 : of_type t (NZ s2)) by now apply mod_typed.
      destruct (prom_unsigned t OpMul s1 s1 Hu ltac:(discriminate)) as (p & -> & P1 & P2); [intros ->; cbn in *; nia|]. cbn [obind].
      destruct (prom_unsigned t OpSub s2 p Hu ltac:(discriminate)) as (q & -> & Q1 & Q2); [intros ->; specialize (P2 eq_refl); cbn in *; nia|]. cbn [obind].
      rewrite cast_unsigned by exact Hu. cbn [obind above_zero]. rewrite Q1. cbn [zop] in *.
      assert (Em : (s2 - p) mod modulus t = (zsum (squares zs) - zsum zs * zsum zs) mod modulus t).
      { rewrite Zminus_mod, P1. unfold s1, s2. rewrite <- Z.mul_mod by (destruct t; discriminate). rewrite Z.mod_mod by (destruct t; discriminate). now rewrite <- Zminus_mod. }
      rewrite Em. pose proof (Z.mod_pos_bound (zsum (squares zs) - zsum zs * zsum zs) (modulus t) (modulus_pos t)). rewrite Z.max_r by lia.
      apply root_small; [exact Hs|]. destruct t; try discriminate; cbn [greatest modulus] in *; lia.
    + (* one element *)
      assert (n = 1) as En by (unfold c in E1; cbn [modulus] in E1; rewrite Z.mod_small in E1 by lia; exact E1).
      assert (exists x, zs = [x]) as (x & Ez). { unfold n, zlen in En. destruct zs as [|x [|y zs]]; cbn [length] in En; try lia. now exists x. }
      subst zs. inversion H as [|? ? Hx _]; subst. cbn [map fold_left squares]. rewrite !zsum_cons, !zsum_nil, !Z.add_0_r, Z.sub_diag. cbn [modulus].
      rewrite En in *. unfold scaled, scaled_square. cbn [obind in_type zop andb signed]. rewrite Sc. cbn [obind in_type zop andb signed]. unfold promoted, in_type. cbn [common signed zop andb]. rewrite !Z.mul_1_r.
      assert (Fx : fits I32 x = true) by (apply fits_spec; [discriminate|exact Hx]).
      assert (Wx : wrap I32 x = x) by (apply wrap_id; [discriminate|exact Hx]).
      rewrite Fx. cbn [obind in_type zop andb signed]. rewrite !Z.add_0_l, Fx. cbn [obind cast]. rewrite Wx.
      assert (D : each_square_fits I32 [x] <-> x * x <= greatest I32).
      { unfold each_square_fits. split; [intros [|F]; [discriminate|]; now inversion F|]. intros F. right. constructor; [exact F|constructor]. }
      rewrite D. split.
      * intros _ F. assert (Fq : fits I32 (x * x) = true) by (apply fits_spec; [discriminate|]; cbn in *; nia). assert (Wq : wrap I32 (x * x) = x * x) by (apply wrap_id; [discriminate|]; cbn in *; nia).
        rewrite Fq. cbn [obind in_type zop andb signed]. rewrite Z.mul_1_r, Fq. cbn [obind in_type zop andb signed]. rewrite Z.add_0_l, Fq. cbn [obind cast]. rewrite Wq. unfold stddev_value. rewrite Sc. cbn [obind in_type zop andb signed]. unfold promoted, in_type. cbn [common signed zop andb].
        rewrite Fq. cbn [obind in_type zop andb signed]. rewrite Z.sub_diag. change (fits I32 0) with true. cbn [obind cast above_zero]. change (wrap I32 0) with 0. cbn [above_zero Z.max Z.compare]. rewrite root_small; [reflexivity|exact Hs|cbn; lia].
      * intros [|F]; [contradiction|]. assert (Fq : fits I32 (x * x) = false). { destruct (fits I32 (x * x)) eqn:Q; [|reflexivity]. apply fits_spec in Q; [|discriminate]. exfalso. apply F. lia. }
        rewrite Fq. unfold stddev_value. rewrite Sc. reflexivity.
  - rewrite fold_scaled_0 by assumption. destruct (fold_square_0 t n zs 0 Hs T0 H Sc) as (G1 & G2). split.
    + intros _ F. rewrite (G1 F). apply stddev_zero; [exact Hs|]. rewrite Sc. eauto.
    + intros [|F]; [contradiction|]. rewrite (G2 F). unfold stddev_value. rewrite Sc. reflexivity.
Qed.
