(** Rounding errors of the spectral kurtosis in single precision. *)
From Coq Require Import ZifyBool Lia Reals Lra Psatz.
From Flocq Require Import Core BinarySingleNaN Plus_error Relative.
From Verif Require Import KurtModel FlagReal DriftFloatProofs.
Local Open Scope R_scope.

Notation rnd := (round radix2 (SpecFloat.fexp 24 128) ZnearestE).
Definition u : R := bpow radix2 (-24).
Lemma u_val : u = / 16777216. Proof. reflexivity. Qed.
Lemma u_pos : 0 < u. Proof. rewrite u_val. lra. Qed.
Lemma u_ro32 : u_ro radix2 24 = u. Proof. unfold u_ro, u. change (/ 2) with (bpow radix2 (-1)). now rewrite <- bpow_plus. Qed.

(** ** Numbers that differ by n roundings *)
Definition near (n : nat) (x y : R) : Prop := 0 <= x /\ 0 <= y /\ x <= y * (1 + u) ^ n /\ y <= x * (1 + u) ^ n.
Lemma pw_ge1 n : 1 <= (1 + u) ^ n. Proof. apply pow_R1_Rle. pose proof u_pos. lra. Qed.
Lemma near_refl n x : 0 <= x -> near n x x.
Proof. intros H. pose proof (pw_ge1 n). repeat split; try exact H; nra. Qed.
Lemma near_mono n m x y : (n <= m)%nat -> near n x y -> near m x y.
Proof. intros H (X & Y & A & B). assert ((1 + u) ^ n <= (1 + u) ^ m) by (apply Rle_pow; [pose proof u_pos; lra|exact H]). repeat split; auto; nra. Qed.
Lemma near_trans n m x y z : near n x y -> near m y z -> near (n + m) x z.
Proof.
  intros (X & Y & A & B) (_ & Z & C & D). unfold near. rewrite pow_add. pose proof (pw_ge1 n). pose proof (pw_ge1 m). set (p := (1 + u) ^ n) in *. set (q := (1 + u) ^ m) in *. clearbody p q.
  repeat split; auto; nra.
Qed.
Lemma near_mult n m x y x' y' : near n x y -> near m x' y' -> near (n + m) (x * x') (y * y').
Proof.
  intros (X & Y & A & B) (X' & Y' & C & D). unfold near. rewrite pow_add. pose proof (pw_ge1 n). pose proof (pw_ge1 m). set (p := (1 + u) ^ n) in *. set (q := (1 + u) ^ m) in *. clearbody p q.
  split; [now apply Rmult_le_pos|]. split; [now apply Rmult_le_pos|]. split.
  - apply Rle_trans with ((y * p) * (y' * q)); [apply Rmult_le_compat; assumption|right; ring].
  - apply Rle_trans with ((x * p) * (x' * q)); [apply Rmult_le_compat; assumption|right; ring].
Qed.
Lemma near_inv n x y : 0 < x -> near n x y -> 0 < y /\ near n (/ x) (/ y).
Proof.
  intros Px (X & Y & A & B). unfold near. pose proof (pw_ge1 n). set (p := (1 + u) ^ n) in *. clearbody p. assert (Py : 0 < y) by nra. split; [exact Py|].
  assert (0 < / x) by now apply Rinv_0_lt_compat. assert (0 < / y) by now apply Rinv_0_lt_compat. split; [lra|]. split; [lra|]. split.
  - apply Rmult_le_reg_l with (x * y); [nra|]. replace (x * y * / x) with y by (field; lra). replace (x * y * (/ y * p)) with (x * p) by (field; lra). exact B.
  - apply Rmult_le_reg_l with (x * y); [nra|]. replace (x * y * / y) with x by (field; lra). replace (x * y * (/ x * p)) with (y * p) by (field; lra). exact A.
Qed.
Lemma near_div n m x y x' y' : 0 < x' -> near n x y -> near m x' y' -> near (n + m) (x / x') (y / y').
Proof. intros P A B. destruct (near_inv m x' y' P B) as (_ & C). now apply near_mult. Qed.
Lemma near_plus n x y x' y' : near n x y -> near n x' y' -> near n (x + x') (y + y').
Proof. intros (X & Y & A & B) (X' & Y' & C & D). repeat split; lra. Qed.
Lemma pw_bound n : INR n * u <= 1 -> (1 + u) ^ n <= 1 + INR n * u + (INR n * u) * (INR n * u).
Proof.
  pose proof u_pos as U. induction n as [|n IH]; intros H; [cbn [pow INR]; lra|]. rewrite S_INR in H |- *. pose proof (pos_INR n). assert (K : INR n * u <= 1) by nra. specialize (IH K). cbn [pow].
  apply Rle_trans with ((1 + u) * (1 + INR n * u + INR n * u * (INR n * u))); [apply Rmult_le_compat_l; [lra|exact IH]|].
  assert (0 <= u * u) by nra. assert (INR n * u * (INR n * (u * u)) <= 1 * (INR n * (u * u))) by (apply Rmult_le_compat_r; nra). nra.
Qed.
Lemma near_error n x y : near n x y -> Rabs (y - x) <= x * ((1 + u) ^ n - 1).
Proof.
  intros (X & Y & A & B). pose proof (pw_ge1 n). set (p := (1 + u) ^ n) in *. clearbody p. apply Rabs_le. split; [|lra].
  assert (x * (2 - p) <= y); [|lra]. assert (x * (2 - p) * p <= y * p); [|apply Rmult_le_reg_r with p; lra]. assert (x * ((2 - p) * p) <= x * 1) by (apply Rmult_le_compat_l; nra). lra.
Qed.

(** ** Roundings *)
Lemma eps_near x e : 0 <= x -> Rabs e <= u / (1 + u) -> near 1 x (x * (1 + e)).
Proof.
  intros X H. pose proof u_pos. assert (A : u / (1 + u) <= u). { apply Rmult_le_reg_r with (1 + u); [lra|]. unfold Rdiv. rewrite Rmult_assoc, Rinv_l by lra. nra. }
  assert (B : (1 - u / (1 + u)) * (1 + u) = 1) by (field; lra). assert (0 <= u / (1 + u) < 1). { split; [apply Rmult_le_pos; [lra|left; apply Rinv_0_lt_compat; lra]|rewrite u_val in A |- *; lra]. }
  set (v := u / (1 + u)) in *. clearbody v. apply Rabs_le_inv in H. unfold near. cbn [pow]. rewrite Rmult_1_r. repeat split; auto; try nra.
  apply Rle_trans with (x * ((1 - v) * (1 + u))); [rewrite B; lra|]. rewrite Rmult_assoc. apply Rmult_le_compat_l; [exact X|]. apply Rmult_le_compat_r; lra.
Qed.
Lemma rnd_parts x : exists e h, Rabs e <= u / (1 + u) /\ Rabs h <= bpow radix2 (-150) /\ e * h = 0 /\ rnd x = x * (1 + e) + h.
Proof.
  destruct (relative_error_N_FLT'_ex radix2 (-149) 24 ltac:(reflexivity) (fun z => negb (Z.even z)) x) as (e & h & A & B & C & D). rewrite u_ro32 in A. exists e, h. split; [exact A|]. split; [|split; [exact C|exact D]].
  eapply Rle_trans; [exact B|]. right. change (/ 2) with (bpow radix2 (-1)). now rewrite <- bpow_plus.
Qed.
Lemma rnd_near x : bpow radix2 (-126) <= x -> near 1 x (rnd x).
Proof.
  intros H. pose proof (bpow_gt_0 radix2 (-126)). destruct (relative_error_N_FLT_ex radix2 (-149) 24 ltac:(reflexivity) (fun z => negb (Z.even z)) x) as (e & A & B).
  { rewrite Rabs_pos_eq by lra. exact H. }
  pose proof (relative_error_N_FLT'_ex radix2 (-149) 24 ltac:(reflexivity) (fun z => negb (Z.even z)) x) as _.
  destruct (relative_error_N_FLX'_ex radix2 24 ltac:(reflexivity) (fun z => negb (Z.even z)) x) as (e' & A' & B'). rewrite u_ro32 in A'.
  replace (rnd x) with (x * (1 + e')); [apply eps_near; [lra|exact A']|]. rewrite <- B'. symmetry. change (SpecFloat.fexp 24 128) with (FLT_exp (-149) 24). apply round_FLT_FLX. rewrite Rabs_pos_eq by lra. exact H.
Qed.
Lemma plus_eps (a b : f32) : exists e, Rabs e <= u / (1 + u) /\ rnd (B2R a + B2R b) = (B2R a + B2R b) * (1 + e).
Proof.
  pose proof (generic_format_B2R 24 128 a). pose proof (generic_format_B2R 24 128 b).
  destruct (FLT_plus_error_N_ex radix2 (-149) 24 (fun z => negb (Z.even z)) (B2R a) (B2R b)) as (e & A & B); try assumption. rewrite u_ro32 in A. exists e. split; [exact A|exact B].
Qed.
Lemma rng x : Rabs x <= bpow radix2 127 -> Rabs (rnd x) < bpow radix2 128.
Proof.
  intros H. apply Rle_lt_trans with (bpow radix2 127); [|apply bpow_lt; lia]. apply abs_round_le_generic; [exact (fexp_correct 24 128 prec24)|apply valid_rnd_N| |exact H].
  change (SpecFloat.fexp 24 128) with (FLT_exp (-149) 24). apply generic_format_FLT_bpow; [reflexivity|lia].
Qed.
Lemma plus_ok (a b : f32) : is_finite a = true -> is_finite b = true -> Rabs (B2R a + B2R b) <= bpow radix2 127 ->
  is_finite (Bplus mode_NE a b) = true /\ B2R (Bplus mode_NE a b) = rnd (B2R a + B2R b).
Proof.
  intros Fa Fb H. pose proof (Bplus_correct 24 128 prec24 emax128 mode_NE a b Fa Fb) as C. change (round_mode mode_NE) with ZnearestE in C. rewrite Rlt_bool_true in C by (apply rng, H). tauto.
Qed.
Lemma minus_ok (a b : f32) : is_finite a = true -> is_finite b = true -> Rabs (B2R a - B2R b) <= bpow radix2 127 ->
  is_finite (Bminus mode_NE a b) = true /\ B2R (Bminus mode_NE a b) = rnd (B2R a - B2R b).
Proof.
  intros Fa Fb H. pose proof (Bminus_correct 24 128 prec24 emax128 mode_NE a b Fa Fb) as C. change (round_mode mode_NE) with ZnearestE in C. rewrite Rlt_bool_true in C by (apply rng, H). tauto.
Qed.
Lemma mult_ok (a b : f32) : is_finite a = true -> is_finite b = true -> Rabs (B2R a * B2R b) <= bpow radix2 127 ->
  is_finite (Bmult mode_NE a b) = true /\ B2R (Bmult mode_NE a b) = rnd (B2R a * B2R b).
Proof.
  intros Fa Fb H. pose proof (Bmult_correct 24 128 prec24 emax128 mode_NE a b) as C. change (round_mode mode_NE) with ZnearestE in C. rewrite Rlt_bool_true in C by (apply rng, H). rewrite Fa, Fb in C. tauto.
Qed.
Lemma div_ok (a b : f32) : is_finite a = true -> B2R b <> 0 -> Rabs (B2R a / B2R b) <= bpow radix2 127 ->
  is_finite (Bdiv mode_NE a b) = true /\ B2R (Bdiv mode_NE a b) = rnd (B2R a / B2R b).
Proof.
  intros Fa Fb H. pose proof (Bdiv_correct 24 128 prec24 emax128 mode_NE a b Fb) as C. change (round_mode mode_NE) with ZnearestE in C. rewrite Rlt_bool_true in C by (apply rng, H). rewrite Fa in C. tauto.
Qed.

(** ** Sums *)
Lemma rsum_app a b : rsum (a ++ b) = rsum a + rsum b. Proof. induction a as [|x a IH]; cbn; [lra|]. rewrite IH. lra. Qed.
Lemma rsum_nonneg l : Forall (fun x => 0 <= x) l -> 0 <= rsum l. Proof. induction 1; cbn; lra. Qed.
Definition powers (xs : list f32) : Prop := Forall (fun x => is_finite x = true /\ 0 <= B2R x) xs.
Lemma powers_nonneg xs : powers xs -> Forall (fun x => 0 <= x) (map B2R xs).
Proof. intros H. induction H as [|x l (_ & Hx) _ IH]; constructor; assumption. Qed.
Lemma sum_near xs : powers xs -> rsum (map B2R xs) * (1 + u) ^ length xs <= bpow radix2 127 ->
  let s := fold_left (Bplus mode_NE) xs (B754_zero false : f32) in is_finite s = true /\ near (length xs) (rsum (map B2R xs)) (B2R s).
Proof.
  induction xs as [|x xs IH] using rev_ind; intros P B; cbv zeta; [split; [reflexivity|]; apply near_refl; cbn; lra|].
  apply Forall_app in P as (P & Px). inversion Px as [|? ? (Fx & Nx) _]; subst. clear Px. rewrite fold_left_app. cbn [fold_left]. rewrite map_app, rsum_app in B |- *. cbn [map rsum] in B |- *. rewrite Rplus_0_r in B |- *.
  rewrite app_length in B |- *. cbn [length] in B |- *. rewrite pow_add, pow_1 in B. pose proof (rsum_nonneg _ (powers_nonneg xs P)) as S0. pose proof (pw_ge1 (length xs)) as G. pose proof u_pos as U.
  change f32 with (binary_float 24 128) in *. set (S := rsum (map B2R xs)) in *. set (p := (1 + u) ^ length xs) in *.
  assert (B1 : (S + B2R x) * p <= bpow radix2 127). { assert (K : 0 <= (S + B2R x) * p) by (apply Rmult_le_pos; lra). rewrite <- Rmult_assoc in B. set (w := (S + B2R x) * p) in *. clearbody w. assert (0 <= w * u) by (apply Rmult_le_pos; lra). lra. }
  destruct IH as (Fs & Ns); [exact P|apply Rle_trans with ((S + B2R x) * p); [apply Rmult_le_compat_r; lra|exact B1]|]. set (s := fold_left (Bplus mode_NE) xs (B754_zero false)) in *.
  pose proof (near_plus (length xs) S (B2R s) (B2R x) (B2R x) Ns (near_refl _ _ Nx)) as N1. pose proof N1 as (_ & N0 & _ & N2). fold p in N2.
  destruct (plus_ok s x Fs Fx) as (F' & V); [rewrite Rabs_pos_eq by exact N0; lra|]. split; [exact F'|]. rewrite V. destruct (plus_eps s x) as (e & E1 & ->).
  eapply near_trans; [exact N1|]. now apply eps_near.
Qed.

(** ** Sums of squares *)
Lemma square_parts (x : f32) : is_finite x = true -> Rabs (B2R x) <= bpow radix2 40 ->
  is_finite (Bmult mode_NE x x) = true /\ exists a, near 1 a (B2R (Bmult mode_NE x x)) /\ Rabs (a - B2R x * B2R x) <= bpow radix2 (-150).
Proof.
  intros Fx H. assert (Sq : 0 <= B2R x * B2R x) by apply Rle_0_sqr.
  destruct (mult_ok x x Fx Fx) as (F & V).
  { rewrite Rabs_mult. apply Rle_trans with (bpow radix2 40 * bpow radix2 40); [apply Rmult_le_compat; auto using Rabs_pos|]. rewrite <- bpow_plus. apply bpow_le. lia. }
  split; [exact F|]. rewrite V. destruct (rnd_parts (B2R x * B2R x)) as (e & h & E & Hh & P & Q). apply Rmult_integral in P as [-> | ->].
  - assert (R0 : 0 <= rnd (B2R x * B2R x)) by (apply round_ge_generic; [exact (fexp_correct 24 128 prec24)|apply valid_rnd_N|apply generic_format_0|exact Sq]).
    exists (rnd (B2R x * B2R x)). split; [now apply near_refl|]. rewrite Q. replace (B2R x * B2R x * (1 + 0) + h - B2R x * B2R x) with h by ring. exact Hh.
  - exists (B2R x * B2R x). split; [rewrite Q, Rplus_0_r; now apply eps_near|]. rewrite Rminus_diag_eq, Rabs_R0 by reflexivity. apply bpow_ge_0.
Qed.
Lemma squares_parts xs : powers xs -> Forall (fun x => B2R x <= bpow radix2 40) xs -> let qs := map (fun x => Bmult mode_NE x x) xs in
  powers qs /\ exists a, near 1 a (rsum (map B2R qs)) /\ Rabs (a - rsum (squares (map B2R xs))) <= INR (length xs) * bpow radix2 (-150).
Proof.
  cbv zeta. induction xs as [|x xs IH]; intros P B.
  - split; [constructor|]. exists 0. cbn. split; [apply near_refl; lra|]. rewrite Rminus_0_r, Rabs_R0. lra.
  - inversion P as [|? ? (Fx & Nx) P']; inversion B as [|? ? Bx B']; subst. destruct (IH P' B') as (Q & a & Na & Ea). destruct (square_parts x Fx) as (Fq & b & Nb & Eb); [now rewrite Rabs_pos_eq|].
    pose proof Nb as (_ & Pq & _). cbn [map length]. change (squares (B2R x :: map B2R xs)) with (B2R x * B2R x :: squares (map B2R xs)). cbn [rsum]. rewrite S_INR. split; [constructor; auto|].
    exists (b + a). split; [now apply near_plus|]. replace (b + a - (B2R x * B2R x + rsum (squares (map B2R xs)))) with ((b - B2R x * B2R x) + (a - rsum (squares (map B2R xs)))) by ring.
    eapply Rle_trans; [apply Rabs_triang|]. lra.
Qed.

(** ** Ranges *)
Lemma pw_small k : (Z.of_nat k <= 300000)%Z -> (1 + u) ^ k <= 51 / 50.
Proof.
  intros H. apply IZR_le in H. rewrite <- INR_IZR_INZ in H. pose proof (pos_INR k). assert (K : 0 <= INR k * u <= 9 / 500) by (rewrite u_val; lra). eapply Rle_trans; [apply pw_bound; lra|]. nra.
Qed.
Lemma near_range k x y : (Z.of_nat k <= 300000)%Z -> near k x y -> x * (50 / 51) <= y <= x * (51 / 50).
Proof. intros H (X & Y & A & B). pose proof (pw_small k H). pose proof (pw_ge1 k). split; [|nra]. assert (y * (1 + u) ^ k <= y * (51 / 50)) by nra. lra. Qed.
Lemma rnd_near_of k x y : (Z.of_nat k <= 300000)%Z -> near k x y -> bpow radix2 (-120) <= x -> near (k + 1) x (rnd y).
Proof.
  intros H N L. eapply near_trans; [exact N|]. apply rnd_near. destruct (near_range k x y H N) as (A & _). assert (bpow radix2 (-126) = bpow radix2 (-120) * / 64) by (change (/ 64) with (bpow radix2 (-6)); rewrite <- bpow_plus; reflexivity).
  pose proof (bpow_gt_0 radix2 (-120)). lra.
Qed.
Lemma range_of k x y : (Z.of_nat k <= 300000)%Z -> near k x y -> x <= bpow radix2 126 -> Rabs y <= bpow radix2 127.
Proof.
  intros H N L. destruct (near_range k x y H N) as (_ & A). destruct N as (X & Y & _). rewrite Rabs_pos_eq by exact Y. change 127%Z with (1 + 126)%Z. rewrite bpow_plus. change (bpow radix2 1) with 2. lra.
Qed.

(** ** One channel *)
Definition measurable (xs : list f32) : Prop := powers xs /\ Forall (fun x => B2R x <= bpow radix2 40) xs /\ bpow radix2 (-40) <= rsum (map B2R xs).
Section Column.
  Variable xs : list f32.
  Hypothesis HM : (2 <= zlen xs <= 2 ^ 16)%Z.
  Hypothesis HX : measurable xs.
  Let M := zlen xs.
  Let n := length xs.
  Let S1 := rsum (map B2R xs).
  Let S2 := rsum (squares (map B2R xs)).
  Let s := fold_left (Bplus mode_NE) xs (B754_zero false : f32).
  Let s2 := fold_left (Bplus mode_NE) (map (fun x => Bmult mode_NE x x) xs) (B754_zero false : f32).
  Lemma n_M : Z.of_nat n = M. Proof. reflexivity. Qed.
  Lemma S1_low : bpow radix2 (-40) <= S1. Proof. apply HX. Qed.
  Lemma S1_high : S1 <= bpow radix2 56.
  Proof.
    destruct HX as (_ & B & _). assert (K : S1 <= INR n * bpow radix2 40).
    { unfold S1, n. clear - B. induction B as [|x l Hx _ IH]; [cbn; lra|]. cbn [map rsum length]. rewrite S_INR. lra. }
    eapply Rle_trans; [exact K|]. change 56%Z with (16 + 40)%Z. rewrite bpow_plus. apply Rmult_le_compat_r; [apply bpow_ge_0|]. rewrite INR_IZR_INZ, n_M. change (bpow radix2 16) with (IZR (2 ^ 16)). apply IZR_le. unfold M. lia.
  Qed.
  Lemma S2_low : S1 * S1 <= IZR M * S2.
  Proof. pose proof (cauchy_schwarz (map B2R xs)) as H. fold S1 S2 in H. replace (zlen (map B2R xs)) with M in H by (unfold M, zlen; now rewrite map_length). exact H. Qed.
  Lemma S2_high : S2 <= S1 * S1.
  Proof. apply (squares_le (map B2R xs)). apply powers_nonneg, HX. Qed.
  Lemma M_real : 2 <= IZR M <= 65536. Proof. split; apply IZR_le; unfold M; lia. Qed.
  Lemma S1S1 : bpow radix2 (-80) <= S1 * S1 <= bpow radix2 112.
  Proof.
    pose proof S1_low. pose proof S1_high. pose proof (bpow_ge_0 radix2 (-40)). change (-80)%Z with (-40 + -40)%Z. change 112%Z with (56 + 56)%Z. rewrite !bpow_plus. split; apply Rmult_le_compat; lra.
  Qed.
  Lemma S2_pos : bpow radix2 (-96) <= S2.
  Proof.
    pose proof S2_low. pose proof S1S1. pose proof M_real. assert (E : bpow radix2 (-80) = 65536 * bpow radix2 (-96)) by (change 65536 with (bpow radix2 16); rewrite <- bpow_plus; reflexivity).
    assert (0 < S2). { pose proof (bpow_gt_0 radix2 (-80)). nra. } nra.
  Qed.

  Lemma sum_ok : is_finite s = true /\ near n S1 (B2R s).
  Proof.
    apply sum_near; [apply HX|]. fold S1 n. pose proof (pw_small n ltac:(rewrite n_M; unfold M; lia)). pose proof S1_high. pose proof S1_low. pose proof (bpow_gt_0 radix2 (-40)). pose proof (pw_ge1 n).
    change 127%Z with (71 + 56)%Z. rewrite bpow_plus. assert (2 <= bpow radix2 71) by (change 2 with (bpow radix2 1); apply bpow_le; lia). apply Rle_trans with (2 * bpow radix2 56); [|apply Rmult_le_compat_r; [apply bpow_ge_0|assumption]]. nra.
  Qed.
  Lemma square_ok : is_finite (Bmult mode_NE s s) = true /\ near (n + n + 1) (S1 * S1) (B2R (Bmult mode_NE s s)).
  Proof.
    destruct sum_ok as (F & N). pose proof (near_mult n n _ _ _ _ N N) as N2. pose proof S1S1 as (L & H).
    assert (Hk : (Z.of_nat (n + n) <= 300000)%Z) by (rewrite Nat2Z.inj_add, n_M; unfold M; lia).
    destruct (mult_ok s s F F) as (F' & V). { apply (range_of (n + n) (S1 * S1)); [exact Hk|exact N2|]. eapply Rle_trans; [exact H|]. apply bpow_le. lia. }
    split; [exact F'|]. rewrite V. apply rnd_near_of; [exact Hk|exact N2|]. eapply Rle_trans; [|exact L]. apply bpow_le. lia.
  Qed.
  Lemma squares_ok : is_finite s2 = true /\ near (n + 2) S2 (B2R s2).
  Proof.
    destruct HX as (P & B & _). destruct (squares_parts xs P B) as (Pq & a & Na & Ea). fold S2 n in Ea. pose proof S2_pos as L. pose proof M_real as Mr.
    assert (N1 : near 1 S2 a).
    { assert (E : INR n * bpow radix2 (-150) <= S2 * (/ 2 * u)).
      { rewrite INR_IZR_INZ, n_M. assert (T : bpow radix2 (-150) * 65536 <= bpow radix2 (-96) * (/ 2 * u)).
        { unfold u. change (/ 2) with (bpow radix2 (-1)). change 65536 with (bpow radix2 16). rewrite <- !bpow_plus. apply bpow_le. lia. }
        pose proof (bpow_gt_0 radix2 (-150)). pose proof u_pos. apply Rle_trans with (bpow radix2 (-96) * (/ 2 * u)); [nra|]. apply Rmult_le_compat_r; [lra|exact L]. }
      pose proof (bpow_gt_0 radix2 (-96)). assert (Ab : Rabs (a - S2) <= S2 * (/ 2 * u)) by lra. apply Rabs_le_inv in Ab. pose proof u_pos as U. assert (U2 : u <= / 2) by (rewrite u_val; lra).
      unfold near. cbn [pow]. rewrite Rmult_1_r. destruct Na as (A0 & _). split; [lra|]. split; [lra|]. split; [|nra]. apply Rle_trans with (S2 * (1 - / 2 * u) * (1 + u)); [nra|]. apply Rmult_le_compat_r; lra. }
    pose proof (near_trans 1 1 _ _ _ N1 Na) as N2. cbn [Nat.add] in N2.
    assert (Hk : (Z.of_nat 2 <= 300000)%Z) by lia. destruct (near_range 2 _ _ Hk N2) as (_ & H2). pose proof S2_high as Sh. pose proof S1S1 as (_ & S1h).
    destruct (sum_near (map (fun x => Bmult mode_NE x x) xs)) as (F & N3); [exact Pq| |].
    - rewrite map_length. fold n. pose proof (pw_small n ltac:(rewrite n_M; unfold M; lia)) as Pn. pose proof (pw_ge1 n). destruct N2 as (_ & R0 & _). set (q := rsum (map B2R (map (fun x => Bmult mode_NE x x) xs))) in *.
      change 127%Z with (15 + 112)%Z. rewrite bpow_plus. assert (2 <= bpow radix2 15) by (change 2 with (bpow radix2 1); apply bpow_le; lia). pose proof (bpow_gt_0 radix2 112). apply Rle_trans with (2 * bpow radix2 112); [|apply Rmult_le_compat_r; lra].
      apply Rle_trans with (q * (51 / 50)); [apply Rmult_le_compat_l; assumption|]. lra.
    - rewrite map_length in N3. fold s2 in F, N3. split; [exact F|]. replace (n + 2)%nat with (2 + n)%nat by lia. eapply near_trans; [exact N2|exact N3].
  Qed.
  Let Q := S2 / (S1 * S1) * IZR M.
  Lemma ratio_range : / IZR M <= S2 / (S1 * S1) <= 1.
  Proof.
    pose proof S1S1 as (L & _). pose proof (bpow_gt_0 radix2 (-80)). assert (P : 0 < S1 * S1) by lra. pose proof M_real. split.
    - apply Rmult_le_reg_r with (S1 * S1); [exact P|]. unfold Rdiv. rewrite Rmult_assoc, Rinv_l, Rmult_1_r by lra. apply Rmult_le_reg_l with (IZR M); [lra|]. rewrite <- Rmult_assoc, Rinv_r, Rmult_1_l by lra. apply S2_low.
    - apply Rmult_le_reg_r with (S1 * S1); [exact P|]. unfold Rdiv. rewrite Rmult_assoc, Rinv_l, Rmult_1_r, Rmult_1_l by lra. apply S2_high.
  Qed.
  Lemma Q_range : 1 <= Q <= 65536.
  Proof.
    pose proof ratio_range as (A & B). pose proof M_real. unfold Q. split; [|nra]. apply Rle_trans with (/ IZR M * IZR M); [rewrite Rinv_l; lra|]. apply Rmult_le_compat_r; lra.
  Qed.
  Definition msq := Bmult mode_NE (Bdiv mode_NE s2 (Bmult mode_NE s s)) (f32_of_Z M).
  Lemma scaled_ok : is_finite msq = true /\ near (3 * n + 5) Q (B2R msq).
  Proof.
    destruct square_ok as (F1 & N1). destruct squares_ok as (F2 & N2). pose proof S1S1 as (L & _). pose proof (bpow_gt_0 radix2 (-80)). assert (P : 0 < S1 * S1) by lra.
    destruct (near_inv _ _ _ P N1) as (P1 & _). pose proof (near_div _ _ _ _ _ _ P N2 N1) as N3. pose proof ratio_range as (A & B). pose proof M_real as Mr.
    assert (Hk : forall k, (k <= 3 * n + 5)%nat -> (Z.of_nat k <= 300000)%Z). { intros k K. assert (Z.of_nat n <= 65536)%Z by (rewrite n_M; unfold M; lia). lia. }
    assert (Li : bpow radix2 (-120) <= / IZR M). { apply Rle_trans with (/ 65536); [|apply Rinv_le; lra]. change (/ 65536) with (bpow radix2 (-16)). apply bpow_le. lia. }
    assert (Bi : forall x, x <= 65536 -> x <= bpow radix2 126). { intros x K. eapply Rle_trans; [exact K|]. change 65536 with (bpow radix2 16). apply bpow_le. lia. }
    destruct (div_ok s2 (Bmult mode_NE s s) F2 (Rgt_not_eq _ _ P1)) as (F3 & V3). { apply (range_of _ _ _ (Hk (n + 2 + (n + n + 1))%nat ltac:(lia)) N3). apply Bi. lra. }
    assert (N4 : near (3 * n + 4) (S2 / (S1 * S1)) (B2R (Bdiv mode_NE s2 (Bmult mode_NE s s)))).
    { rewrite V3. replace (3 * n + 4)%nat with (n + 2 + (n + n + 1) + 1)%nat by lia. apply rnd_near_of; [apply Hk; lia|exact N3|lra]. }
    destruct (f32_of_Z_ok M ltac:(unfold M; lia)) as (Vm & Fm). assert (N5 : near 0 (IZR M) (B2R (f32_of_Z M))) by (rewrite Vm; apply near_refl; lra).
    pose proof (near_mult _ _ _ _ _ _ N4 N5) as N6. rewrite Nat.add_0_r in N6. fold Q in N6. pose proof Q_range as (Q1 & Q2).
    destruct (mult_ok _ _ F3 Fm) as (F7 & V7). { apply (range_of _ _ _ (Hk (3 * n + 4)%nat ltac:(lia)) N6). apply Bi, Q2. }
    split; [exact F7|]. unfold msq. rewrite V7. replace (3 * n + 5)%nat with (3 * n + 4 + 1)%nat by lia. apply rnd_near_of; [apply Hk; lia|exact N6|]. eapply Rle_trans; [|exact Q1]. change 1 with (bpow radix2 0). apply bpow_le. lia.
  Qed.
End Column.

(** ** The factor *)
Lemma of_Z_near z : (0 <= z < 2 ^ 31)%Z -> is_finite (f32_of_Z z) = true /\ near 1 (IZR z) (B2R (f32_of_Z z)).
Proof.
  intros H. destruct (Z.eq_dec z 0) as [-> |Nz]; [destruct (f32_of_Z_ok 0 ltac:(lia)) as (V & F); split; [exact F|]; rewrite V; apply near_refl; lra|].
  pose proof (binary_normalize_correct 24 128 prec24 emax128 mode_NE z 0 false) as C. cbv zeta in C. assert (EF : F2R (Float radix2 z 0) = IZR z) by (unfold F2R; cbn; ring). rewrite EF in C. change (round_mode mode_NE) with ZnearestE in C.
  assert (Z1 : 1 <= IZR z) by (apply IZR_le; lia). assert (Z2 : IZR z <= bpow radix2 31) by (rewrite <- IZR_Zpower by lia; apply IZR_le; cbn; lia).
  rewrite Rlt_bool_true in C. { destruct C as (V & F & _). fold (f32_of_Z z) in V, F. split; [exact F|]. rewrite V. apply rnd_near. eapply Rle_trans; [|exact Z1]. change 1 with (bpow radix2 0). apply bpow_le. lia. }
  apply rng. rewrite Rabs_pos_eq by lra. eapply Rle_trans; [exact Z2|]. apply bpow_le. lia.
Qed.
Definition factor (N M : Z) (d : R) : R := (IZR (M * N) * d + 1) / IZR (M - 1).
Definition factor32 (N M : Z) (d : f32) : f32 := Bdiv mode_NE (Bplus mode_NE (Bmult mode_NE (f32_of_Z (M * N)) d) (f32_of_Z 1)) (f32_of_Z (M - 1)).
Lemma factor_ok N M (d : f32) : (2 <= M <= 2 ^ 16)%Z -> (0 <= N)%Z -> (M * N < 2 ^ 31)%Z -> is_finite d = true -> 0 <= B2R d <= bpow radix2 20 ->
  is_finite (factor32 N M d) = true /\ near 4 (factor N M (B2R d)) (B2R (factor32 N M d)).
Proof.
  intros HM HN HMN Fd (D0 & D1). destruct (of_Z_near (M * N) ltac:(lia)) as (Fa & Na). set (a := f32_of_Z (M * N)) in *. set (A := IZR (M * N)) in *.
  assert (A0 : 0 <= A <= bpow radix2 31) by (unfold A; split; [apply IZR_le; lia|rewrite <- IZR_Zpower by lia; apply IZR_le; cbn; lia]).
  pose proof (near_mult 1 0 _ _ _ _ Na (near_refl 0 (B2R d) D0)) as N1. cbn [Nat.add] in N1. assert (Ad : 0 <= A * B2R d <= bpow radix2 51).
  { split; [apply Rmult_le_pos; lra|]. change 51%Z with (31 + 20)%Z. rewrite bpow_plus. apply Rmult_le_compat; lra. }
  assert (Bi : forall x, x <= bpow radix2 51 + 1 -> x <= bpow radix2 126). { intros x K. eapply Rle_trans; [exact K|]. apply Rle_trans with (bpow radix2 52); [|apply bpow_le; lia]. change 52%Z with (1 + 51)%Z. rewrite bpow_plus. change (bpow radix2 1) with 2. assert (1 <= bpow radix2 51) by (change 1 with (bpow radix2 0); apply bpow_le; lia). lra. }
  destruct (mult_ok a d Fa Fd) as (Fb & Vb). { apply (range_of 1 _ _ ltac:(lia) N1). apply Bi. lra. }
  set (b := Bmult mode_NE a d) in *. destruct (f32_of_Z_ok 1 ltac:(lia)) as (V1 & F1).
  assert (N2 : near 1 (B2R a * B2R d + 1) (B2R b + 1)).
  { destruct N1 as (_ & P & _). set (w := B2R a * B2R d) in *. clearbody w. rewrite Vb. destruct (rnd_parts w) as (e & h & E & Hh & Z & Q). apply Rmult_integral in Z as [-> | ->]; rewrite Q.
    - assert (Hh' : Rabs h <= / 2 * u). { eapply Rle_trans; [exact Hh|]. change (/ 2) with (bpow radix2 (-1)). unfold u. rewrite <- bpow_plus. apply bpow_le. lia. }
      apply Rabs_le_inv in Hh'. pose proof u_pos as U. assert (U2 : u <= / 2) by (rewrite u_val; lra). unfold near. cbn [pow]. repeat split; nra.
    - rewrite Rplus_0_r. apply near_plus; [now apply eps_near|apply near_refl; lra]. }
  assert (N3 : near 2 (A * B2R d + 1) (B2R b + 1)). { apply (near_trans 1 1 _ (B2R a * B2R d + 1)); [apply near_plus; [exact N1|apply near_refl; lra]|exact N2]. }
  destruct (plus_ok b (f32_of_Z 1) Fb F1) as (Fc & Vc). { rewrite V1. apply (range_of 2 _ _ ltac:(lia) N3). apply Bi. lra. }
  set (c := Bplus mode_NE b (f32_of_Z 1)) in *.
  assert (N4 : near 3 (A * B2R d + 1) (B2R c)). { rewrite Vc, V1. apply (rnd_near_of 2); [lia|exact N3|]. apply Rle_trans with 1; [change 1 with (bpow radix2 0); apply bpow_le; lia|lra]. }
  destruct (f32_of_Z_ok (M - 1) ltac:(lia)) as (Vm & Fm). assert (M1 : 1 <= IZR (M - 1) <= 65536) by (split; apply IZR_le; lia).
  assert (N5 : near 3 (factor N M (B2R d)) (B2R c / B2R (f32_of_Z (M - 1)))). { rewrite Vm. unfold factor. apply (near_div 3 0); [lra|exact N4|apply near_refl; lra]. }
  assert (K1 : bpow radix2 (-120) <= factor N M (B2R d) <= bpow radix2 51 + 1).
  { unfold factor. fold A. assert (0 < / IZR (M - 1)) by (apply Rinv_0_lt_compat; lra). assert (/ 65536 <= / IZR (M - 1)) by (apply Rinv_le; lra). assert (/ IZR (M - 1) <= 1) by (rewrite <- Rinv_1; apply Rinv_le; lra). unfold Rdiv. split.
    - apply Rle_trans with (/ 65536); [change (/ 65536) with (bpow radix2 (-16)); apply bpow_le; lia|]. nra.
    - apply Rle_trans with ((A * B2R d + 1) * 1); [apply Rmult_le_compat_l; lra|lra]. }
  destruct (div_ok c (f32_of_Z (M - 1)) Fc) as (Fk & Vk); [rewrite Vm; lra|apply (range_of 3 _ _ ltac:(lia) N5); apply Bi; lra|].
  unfold factor32. fold a b c. split; [exact Fk|]. rewrite Vk. apply (rnd_near_of 3); [lia|exact N5|lra].
Qed.

(** ** The estimate *)
Lemma final_real (Q K y z k t e1 e2 h dl d4 c : R) : 1 <= Q -> / 65536 <= K -> Rabs (y - Q) <= Q * dl -> z = (y - 1) * (1 + e1) -> Rabs e1 <= u -> Rabs (k - K) <= K * d4 -> 0 <= k -> t = z * k * (1 + e2) + h -> Rabs e2 <= u -> Rabs h <= / 65536 * (u * u) ->
  0 <= dl <= c * u -> 0 <= d4 <= 5 * u -> 1 <= c <= 200000 -> Rabs (t - (Q - 1) * K) <= K * Q * ((c + 8) * u).
Proof.
  intros HQ HK Hy Ez E1 Hk Pk Et E2 Hh Hd Hd4 Hc. pose proof u_pos as U. assert (U2 : u <= / 10000000) by (rewrite u_val; lra).
  assert (Y1 : Rabs (y - 1) <= Q * (1 + dl)). { replace (y - 1) with ((y - Q) + (Q - 1)) by ring. eapply Rle_trans; [apply Rabs_triang|]. rewrite (Rabs_pos_eq (Q - 1)) by lra. lra. }
  set (D1 := dl + u + u * dl). assert (Z1 : Rabs (z - (Q - 1)) <= Q * D1).
  { rewrite Ez. replace ((y - 1) * (1 + e1) - (Q - 1)) with ((y - Q) + (y - 1) * e1) by ring. eapply Rle_trans; [apply Rabs_triang|]. rewrite Rabs_mult. apply Rle_trans with (Q * dl + Q * (1 + dl) * u); [|unfold D1; right; ring]. apply Rplus_le_compat; [exact Hy|]. apply Rmult_le_compat; auto using Rabs_pos. }
  assert (Z2 : Rabs z <= Q * (1 + D1)). { replace z with ((z - (Q - 1)) + (Q - 1)) by ring. eapply Rle_trans; [apply Rabs_triang|]. rewrite (Rabs_pos_eq (Q - 1)) by lra. lra. }
  set (D2 := D1 + d4 + D1 * d4). assert (W1 : Rabs (z * k - (Q - 1) * K) <= K * Q * D2).
  { replace (z * k - (Q - 1) * K) with (z * (k - K) + (z - (Q - 1)) * K) by ring. eapply Rle_trans; [apply Rabs_triang|]. rewrite !Rabs_mult, (Rabs_pos_eq K) by lra.
    apply Rle_trans with (Q * (1 + D1) * (K * d4) + Q * D1 * K); [|unfold D2; right; ring]. apply Rplus_le_compat; [apply Rmult_le_compat; auto using Rabs_pos|apply Rmult_le_compat_r; [lra|exact Z1]]. }
  assert (W2 : Rabs (z * k) <= K * Q * (1 + D2)). { replace (z * k) with ((z * k - (Q - 1) * K) + (Q - 1) * K) by ring. eapply Rle_trans; [apply Rabs_triang|]. rewrite (Rabs_pos_eq ((Q - 1) * K)) by (apply Rmult_le_pos; lra). nra. }
  assert (T1 : Rabs (t - (Q - 1) * K) <= K * Q * (D2 + u * (1 + D2)) + / 65536 * (u * u)).
  { rewrite Et. replace (z * k * (1 + e2) + h - (Q - 1) * K) with ((z * k - (Q - 1) * K) + z * k * e2 + h) by ring. eapply Rle_trans; [apply Rabs_triang|]. apply Rplus_le_compat; [|exact Hh]. eapply Rle_trans; [apply Rabs_triang|]. rewrite (Rabs_mult (z * k)).
    apply Rle_trans with (K * Q * D2 + K * Q * (1 + D2) * u); [|right; ring]. apply Rplus_le_compat; [exact W1|apply Rmult_le_compat; auto using Rabs_pos]. }
  eapply Rle_trans; [exact T1|]. assert (KQ : / 65536 <= K * Q) by nra. apply Rle_trans with (K * Q * (D2 + u * (1 + D2) + u * u)); [nra|]. apply Rmult_le_compat_l; [lra|].
  assert (Cu : c * u <= 3 / 250) by (rewrite u_val; lra). assert (0 <= u * dl) by (apply Rmult_le_pos; lra). assert (u * dl <= u * (3 / 250)) by (apply Rmult_le_compat_l; lra).
  assert (B1 : 0 <= D1 <= (c + 1 + 3 / 250) * u) by (unfold D1; lra). assert (D1s : D1 <= / 50) by (unfold D1; lra). clearbody D1.
  assert (0 <= D1 * d4) by (apply Rmult_le_pos; lra). assert (D1 * d4 <= / 50 * d4) by (apply Rmult_le_compat_r; lra). assert (B2 : 0 <= D2 <= (c + 6 + / 5) * u) by (unfold D2; lra). assert (D2s : D2 <= / 10) by (unfold D2; lra). clearbody D2.
  assert (u * (1 + D2) <= u * (1 + / 10)) by (apply Rmult_le_compat_l; lra). assert (u * u <= u * / 10000000) by (apply Rmult_le_compat_l; lra). lra.
Qed.
Lemma near_4 x y : near 4 x y -> Rabs (y - x) <= x * (5 * u).
Proof.
  intros H. eapply Rle_trans; [apply near_error, H|]. destruct H as (X & _). apply Rmult_le_compat_l; [exact X|]. pose proof u_pos. pose proof (pw_bound 4). change (INR 4) with (1 + 1 + 1 + 1) in H0. rewrite u_val in *. lra.
Qed.
Definition estimate32 (N M : Z) (d : f32) (xs : list f32) : f32 :=
  Bmult mode_NE (Bminus mode_NE (msq xs) (f32_of_Z 1)) (factor32 N M d).
Theorem estimate_ok N (d : f32) xs : (2 <= zlen xs <= 2 ^ 16)%Z -> measurable xs -> (0 <= N)%Z -> (zlen xs * N < 2 ^ 31)%Z -> is_finite d = true -> 0 <= B2R d <= bpow radix2 20 ->
  let M := zlen xs in let sk := sk_list N M (B2R d) (map B2R xs) in let K := factor N M (B2R d) in
  is_finite (estimate32 N M d xs) = true /\ Rabs (B2R (estimate32 N M d xs) - sk) <= (IZR M + 4) * bpow radix2 (-22) * (sk + K).
Proof.
  intros HM HX HN HMN Fd Hd M sk K. destruct (factor_ok N M d HM HN HMN Fd Hd) as (Fk & Nk). fold K in Nk. pose proof (near_4 _ _ Nk) as Ek. destruct (scaled_ok xs HM HX) as (Fy & Ny). pose proof (Q_range xs HM HX) as (Q1 & Q2).
  set (Q := rsum (squares (map B2R xs)) / (rsum (map B2R xs) * rsum (map B2R xs)) * IZR (zlen xs)) in *. fold M in Q.
  assert (Esk : sk = (Q - 1) * K). { unfold sk, sk_list, Q, K, factor. unfold Rdiv. ring. }
  assert (K1 : / 65536 <= K <= bpow radix2 51 + 1).
  { assert (M1 : 1 <= IZR (M - 1) <= 65536) by (split; apply IZR_le; unfold M; lia). unfold K, factor. assert (0 < / IZR (M - 1)) by (apply Rinv_0_lt_compat; lra). assert (/ 65536 <= / IZR (M - 1)) by (apply Rinv_le; lra). assert (/ IZR (M - 1) <= 1) by (rewrite <- Rinv_1; apply Rinv_le; lra).
    assert (A0 : 0 <= IZR (M * N) <= bpow radix2 31) by (split; [apply IZR_le; unfold M; lia|rewrite <- IZR_Zpower by lia; apply IZR_le; cbn; unfold M; lia]).
    assert (Ad : 0 <= IZR (M * N) * B2R d <= bpow radix2 51). { split; [apply Rmult_le_pos; lra|]. change 51%Z with (31 + 20)%Z. rewrite bpow_plus. apply Rmult_le_compat; lra. }
    set (w := IZR (M * N) * B2R d) in *. clearbody w. unfold Rdiv. split; [nra|]. apply Rle_trans with ((w + 1) * 1); [apply Rmult_le_compat_l; lra|lra]. }
  destruct (f32_of_Z_ok 1 ltac:(lia)) as (V1 & F1).
  assert (Hn : (Z.of_nat (3 * length xs + 5) <= 300000)%Z) by (unfold zlen in HM; lia).
  pose proof (near_range _ _ _ Hn Ny) as (Yl & Yh). set (y := B2R (msq xs)) in *.
  destruct (minus_ok (msq xs) (f32_of_Z 1) Fy F1) as (Fz & Vz).
  { fold y. rewrite V1. apply Rle_trans with 131072; [apply Rabs_le; lra|]. change 131072 with (bpow radix2 17). apply bpow_le. lia. }
  set (zz := Bminus mode_NE (msq xs) (f32_of_Z 1)) in *.
  assert (Ez : exists e1, Rabs e1 <= u /\ B2R zz = (y - 1) * (1 + e1)).
  { destruct (plus_eps (msq xs) (Bopp (f32_of_Z 1))) as (e & E & Ev). rewrite B2R_Bopp, V1 in Ev. exists e. split.
    - eapply Rle_trans; [exact E|]. pose proof u_pos. apply Rmult_le_reg_r with (1 + u); [lra|]. unfold Rdiv. rewrite Rmult_assoc, Rinv_l by lra. nra.
    - rewrite Vz, V1. exact Ev. }
  destruct Ez as (e1 & He1 & Ez). pose proof (near_range 4 _ _ ltac:(lia) Nk) as (Kl & Kh). assert (k0 : 0 <= B2R (factor32 N M d)) by apply Nk.
  assert (Zb : Rabs (B2R zz) <= 140000). { rewrite Ez, Rabs_mult. apply Rle_trans with (131072 * (1 + / 100)); [|lra]. pose proof u_val as UV. apply Rmult_le_compat; auto using Rabs_pos; [apply Rabs_le; lra|]. eapply Rle_trans; [apply Rabs_triang|]. rewrite Rabs_R1. rewrite UV in He1. lra. }
  destruct (mult_ok zz (factor32 N M d) Fz Fk) as (Ft & Vt).
  { rewrite Rabs_mult, (Rabs_pos_eq (B2R (factor32 N M d))) by exact k0. apply Rle_trans with (bpow radix2 18 * bpow radix2 53); [|rewrite <- bpow_plus; apply bpow_le; lia]. assert (1 <= bpow radix2 51) by (change 1 with (bpow radix2 0); apply bpow_le; lia).
    apply Rmult_le_compat; auto using Rabs_pos; [change (bpow radix2 18) with 262144; lra|]. change 53%Z with (2 + 51)%Z. rewrite bpow_plus. change (bpow radix2 2) with 4. lra. }
  split; [exact Ft|]. unfold estimate32. fold zz. rewrite Vt. destruct (rnd_parts (B2R zz * B2R (factor32 N M d))) as (e2 & h & E2 & Hh & _ & Et). rewrite Et.
  assert (E2' : Rabs e2 <= u). { eapply Rle_trans; [exact E2|]. pose proof u_pos. apply Rmult_le_reg_r with (1 + u); [lra|]. unfold Rdiv. rewrite Rmult_assoc, Rinv_l by lra. nra. }
  pose proof (near_error _ _ _ Ny) as Ey. pose proof (pw_ge1 (3 * length xs + 5)) as Pg.
  assert (Pm : (1 + u) ^ (3 * length xs + 5) - 1 <= (IZR (3 * M + 5) * (253 / 250)) * u).
  { pose proof (pw_bound (3 * length xs + 5)) as Pb. rewrite INR_IZR_INZ in Pb. replace (Z.of_nat (3 * length xs + 5)) with (3 * M + 5)%Z in Pb by (unfold M, zlen; lia). assert (Im : 0 <= IZR (3 * M + 5) <= 196613) by (split; apply IZR_le; unfold M; lia).
    set (m := IZR (3 * M + 5)) in *. clearbody m. pose proof u_pos. assert (Mu : 0 <= m * u <= 3 / 250) by (rewrite u_val; lra). specialize (Pb ltac:(lra)). assert (m * u * (m * u) <= m * u * (3 / 250)) by (apply Rmult_le_compat_l; lra). lra. }
  rewrite Esk. eapply Rle_trans; [eapply (final_real Q K y (B2R zz) (B2R (factor32 N M d)) _ e1 e2 h ((1 + u) ^ (3 * length xs + 5) - 1) (5 * u) (IZR (3 * M + 5) * (253 / 250)))|].
  - exact Q1.
  - apply K1.
  - exact Ey.
  - exact Ez.
  - exact He1.
  - exact Ek.
  - exact k0.
  - reflexivity.
  - exact E2'.
  - eapply Rle_trans; [exact Hh|]. change (/ 65536) with (bpow radix2 (-16)). unfold u. rewrite <- !bpow_plus. apply bpow_le. lia.
  - split; [lra|exact Pm].
  - pose proof u_pos. lra.
  - assert (11 <= IZR (3 * M + 5) <= 196613) by (split; apply IZR_le; unfold M; lia). lra.
  - replace ((Q - 1) * K + K) with (K * Q) by ring. replace ((IZR M + 4) * bpow radix2 (-22) * (K * Q)) with (K * Q * (4 * (IZR M + 4) * u)) by (change (bpow radix2 (-22)) with (/ 4194304); rewrite u_val; field).
    apply Rmult_le_compat_l; [apply Rmult_le_pos; lra|]. apply Rmult_le_compat_r; [pose proof u_pos; lra|]. rewrite plus_IZR, mult_IZR. assert (2 <= IZR M) by (apply IZR_le; unfold M; lia). lra.
Qed.
