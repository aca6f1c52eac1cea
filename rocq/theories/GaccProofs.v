(** Rounding errors of compensated sums over the threads of a GPU block and of the tree that adds them. *)
From Verif Require Import PropGred GredKernels GaccRel KurtProofs DriftFloatProofs.
From Coq Require Import ZifyBool ZifyNat Lia Permutation Reals Lra Psatz.
From Flocq Require Import Core BinarySingleNaN Plus_error Relative.
From Verif Require Import FsumFacts FsumProofs.
Local Open Scope R_scope.

(** ** One compensated addition *)
Lemma abs_mul a e k : Rabs e <= k -> Rabs (a * e) <= k * Rabs a.
Proof. intros H. rewrite Rabs_mult, Rmult_comm. apply Rmult_le_compat_r; [apply Rabs_pos|exact H]. Qed.
Lemma kahan_real (s c x S A E y t d c' e1 e2 e3 e4 : R) : Rabs e1 <= / 16777216 -> Rabs e2 <= / 16777216 -> Rabs e3 <= / 16777216 -> Rabs e4 <= / 16777216 ->
  Rabs S <= A -> Rabs c <= 4 * / 16777216 * A -> Rabs (s - c - S) <= E -> E <= 14 * / 16777216 * A ->
  y = (x - c) * (1 + e1) -> t = (s + y) * (1 + e2) -> d = (t - s) * (1 + e3) -> c' = (d - y) * (1 + e4) ->
  let A' := A + Rabs x in
  Rabs c' <= 4 * / 16777216 * A' /\ Rabs (t - c' - (S + x)) <= E + 5 * / 16777216 * Rabs x + 32 * / 16777216 * / 16777216 * A' /\
  Rabs (x - c) <= 2 * A' /\ Rabs (s + y) <= 2 * A' /\ Rabs (t - s) <= 3 * A' /\ Rabs (d - y) <= 4 * A'.
Proof.
  intros H1 H2 H3 H4 HS Hc HD HE Ey Et Ed Ec A'.
  set (D := s - c - S) in *. assert (A0 : 0 <= A) by (pose proof (Rabs_pos S); lra). assert (X0 := Rabs_pos x). 
  assert (M : Rabs (x - c) <= Rabs x + 4 * / 16777216 * A) by (pose proof (Rabs_triang x (- c)) as Q; rewrite Rabs_Ropp in Q; unfold Rminus; lra).
  pose proof (abs_mul (x - c) e1 _ H1) as P1. set (p1 := (x - c) * e1) in *. assert (Ey' : y = x - c + p1) by (rewrite Ey; unfold p1; ring).
  assert (W : Rabs (s + y) <= (1 + 20 * / 16777216) * A').
  { replace (s + y) with (S + D + x + p1) by (rewrite Ey'; unfold D; ring). pose proof (Rabs_triang (S + D + x) p1). pose proof (Rabs_triang (S + D) x). pose proof (Rabs_triang S D). unfold A'. lra. }
  pose proof (abs_mul (s + y) e2 _ H2) as P2. set (p2 := (s + y) * e2) in *. assert (Et' : t - s = y + p2) by (rewrite Et; unfold p2; ring).
  assert (Y : Rabs y <= (1 + / 16777216) * Rabs (x - c)) by (rewrite Ey'; pose proof (Rabs_triang (x - c) p1); lra).
  assert (G : Rabs (t - s) <= (1 + / 16777216) * Rabs x + 6 * / 16777216 * A') by (rewrite Et'; pose proof (Rabs_triang y p2); unfold A' in *; lra).
  pose proof (abs_mul (t - s) e3 _ H3) as P3. set (p3 := (t - s) * e3) in *. assert (Ed' : d - y = p2 + p3) by (rewrite Ed; replace ((t - s) * (1 + e3)) with ((t - s) + p3) by (unfold p3; ring); rewrite Et'; ring).
  pose proof (abs_mul (d - y) e4 _ H4) as P4. set (p4 := (d - y) * e4) in *. assert (Ec' : c' = p2 + p3 + p4) by (rewrite Ec, <- Ed'; unfold p4; ring).
  assert (Dy : Rabs (d - y) <= Rabs p2 + Rabs p3) by (rewrite Ed'; apply Rabs_triang).
  assert (A1 : A <= A' /\ Rabs x <= A') by (unfold A'; lra).
  split; [rewrite Ec'; pose proof (Rabs_triang (p2 + p3) p4); pose proof (Rabs_triang p2 p3); lra|]. split; [|lra].
  (* t - c' = s + y - p3 - p4 *)
  replace (t - c' - (S + x)) with (D + p1 - p3 - p4) by (rewrite Ec'; replace t with (s + (t - s)) by ring; rewrite Et', Ey'; unfold D; ring).
  assert (P4' : p4 = y * e4 * 0 + p2 * e4 + p3 * e4) by (unfold p4; rewrite Ed'; ring).
  pose proof (Rabs_triang (D + p1 - p3) (- p4)) as Q1. pose proof (Rabs_triang (D + p1) (- p3)) as Q2. pose proof (Rabs_triang D p1) as Q3. rewrite Rabs_Ropp in Q1, Q2.
  replace (D + p1 - p3 - p4) with (D + p1 - p3 + - p4) by ring. replace (D + p1 - p3) with (D + p1 + - p3) in * by ring.
  unfold A' in *. lra.
Qed.

Lemma eps_u e : Rabs e <= u / (1 + u) -> Rabs e <= / 16777216.
Proof.
  intros H. eapply Rle_trans; [exact H|]. rewrite u_val. pose proof u_pos. apply Rmult_le_reg_r with (1 + / 16777216); [lra|]. unfold Rdiv. rewrite Rmult_assoc, Rinv_l by lra. lra.
Qed.
Lemma minus_eps (a b : f32) : exists e, Rabs e <= u / (1 + u) /\ rnd (B2R a - B2R b) = (B2R a - B2R b) * (1 + e).
Proof.
  pose proof (generic_format_B2R 24 128 a). pose proof (generic_format_opp _ _ _ (generic_format_B2R 24 128 b)).
  destruct (FLT_plus_error_N_ex radix2 (-149) 24 (fun z => negb (Z.even z)) (B2R a) (- B2R b)) as (e & A & B); try assumption. rewrite u_ro32 in A. exists e. split; [exact A|exact B].
Qed.
Lemma add_rel (a b : f32) : is_finite a = true -> is_finite b = true -> Rabs (B2R a + B2R b) <= bpow radix2 127 ->
  is_finite (Bplus mode_NE a b) = true /\ exists e, Rabs e <= / 16777216 /\ B2R (Bplus mode_NE a b) = (B2R a + B2R b) * (1 + e).
Proof. intros Fa Fb H. destruct (plus_ok a b Fa Fb H) as (F & E). split; [exact F|]. destruct (plus_eps a b) as (e & He & Er). exists e. split; [now apply eps_u|congruence]. Qed.
Lemma sub_rel (a b : f32) : is_finite a = true -> is_finite b = true -> Rabs (B2R a - B2R b) <= bpow radix2 127 ->
  is_finite (Bminus mode_NE a b) = true /\ exists e, Rabs e <= / 16777216 /\ B2R (Bminus mode_NE a b) = (B2R a - B2R b) * (1 + e).
Proof. intros Fa Fb H. destruct (minus_ok a b Fa Fb H) as (F & E). split; [exact F|]. destruct (minus_eps a b) as (e & He & Er). exists e. split; [now apply eps_u|congruence]. Qed.

(** ** One thread *)
Definition finite_list (l : list f32) : Prop := Forall (fun x => is_finite x = true) l.
(** Elements that can be added. *)
Definition addable (l : list f32) : Prop := finite_list l /\ rabs (vals l) <= bpow radix2 124.
Definition kst (s c : f32) (vs : list R) : Prop := rabs vs <= bpow radix2 124 -> (zlen vs <= 2 ^ 22)%Z ->
  is_finite s = true /\ is_finite c = true /\ Rabs (B2R c) <= 4 * / 16777216 * rabs vs /\
  Rabs (B2R s - B2R c - rsum vs) <= (5 + 32 * INR (length vs) * / 16777216) * / 16777216 * rabs vs.
Definition kstate (s c : f32) (l : list f32) : Prop := finite_list l -> kst s c (vals l).
Lemma vals_app l l' : vals (l ++ l') = vals l ++ vals l'. Proof. apply map_app. Qed.
Lemma rsum_app l l' : rsum (l ++ l') = rsum l + rsum l'. Proof. unfold rsum. induction l as [|x l IH]; cbn; [lra|]. rewrite IH. lra. Qed.
Lemma rabs_app l l' : rabs (l ++ l') = rabs l + rabs l'. Proof. unfold rabs. now rewrite map_app, rsum_app. Qed.
Lemma addable_app l l' : addable (l ++ l') -> addable l /\ addable l'.
Proof.
  intros (F & B). apply Forall_app in F as (F1 & F2). rewrite vals_app, rabs_app in B. pose proof (rabs_nonneg (vals l)). pose proof (rabs_nonneg (vals l')). repeat split; auto; lra.
Qed.
Lemma kst_zero : kst (f32_of_Z 0) (f32_of_Z 0) [].
Proof.
  intros _ _. destruct (f32_of_Z_ok 0 ltac:(lia)) as (V & F). rewrite V. split; [exact F|]. split; [exact F|]. rewrite rabs_nil, rsum_nil. rewrite !Rminus_0_r, Rabs_R0. lra.
Qed.
Lemma kst_step s c y v vs : kst s c vs ->
  (is_finite c = true -> Rabs (v - B2R c) <= bpow radix2 126 -> is_finite y = true /\ exists e, Rabs e <= / 16777216 /\ B2R y = (v - B2R c) * (1 + e)) ->
  kst (Bplus mode_NE s y) (Bminus mode_NE (Bminus mode_NE (Bplus mode_NE s y) s) y) (vs ++ [v]).
Proof.
  intros H Hy B Hn.
  assert (Hn' : (zlen vs + 1 <= 2 ^ 22)%Z) by (unfold zlen in *; rewrite app_length in Hn; cbn [length] in Hn; lia).
  rewrite rabs_app, (rabs_cons v), rabs_nil, Rplus_0_r in *. rewrite rsum_app, (rsum_cons v), rsum_nil, Rplus_0_r. pose proof (Rabs_pos v) as X0.
  destruct (H ltac:(lra) ltac:(lia)) as (Fs & Fc & Hc & HD). clear H.
  set (A := rabs vs) in *. set (S := rsum vs) in *. assert (HS : Rabs S <= A) by apply rsum_abs. set (n := INR (length vs)) in *.
  assert (N : 0 <= n /\ n + 1 <= 4194304). { split; [apply pos_INR|]. unfold n. rewrite INR_IZR_INZ, <- plus_IZR. apply IZR_le. exact Hn'. }
  set (E := (5 + 32 * n * / 16777216) * / 16777216 * A) in *. assert (A0 : 0 <= A) by (pose proof (Rabs_pos S); lra).
  assert (HE : E <= 14 * / 16777216 * A). { unfold E. apply Rmult_le_compat_r; [exact A0|]. lra. }
  set (P := bpow radix2 124) in *. assert (P127 : bpow radix2 127 = 8 * P) by (change 127%Z with (3 + 124)%Z; rewrite bpow_plus; reflexivity). assert (P126 : bpow radix2 126 = 4 * P) by (change 126%Z with (2 + 124)%Z; rewrite bpow_plus; reflexivity).
  assert (T0 : Rabs 0 <= / 16777216) by (rewrite Rabs_R0; lra).
  destruct (kahan_real (B2R s) (B2R c) v S A E ((v - B2R c) * (1 + 0)) _ _ _ 0 0 0 0 T0 T0 T0 T0 HS Hc HD HE eq_refl eq_refl eq_refl eq_refl) as (_ & _ & B1 & _).
  destruct (Hy Fc) as (Fy & e1 & He1 & Ey); [lra|].
  destruct (kahan_real (B2R s) (B2R c) v S A E (B2R y) _ _ _ e1 0 0 0 He1 T0 T0 T0 HS Hc HD HE Ey eq_refl eq_refl eq_refl) as (_ & _ & _ & B2 & _).
  destruct (add_rel s y Fs Fy) as (Ft & e2 & He2 & Et); [lra|]. set (t := Bplus mode_NE s y) in *.
  destruct (kahan_real (B2R s) (B2R c) v S A E (B2R y) (B2R t) _ _ e1 e2 0 0 He1 He2 T0 T0 HS Hc HD HE Ey Et eq_refl eq_refl) as (_ & _ & _ & _ & B3 & _).
  destruct (sub_rel t s Ft Fs) as (Fd & e3 & He3 & Ed); [lra|]. set (d := Bminus mode_NE t s) in *.
  destruct (kahan_real (B2R s) (B2R c) v S A E (B2R y) (B2R t) (B2R d) _ e1 e2 e3 0 He1 He2 He3 T0 HS Hc HD HE Ey Et Ed eq_refl) as (_ & _ & _ & _ & _ & B4).
  destruct (sub_rel d y Fd Fy) as (Fc' & e4 & He4 & Ec); [lra|]. set (c' := Bminus mode_NE d y) in *.
  destruct (kahan_real (B2R s) (B2R c) v S A E (B2R y) (B2R t) (B2R d) (B2R c') e1 e2 e3 e4 He1 He2 He3 He4 HS Hc HD HE Ey Et Ed Ec) as (C1 & C2 & _).
  split; [exact Ft|]. split; [exact Fc'|]. split; [exact C1|]. eapply Rle_trans; [exact C2|]. unfold E. rewrite app_length. cbn [length]. rewrite Nat.add_1_r, S_INR. fold n.
  set (a := Rabs v) in *. clearbody a n A. clear - A0 X0 N. assert (0 <= n * a) by (apply Rmult_le_pos; lra). nra.
Qed.
Lemma kst_sum s c vs : kst s c vs -> rabs vs <= bpow radix2 124 -> (zlen vs <= 2 ^ 22)%Z -> is_finite s = true /\ Rabs (B2R s - rsum vs) <= 17 * / 16777216 * rabs vs.
Proof.
  intros H Ad Hn. destruct (H Ad Hn) as (Fs & _ & Hc & HD). split; [exact Fs|]. set (A := rabs vs) in *. assert (A0 : 0 <= A) by apply rabs_nonneg.
  assert (N : INR (length vs) <= 4194304) by (rewrite INR_IZR_INZ; apply IZR_le; exact Hn).
  assert (E : (5 + 32 * INR (length vs) * / 16777216) * / 16777216 * A <= 13 * / 16777216 * A) by (apply Rmult_le_compat_r; [exact A0|]; lra).
  replace (B2R s - rsum vs) with (B2R s - B2R c - rsum vs + B2R c) by ring. pose proof (Rabs_triang (B2R s - B2R c - rsum vs) (B2R c)). lra.
Qed.
Lemma kstate_zero : kstate (f32_of_Z 0) (f32_of_Z 0) []. Proof. intros _. exact kst_zero. Qed.
Lemma kstate_upd s c x l : kstate s c l -> kstate (fst (kahan ops32 s c x)) (snd (kahan ops32 s c x)) (l ++ [x]).
Proof.
  intros H F. apply Forall_app in F as (Fl & Fx). inversion Fx as [|? ? Fx' _]; subst. rewrite vals_app. cbn [kahan fst snd o_sub o_add ops32 vals map]. apply (kst_step s c); [exact (H Fl)|].
  intros Fc B. apply sub_rel; auto. eapply Rle_trans; [exact B|apply bpow_le; lia].
Qed.
Lemma vals_len l : zlen (vals l) = zlen l. Proof. unfold zlen, vals. now rewrite map_length. Qed.
Lemma kstate_sum s c l : kstate s c l -> addable l -> (zlen l <= 2 ^ 22)%Z -> is_finite s = true /\ Rabs (B2R s - rsum (vals l)) <= 17 * / 16777216 * rabs (vals l).
Proof. intros H (F & Ad) Hn. apply (kst_sum s c); [exact (H F)|exact Ad|now rewrite vals_len]. Qed.

(** ** The tree *)
Definition near_sum (k : R) (s : f32) (l : list f32) : Prop := is_finite s = true /\ Rabs (B2R s - rsum (vals l)) <= k * / 16777216 * rabs (vals l).
Definition sum_level (d : nat) (s : f32) (l : list f32) : Prop := addable l -> (d <= 9)%nat -> near_sum (17 + 9 / 8 * INR d) s l.
Lemma level_range d : (d <= 9)%nat -> 0 <= INR d <= 9.
Proof. intros H. split; [apply pos_INR|]. replace 9 with (INR 9) by (cbn; lra). now apply le_INR. Qed.
(** One addition in the tree: relative errors grow by 9/8 of a unit, absolute ones by 1/128. *)
Lemma tree_step (s s' : f32) V V' A A' k q q' : is_finite s = true -> is_finite s' = true -> Rabs V <= A -> Rabs V' <= A' -> A + A' <= bpow radix2 124 -> 0 <= k <= 32 -> 0 <= q <= 1 -> 0 <= q' <= 1 ->
  Rabs (B2R s - V) <= k * / 16777216 * A + q -> Rabs (B2R s' - V') <= k * / 16777216 * A' + q' ->
  is_finite (Bplus mode_NE s s') = true /\ Rabs (B2R (Bplus mode_NE s s') - (V + V')) <= (k + 9 / 8) * / 16777216 * (A + A') + (q + q') * (129 / 128).
Proof.
  intros Fs Fs' HV HV' B Hk Hq Hq' Es Es'. assert (A0 : 0 <= A) by (pose proof (Rabs_pos V); lra). assert (A0' : 0 <= A') by (pose proof (Rabs_pos V'); lra).
  assert (Es1 : k * / 16777216 * A <= 32 * / 16777216 * A) by (apply Rmult_le_compat_r; lra).
  assert (Es2 : k * / 16777216 * A' <= 32 * / 16777216 * A') by (apply Rmult_le_compat_r; lra).
  set (P := bpow radix2 124) in *. assert (P127 : bpow radix2 127 = 8 * P) by (change 127%Z with (3 + 124)%Z; rewrite bpow_plus; reflexivity).
  assert (P1 : 1 <= P) by (unfold P; change 1 with (bpow radix2 0); apply bpow_le; lia).
  assert (W : Rabs (B2R s + B2R s') <= (1 + 32 * / 16777216) * (A + A') + (q + q')).
  { replace (B2R s + B2R s') with ((B2R s - V) + (B2R s' - V') + (V + V')) by ring. pose proof (Rabs_triang (B2R s - V + (B2R s' - V')) (V + V')). pose proof (Rabs_triang (B2R s - V) (B2R s' - V')). pose proof (Rabs_triang V V'). lra. }
  destruct (add_rel s s' Fs Fs') as (Ft & e & He & Et); [lra|]. split; [exact Ft|]. rewrite Et. pose proof (abs_mul (B2R s + B2R s') e _ He) as P2.
  replace ((B2R s + B2R s') * (1 + e) - (V + V')) with ((B2R s - V) + (B2R s' - V') + (B2R s + B2R s') * e) by ring.
  pose proof (Rabs_triang (B2R s - V + (B2R s' - V')) ((B2R s + B2R s') * e)) as Q1. pose proof (Rabs_triang (B2R s - V) (B2R s' - V')) as Q2.
  replace ((k + 9 / 8) * / 16777216 * (A + A')) with (k * / 16777216 * A + k * / 16777216 * A' + 9 / 8 * / 16777216 * (A + A')) by ring. lra.
Qed.
Lemma sum_level_comb d s s' l l' : sum_level d s l -> sum_level d s' l' -> sum_level (S d) (Bplus mode_NE s s') (l ++ l').
Proof.
  intros H H' Ad Hd. destruct (addable_app l l' Ad) as (Al & Al'). destruct (H Al ltac:(lia)) as (Fs & Es). destruct (H' Al' ltac:(lia)) as (Fs' & Es'). destruct Ad as (_ & B). unfold near_sum.
  rewrite vals_app, rabs_app in *. rewrite rsum_app, S_INR. destruct (level_range d ltac:(lia)) as (D0 & D9).
  destruct (tree_step s s' _ _ _ _ (17 + 9 / 8 * INR d) 0 0 Fs Fs' (rsum_abs (vals l)) (rsum_abs (vals l')) B) as (F & E); try lra. split; [exact F|].
  eapply Rle_trans; [exact E|]. right. field.
Qed.
Lemma rsum_perm a b : Permutation a b -> rsum a = rsum b. Proof. unfold rsum. induction 1; cbn; lra. Qed.
Lemma vals_perm l l' : Permutation l l' -> rsum (vals l) = rsum (vals l') /\ rabs (vals l) = rabs (vals l') /\ (addable l' -> addable l).
Proof.
  intros P. pose proof (Permutation_map (@B2R 24 128) P) as V. assert (Q : rabs (vals l) = rabs (vals l')) by (unfold rabs; now apply rsum_perm, Permutation_map).
  split; [now apply rsum_perm|]. split; [exact Q|]. intros (F & B). split; [|now rewrite Q]. unfold finite_list in *. rewrite Forall_forall in *. intros x Hx. apply F. now apply (Permutation_in x P).
Qed.
Lemma sum_level_perm d s l l' : Permutation l l' -> sum_level d s l -> sum_level d s l'.
Proof. intros P H Ad Hd. destruct (vals_perm l l' P) as (E1 & E2 & E3). destruct (H (E3 Ad) Hd) as (F & B). split; [exact F|]. now rewrite <- E1, <- E2. Qed.
Lemma sum_joint : joint_rel (gk_sum ops32) kstate sum_level.
Proof.
  split; cbn [gk_sum k_zero k_comp k_upd k_norm k_comb].
  - exact kstate_zero.
  - exact kstate_upd.
  - intros s c l H Hn Ad _. change (INR 0) with 0. rewrite Rmult_0_r, Rplus_0_r. now apply (kstate_sum s c).
  - intros. now apply sum_level_comb.
  - exact sum_level_perm.
Qed.

(** ** Dividing by a count *)
Lemma count_value n : (1 <= n < 2 ^ 31)%Z -> is_finite (f32_of_Z n) = true /\ exists e, Rabs e <= 2 * / 16777216 /\ IZR n / B2R (f32_of_Z n) = 1 + e /\ 0 < B2R (f32_of_Z n) /\ Rabs e <= / 16777216.
Proof.
  intros H. destruct (of_Z_near n ltac:(lia)) as (F & (N0 & V0 & L & U)). split; [exact F|]. rewrite pow_1, u_val in *. set (D := B2R (f32_of_Z n)) in *. assert (N1 : 1 <= IZR n) by (apply IZR_le; lia).
  assert (D0 : 0 < D) by lra. exists (IZR n / D - 1). assert (E : Rabs (IZR n / D - 1) <= / 16777216).
  { assert (Q : IZR n / D * D = IZR n) by (field; lra). set (q := IZR n / D) in *. clearbody q. apply Rabs_le. split; nra. }
  repeat split; try lra.
Qed.
Lemma div_close (s : f32) V A k n : is_finite s = true -> (1 <= n < 2 ^ 31)%Z -> Rabs V <= A -> A <= bpow radix2 124 -> 0 <= k <= 32 -> Rabs (B2R s - V) <= k * / 16777216 * A ->
  is_finite (Bdiv mode_NE s (f32_of_Z n)) = true /\ Rabs (B2R (Bdiv mode_NE s (f32_of_Z n)) - V / IZR n) <= (k + 17 / 8) * / 16777216 * (A / IZR n) + bpow radix2 (-150).
Proof.
  intros Fs Hn HV HA Hk Hs. destruct (count_value n Hn) as (_ & e & _ & Ee & D0 & He). set (D := B2R (f32_of_Z n)) in *. assert (N1 : 1 <= IZR n) by (apply IZR_le; lia).
  assert (A0 : 0 <= A) by (pose proof (Rabs_pos V); lra). set (N := IZR n) in *. clearbody N.
  assert (Er : B2R s / D = B2R s / N * (1 + e)) by (rewrite <- Ee; field; lra).
  set (a := A / N). set (v := V / N). set (b := B2R s / N) in *. assert (NI : 0 < / N) by (apply Rinv_0_lt_compat; lra). assert (NI1 : / N <= 1) by (rewrite <- Rinv_1; apply Rinv_le_contravar; lra).
  assert (Ea : 0 <= a) by (apply Rmult_le_pos; lra). assert (Eaa : a <= A) by (unfold a, Rdiv; nra).
  assert (Hb : Rabs (b - v) <= k * / 16777216 * a).
  { unfold b, v, a, Rdiv. rewrite <- Rmult_minus_distr_r, Rabs_mult, (Rabs_pos_eq (/ N)) by lra. rewrite <- Rmult_assoc. apply Rmult_le_compat_r; [lra|exact Hs]. }
  assert (Hv : Rabs v <= a) by (unfold v, a, Rdiv; rewrite Rabs_mult, (Rabs_pos_eq (/ N)) by lra; apply Rmult_le_compat_r; lra).
  assert (Hk1 : k * / 16777216 * a <= 32 * / 16777216 * a) by (apply Rmult_le_compat_r; lra).
  assert (Wb : Rabs b <= (1 + 32 * / 16777216) * a) by (replace b with ((b - v) + v) by ring; pose proof (Rabs_triang (b - v) v); lra).
  pose proof (abs_mul b e _ He) as P1. assert (Wr : Rabs (b * (1 + e)) <= (1 + 34 * / 16777216) * a) by (replace (b * (1 + e)) with (b + b * e) by ring; pose proof (Rabs_triang b (b * e)); lra).
  set (P := bpow radix2 124) in *. assert (P127 : bpow radix2 127 = 8 * P) by (change 127%Z with (3 + 124)%Z; rewrite bpow_plus; reflexivity).
  destruct (div_ok s (f32_of_Z n) Fs) as (F & E); [fold D; lra|fold D; rewrite Er; lra|]. split; [exact F|]. rewrite E. fold D. rewrite Er.
  destruct (rnd_parts (b * (1 + e))) as (e2 & h & He2 & Hh & _ & ->). apply eps_u in He2. pose proof (abs_mul (b * (1 + e)) e2 _ He2) as P2.
  replace (b * (1 + e) * (1 + e2) + h - v) with ((b - v) + b * e + b * (1 + e) * e2 + h) by ring.
  pose proof (Rabs_triang (b - v + b * e + b * (1 + e) * e2) h). pose proof (Rabs_triang (b - v + b * e) (b * (1 + e) * e2)). pose proof (Rabs_triang (b - v) (b * e)).
  replace ((k + 17 / 8) * / 16777216 * a) with (k * / 16777216 * a + 17 / 8 * / 16777216 * a) by ring. lra.
Qed.

(** ** Means: each thread divides before the tree *)
Definition small (d : nat) : R := (129 / 64) ^ d * bpow radix2 (-150).
Lemma small_S d : small (S d) = (small d + small d) * (129 / 128). Proof. unfold small. cbn [pow]. field. Qed.
Lemma small_pos d : 0 <= small d. Proof. unfold small. apply Rmult_le_pos; [apply pow_le; lra|apply bpow_ge_0]. Qed.
Lemma small_le d : (d <= 9)%nat -> small d <= bpow radix2 (-140).
Proof.
  intros H. unfold small. change (-140)%Z with (10 + -150)%Z. rewrite bpow_plus. apply Rmult_le_compat_r; [apply bpow_ge_0|]. eapply Rle_trans; [apply Rle_pow with (n := 9%nat); [lra|exact H]|]. change (bpow radix2 10) with 1024. cbn [pow]. lra.
Qed.
Definition mean_level (n : Z) (d : nat) (s : f32) (l : list f32) : Prop := addable l -> (d <= 9)%nat ->
  is_finite s = true /\ Rabs (B2R s - rsum (vals l) / IZR n) <= (20 + 9 / 8 * INR d) * / 16777216 * (rabs (vals l) / IZR n) + small d.
Lemma mean_joint n : (1 <= n < 2 ^ 31)%Z -> joint_rel (gk_mean ops32 n) kstate (mean_level n).
Proof.
  intros Hn. assert (N1 : 1 <= IZR n) by (apply IZR_le; lia). assert (NI : 0 < / IZR n) by (apply Rinv_0_lt_compat; lra). assert (NI1 : / IZR n <= 1) by (rewrite <- Rinv_1; apply Rinv_le_contravar; lra).
  split; cbn [gk_mean k_zero k_comp k_upd k_norm k_comb].
  - exact kstate_zero.
  - exact kstate_upd.
  - intros s c l H Hl Ad _. destruct (kstate_sum s c l H Ad Hl) as (F & E). destruct (div_close s _ _ 17 n F Hn (rsum_abs (vals l)) (proj2 Ad) ltac:(lra) E) as (F' & E'). split; [exact F'|].
    cbn [o_div o_of ops32]. eapply Rle_trans; [exact E'|]. unfold small. cbn [pow INR]. pose proof (Rmult_le_pos _ _ (rabs_nonneg (vals l)) (Rlt_le _ _ NI)) as A0. fold (rabs (vals l) / IZR n) in A0. lra.
  - intros d s s' l l' H H' Ad Hd. destruct (addable_app l l' Ad) as (Al & Al'). destruct (H Al ltac:(lia)) as (Fs & Es). destruct (H' Al' ltac:(lia)) as (Fs' & Es'). destruct Ad as (_ & B). cbn [o_add ops32].
    rewrite vals_app, rabs_app in *. rewrite rsum_app, S_INR. destruct (level_range d ltac:(lia)) as (D0 & D9). pose proof (small_pos d) as Q0. pose proof (small_le d ltac:(lia)) as Q1. assert (Q2 : bpow radix2 (-140) <= 1) by (change 1 with (bpow radix2 0); apply bpow_le; lia).
    assert (HV : forall m, Rabs (rsum (vals m) / IZR n) <= rabs (vals m) / IZR n). { intros m. unfold Rdiv. rewrite Rabs_mult, (Rabs_pos_eq (/ IZR n)) by lra. apply Rmult_le_compat_r; [lra|apply rsum_abs]. }
    assert (HA : forall m, rabs (vals m) / IZR n <= rabs (vals m)). { intros m. pose proof (rabs_nonneg (vals m)). unfold Rdiv. nra. }
    pose proof (HA l). pose proof (HA l').
    destruct (tree_step s s' _ _ _ _ (20 + 9 / 8 * INR d) (small d) (small d) Fs Fs' (HV l) (HV l')) as (F & E); try lra. split; [exact F|].
    rewrite small_S. replace ((rsum (vals l) + rsum (vals l')) / IZR n) with (rsum (vals l) / IZR n + rsum (vals l') / IZR n) by (unfold Rdiv; ring).
    eapply Rle_trans; [exact E|]. right. unfold Rdiv. field. lra.
  - intros d s l l' P H Ad Hd. destruct (vals_perm l l' P) as (E1 & E2 & E3). destruct (H (E3 Ad) Hd) as (F & B). split; [exact F|]. now rewrite <- E1, <- E2.
Qed.

(** ** Masked reductions: the count is kept beside the sum *)
Definition mkstate (s : f32 * Z) (c : f32) (l : list f32) : Prop := kstate (fst s) c l /\ snd s = cnt (zlen l).
Definition msum_level (d : nat) (s : f32 * Z) (l : list f32) : Prop := sum_level d (fst s) l /\ snd s = cnt (zlen l).
Lemma cnt_add a b : cnt (cnt a + cnt b) = cnt (a + b). Proof. unfold cnt. now rewrite <- Z.add_mod by lia. Qed.
Lemma zlen_app' {X} (l l' : list X) : zlen (l ++ l') = (zlen l + zlen l')%Z. Proof. unfold zlen. rewrite app_length. lia. Qed.
Lemma masked_joint outs : joint_rel (Kernel true (f32_of_Z 0, 0%Z) (f32_of_Z 0) (mkahan ops32) (fun s => s) (madd ops32) outs false : kernel f32 (f32 * Z) f32 f32) mkstate msum_level.
Proof.
  split; cbn [k_zero k_comp k_upd k_norm k_comb].
  - split; [exact kstate_zero|reflexivity].
  - intros s c x l (H & E). split; cbn [mkahan fst snd]; [now apply kstate_upd|]. rewrite E, zlen_app'. change (zlen [x]) with 1%Z. change (cnt (cnt (zlen l) + cnt 1) = cnt (zlen l + 1)). apply cnt_add.
  - intros s c l (H & E) Hl. split; [|exact E]. intros Ad _. cbn [INR]. rewrite Rmult_0_r, Rplus_0_r. now apply (kstate_sum (fst s) c).
  - intros d s s' l l' (H & E) (H' & E'). split; cbn [madd fst snd]; [now apply sum_level_comb|]. rewrite E, E', zlen_app'. apply cnt_add.
  - intros d s l l' P (H & E). split; [now apply (sum_level_perm d (fst s) l l')|]. rewrite E. unfold zlen. now rewrite (Permutation_length P).
Qed.
