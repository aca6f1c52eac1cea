(** Spectral kurtosis from any two close sums. *)
From Coq Require Import ZifyBool ZifyNat Lia Reals Lra Psatz.
From Flocq Require Import Core BinarySingleNaN Plus_error Relative.
From Verif Require Import KurtModel FlagReal DriftFloatProofs KurtProofs.
Local Open Scope R_scope.

(** ** Numbers that are relatively close *)
Lemma close_near j k x y : (0 < j)%Z -> (65 * j <= 64 * Z.of_nat k)%Z -> (j <= 200000)%Z -> 0 <= x -> Rabs (y - x) <= x * (IZR j * u) -> near k x y.
Proof.
  intros Hj Hk Hb X H. assert (B : 1 + INR k * u <= (1 + u) ^ k).
  { clear. pose proof u_pos. induction k as [|k IH]; [cbn; lra|]. rewrite S_INR. cbn [pow]. pose proof (pos_INR k). assert (0 <= INR k * u * u) by (repeat apply Rmult_le_pos; lra). apply Rle_trans with ((1 + u) * (1 + INR k * u)); [lra|apply Rmult_le_compat_l; lra]. }
  apply IZR_le in Hk, Hb. apply IZR_lt in Hj. rewrite !mult_IZR, <- INR_IZR_INZ in Hk. unfold near. set (p := (1 + u) ^ k) in *. clearbody p. set (b := INR k) in *. clearbody b. set (a := IZR j) in *. clearbody a.
  pose proof u_val as U. assert (Ua : 0 < a * u <= / 80) by (rewrite U; lra). assert (Ub : 65 / 64 * (a * u) <= b * u) by (rewrite U; lra). set (v := a * u) in *. set (w := b * u) in *. clearbody v w. clear U.
  apply Rabs_le_inv in H. assert (P : 1 + 65 / 64 * v <= p) by lra. assert (Y0 : x * (1 - v) <= y) by lra. assert (0 <= y) by nra. split; [exact X|]. split; [assumption|]. split; [|nra].
  apply Rle_trans with (x * ((1 - v) * (1 + 65 / 64 * v))); [nra|]. rewrite <- Rmult_assoc. apply Rmult_le_compat; nra.
Qed.

(** ** The estimate *)
Definition value32 (N M : Z) (d s s2 : f32) : f32 :=
  Bmult mode_NE (Bminus mode_NE (Bmult mode_NE (Bdiv mode_NE s2 (Bmult mode_NE s s)) (f32_of_Z M)) (f32_of_Z 1)) (factor32 N M d).
Section Value.
  Variables (N : Z) (d : f32) (xs : list f32) (s s2 : f32) (k1 k2 : nat).
  Let M := zlen xs.
  Hypothesis HM : (2 <= zlen xs <= 2 ^ 16)%Z.
  Hypothesis HX : measurable xs.
  Hypothesis HN : (0 <= N)%Z.
  Hypothesis HMN : (zlen xs * N < 2 ^ 31)%Z.
  Hypothesis Fd : is_finite d = true.
  Hypothesis Hd : 0 <= B2R d <= bpow radix2 20.
  Let S1 := rsum (map B2R xs).
  Let S2 := rsum (squares (map B2R xs)).
  Hypothesis F1 : is_finite s = true.
  Hypothesis N1 : near k1 S1 (B2R s).
  Hypothesis F2 : is_finite s2 = true.
  Hypothesis N2 : near k2 S2 (B2R s2).
  Let k := (k1 + k1 + k2 + 3)%nat.
  Hypothesis Hk : (Z.of_nat k <= 190000)%Z.
  Let Q := S2 / (S1 * S1) * IZR M.
  Definition quot := Bmult mode_NE (Bdiv mode_NE s2 (Bmult mode_NE s s)) (f32_of_Z M).
  Lemma quot_ok : is_finite quot = true /\ near k Q (B2R quot).
  Proof.
    pose proof (S1S1 xs HM HX) as (L & H). fold S1 in L, H. pose proof (bpow_gt_0 radix2 (-80)). assert (P : 0 < S1 * S1) by lra.
    pose proof (near_mult k1 k1 _ _ _ _ N1 N1) as Nm. destruct (mult_ok s s F1 F1) as (Fm & Vm).
    { apply (range_of (k1 + k1) (S1 * S1)); [unfold k in Hk; lia|exact Nm|]. eapply Rle_trans; [exact H|]. apply bpow_le. lia. }
    assert (Nq : near (k1 + k1 + 1) (S1 * S1) (B2R (Bmult mode_NE s s))). { rewrite Vm. apply rnd_near_of; [unfold k in Hk; lia|exact Nm|]. eapply Rle_trans; [|exact L]. apply bpow_le. lia. }
    destruct (near_inv _ _ _ P Nq) as (P1 & _). pose proof (near_div _ _ _ _ _ _ P N2 Nq) as N3. pose proof (ratio_range xs HM HX) as (A & B). fold S1 S2 M in A, B. pose proof (M_real xs HM) as Mr. fold M in Mr.
    assert (Li : bpow radix2 (-120) <= / IZR M). { apply Rle_trans with (/ 65536); [|apply Rinv_le; lra]. change (/ 65536) with (bpow radix2 (-16)). apply bpow_le. lia. }
    assert (Bi : forall x, x <= 65536 -> x <= bpow radix2 126). { intros x K. eapply Rle_trans; [exact K|]. change 65536 with (bpow radix2 16). apply bpow_le. lia. }
    destruct (div_ok s2 (Bmult mode_NE s s) F2 (Rgt_not_eq _ _ P1)) as (F3 & V3). { apply (range_of (k2 + (k1 + k1 + 1)) (S2 / (S1 * S1))); [unfold k in Hk; lia|exact N3|]. apply Bi. lra. }
    assert (N4 : near (k2 + (k1 + k1 + 1) + 1) (S2 / (S1 * S1)) (B2R (Bdiv mode_NE s2 (Bmult mode_NE s s)))). { rewrite V3. apply rnd_near_of; [unfold k in Hk; lia|exact N3|lra]. }
    destruct (f32_of_Z_ok M ltac:(unfold M; lia)) as (VM & FM). assert (N5 : near 0 (IZR M) (B2R (f32_of_Z M))) by (rewrite VM; apply near_refl; lra).
    pose proof (near_mult _ _ _ _ _ _ N4 N5) as N6. rewrite Nat.add_0_r in N6. fold Q in N6. pose proof (Q_range xs HM HX) as (Q1 & Q2). fold S1 S2 M Q in Q1, Q2.
    destruct (mult_ok _ _ F3 FM) as (F7 & V7). { apply (range_of (k2 + (k1 + k1 + 1) + 1) Q); [unfold k in Hk; lia|exact N6|]. apply Bi, Q2. }
    split; [exact F7|]. unfold quot. rewrite V7. replace k with (k2 + (k1 + k1 + 1) + 1 + 1)%nat by (unfold k; lia). apply rnd_near_of; [unfold k in Hk; lia|exact N6|]. eapply Rle_trans; [|exact Q1]. change 1 with (bpow radix2 0). apply bpow_le. lia.
  Qed.
  Lemma value_ok : let sk := sk_list N M (B2R d) (map B2R xs) in let K := factor N M (B2R d) in 0 <= sk + K /\
    is_finite (value32 N M d s s2) = true /\ Rabs (B2R (value32 N M d s s2) - sk) <= (IZR (Z.of_nat k) * (253 / 250) + 8) * u * (sk + K).
  Proof.
    intros sk K. destruct (factor_ok N M d HM HN HMN Fd Hd) as (Fk & Nk). fold K in Nk. pose proof (near_4 _ _ Nk) as Ek. destruct quot_ok as (Fy & Ny). pose proof (Q_range xs HM HX) as (Q1 & Q2). fold S1 S2 M Q in Q1, Q2.
    assert (Esk : sk = (Q - 1) * K). { unfold sk, sk_list, Q, K, factor, S1, S2. unfold Rdiv. ring. }
    assert (K1 : / 65536 <= K <= bpow radix2 51 + 1).
    { assert (M1 : 1 <= IZR (M - 1) <= 65536) by (split; apply IZR_le; unfold M; lia). unfold K, factor. assert (0 < / IZR (M - 1)) by (apply Rinv_0_lt_compat; lra). assert (/ 65536 <= / IZR (M - 1)) by (apply Rinv_le; lra). assert (/ IZR (M - 1) <= 1) by (rewrite <- Rinv_1; apply Rinv_le; lra).
      assert (A0 : 0 <= IZR (M * N) <= bpow radix2 31) by (split; [apply IZR_le; unfold M; lia|rewrite <- IZR_Zpower by lia; apply IZR_le; cbn; unfold M; lia]).
      assert (Ad : 0 <= IZR (M * N) * B2R d <= bpow radix2 51). { split; [apply Rmult_le_pos; lra|]. change 51%Z with (31 + 20)%Z. rewrite bpow_plus. apply Rmult_le_compat; lra. }
      set (w := IZR (M * N) * B2R d) in *. clearbody w. unfold Rdiv. split; [nra|]. apply Rle_trans with ((w + 1) * 1); [apply Rmult_le_compat_l; lra|lra]. }
    destruct (f32_of_Z_ok 1 ltac:(lia)) as (V1 & FF1).
    pose proof (near_range k _ _ ltac:(lia) Ny) as (Yl & Yh). set (y := B2R quot) in *.
    destruct (minus_ok quot (f32_of_Z 1) Fy FF1) as (Fz & Vz).
    { fold y. rewrite V1. apply Rle_trans with 131072; [apply Rabs_le; lra|]. change 131072 with (bpow radix2 17). apply bpow_le. lia. }
    set (zz := Bminus mode_NE quot (f32_of_Z 1)) in *.
    assert (Ez : exists e1, Rabs e1 <= u /\ B2R zz = (y - 1) * (1 + e1)).
    { destruct (plus_eps quot (Bopp (f32_of_Z 1))) as (e & E & Ev). rewrite B2R_Bopp, V1 in Ev. exists e. split.
      - eapply Rle_trans; [exact E|]. pose proof u_pos. apply Rmult_le_reg_r with (1 + u); [lra|]. unfold Rdiv. rewrite Rmult_assoc, Rinv_l by lra. nra.
      - rewrite Vz, V1. exact Ev. }
    destruct Ez as (e1 & He1 & Ez). pose proof (near_range 4 _ _ ltac:(lia) Nk) as (Kl & Kh). assert (k0 : 0 <= B2R (factor32 N M d)) by apply Nk.
    assert (Zb : Rabs (B2R zz) <= 140000). { rewrite Ez, Rabs_mult. apply Rle_trans with (131072 * (1 + / 100)); [|lra]. pose proof u_val as UV. apply Rmult_le_compat; auto using Rabs_pos; [apply Rabs_le; lra|]. eapply Rle_trans; [apply Rabs_triang|]. rewrite Rabs_R1. rewrite UV in He1. lra. }
    destruct (mult_ok zz (factor32 N M d) Fz Fk) as (Ft & Vt).
    { rewrite Rabs_mult, (Rabs_pos_eq (B2R (factor32 N M d))) by exact k0. apply Rle_trans with (bpow radix2 18 * bpow radix2 53); [|rewrite <- bpow_plus; apply bpow_le; lia]. assert (1 <= bpow radix2 51) by (change 1 with (bpow radix2 0); apply bpow_le; lia).
      apply Rmult_le_compat; auto using Rabs_pos; [change (bpow radix2 18) with 262144; lra|]. change 53%Z with (2 + 51)%Z. rewrite bpow_plus. change (bpow radix2 2) with 4. lra. }
    split; [rewrite Esk; nra|]. split; [exact Ft|]. unfold value32. fold quot. fold zz. rewrite Vt. destruct (rnd_parts (B2R zz * B2R (factor32 N M d))) as (e2 & h & E2 & Hh & _ & Et). rewrite Et.
    assert (E2' : Rabs e2 <= u). { eapply Rle_trans; [exact E2|]. pose proof u_pos. apply Rmult_le_reg_r with (1 + u); [lra|]. unfold Rdiv. rewrite Rmult_assoc, Rinv_l by lra. nra. }
    pose proof (near_error _ _ _ Ny) as Ey. pose proof (pw_ge1 k) as Pg.
    assert (Im : 3 <= IZR (Z.of_nat k) <= 190000) by (split; apply IZR_le; [unfold k|]; lia).
    assert (Pm : (1 + u) ^ k - 1 <= (IZR (Z.of_nat k) * (253 / 250)) * u).
    { pose proof (pw_bound k) as Pb. rewrite INR_IZR_INZ in Pb.
      set (m := IZR (Z.of_nat k)) in *. clearbody m. pose proof u_pos. assert (Mu : 0 <= m * u <= 3 / 250) by (rewrite u_val; lra). specialize (Pb ltac:(lra)). assert (m * u * (m * u) <= m * u * (3 / 250)) by (apply Rmult_le_compat_l; lra). lra. }
    rewrite Esk. eapply Rle_trans; [eapply (final_real Q K y (B2R zz) (B2R (factor32 N M d)) _ e1 e2 h ((1 + u) ^ k - 1) (5 * u) (IZR (Z.of_nat k) * (253 / 250)))|].
    - exact Q1.
    - apply K1.
    - exact Ey.
    - exact Ez.
    - exact He1.
    - exact Ek.
    - exact k0.
    - reflexivity.
    - exact E2'.
    - eapply Rle_trans; [exact Hh|]. change (/ 65536) with (bpow radix2 (-16)). unfold u. rewrite <- !bpow_plus. apply bpow_le. lia.
    - split; [lra|exact Pm].
    - pose proof u_pos. lra.
    - lra.
    - right. ring.
  Qed.
End Value.

(** ** Sums with the errors of a GPU *)
Section Gpu.
  Variables (N : Z) (d : f32) (xs : list f32) (X : R) (kk : Z) (s s2 : f32).
  Let T := IZR (zlen xs).
  Hypothesis HM : (2 <= zlen xs <= 2 ^ 16)%Z.
  Hypothesis HX : measurable xs.
  Hypothesis X0 : 0 <= X.
  Hypothesis Hkk : (1 <= kk <= 64)%Z.
  Let S1 := rsum (map B2R xs).
  Let S2 := rsum (squares (map B2R xs)).
  Let Sq := rsum (map B2R (map (fun x => Bmult mode_NE x x) xs)).
  Hypothesis Hk : T * X <= IZR kk * S1.
  Hypothesis E1 : Rabs (B2R s - S1) <= / 524288 * S1 + / 1048576 * (T * X).
  Hypothesis E2 : Rabs (B2R s2 - Sq) <= / 524288 * Sq + / 1048576 * (T * (X * X * (1 + u) + bpow radix2 (-150))).
  Let k1 := Z.to_nat (33 + 17 * kk).
  Let k2 := Z.to_nat (35 + 18 * (kk * kk)).

  Lemma first_near : near k1 S1 (B2R s).
  Proof.
    pose proof (S1_low xs HX) as L. fold S1 in L. pose proof (bpow_gt_0 radix2 (-40)). apply (close_near (32 + 16 * kk)); unfold k1; try lia; [lra|].
    eapply Rle_trans; [exact E1|]. rewrite plus_IZR, mult_IZR, u_val. apply Rle_trans with (/ 524288 * S1 + / 1048576 * (IZR kk * S1)); [lra|right; field].
  Qed.
  Lemma squares_near : near 2 S2 Sq.
  Proof.
    destruct HX as (P & B & _). destruct (squares_parts xs P B) as (Pq & a & Na & Ea). fold S2 Sq in Ea, Na. pose proof (S2_pos xs HM HX) as L. fold S2 in L. pose proof (M_real xs HM) as Mr.
    assert (N1 : near 1 S2 a).
    { assert (E : INR (length xs) * bpow radix2 (-150) <= S2 * (/ 2 * u)).
      { rewrite INR_IZR_INZ. change (Z.of_nat (length xs)) with (zlen xs). assert (B1 : bpow radix2 (-150) * 65536 <= bpow radix2 (-96) * (/ 2 * u)).
        { unfold u. change (/ 2) with (bpow radix2 (-1)). change 65536 with (bpow radix2 16). rewrite <- !bpow_plus. apply bpow_le. lia. }
        pose proof (bpow_gt_0 radix2 (-150)). pose proof u_pos. apply Rle_trans with (bpow radix2 (-96) * (/ 2 * u)); [nra|]. apply Rmult_le_compat_r; [lra|exact L]. }
      pose proof (bpow_gt_0 radix2 (-96)). assert (Ab : Rabs (a - S2) <= S2 * (/ 2 * u)) by lra. apply Rabs_le_inv in Ab. pose proof u_pos as U. assert (U2 : u <= / 2) by (rewrite u_val; lra).
      unfold near. cbn [pow]. rewrite Rmult_1_r. destruct Na as (A0 & _). split; [lra|]. split; [lra|]. split; [|nra]. apply Rle_trans with (S2 * (1 - / 2 * u) * (1 + u)); [nra|]. apply Rmult_le_compat_r; lra. }
    exact (near_trans 1 1 _ _ _ N1 Na).
  Qed.
  Lemma largest_square : T * (X * X * (1 + u) + bpow radix2 (-150)) <= IZR (kk * kk) * (17 / 16 * Sq).
  Proof.
    pose proof (S2_low xs) as C. pose proof (S2_pos xs HM HX) as L. pose proof (M_real xs HM) as Mr. pose proof squares_near as Nq. fold S1 in C. fold S2 in C, L. fold T in C, Mr.
    pose proof (S1_low xs HX) as L1. fold S1 in L1. pose proof (bpow_gt_0 radix2 (-40)). pose proof (bpow_gt_0 radix2 (-96)).
    assert (K1 : 1 <= IZR kk) by (apply IZR_le; lia). rewrite mult_IZR. set (q := IZR kk) in *. clearbody q.
    assert (A : T * (X * X) <= q * q * S2).
    { apply Rmult_le_reg_l with T; [lra|]. apply Rle_trans with ((q * S1) * (q * S1)); [|nra]. replace (T * (T * (X * X))) with ((T * X) * (T * X)) by ring. assert (0 <= T * X) by (apply Rmult_le_pos; lra). apply Rmult_le_compat; lra. }
    assert (B : T * bpow radix2 (-150) <= S2 * (/ 2 * u)).
    { assert (B1 : bpow radix2 (-150) * 65536 <= bpow radix2 (-96) * (/ 2 * u)).
      { unfold u. change (/ 2) with (bpow radix2 (-1)). change 65536 with (bpow radix2 16). rewrite <- !bpow_plus. apply bpow_le. lia. }
      pose proof (bpow_gt_0 radix2 (-150)). pose proof u_pos. apply Rle_trans with (bpow radix2 (-96) * (/ 2 * u)); [nra|]. apply Rmult_le_compat_r; [lra|exact L]. }
    destruct (near_range 2 _ _ ltac:(lia) Nq) as (R1 & _). pose proof u_val as U. set (w := bpow radix2 (-150)) in *. clearbody w. set (X2 := X * X) in *. clearbody X2.
    assert (Q1 : 1 <= q * q) by nra. set (qq := q * q) in *. clearbody qq. assert (Ub : 0 < u <= / 10000000) by (rewrite U; lra). clear U.
    assert (D : T * (X2 * (1 + u) + w) <= qq * S2 * (1 + u) + S2 * (/ 2 * u)) by nra. eapply Rle_trans; [exact D|].
    assert (S2 * (/ 2 * u) <= qq * S2 * (/ 2 * u)) by (apply Rmult_le_compat_r; nra).
    apply Rle_trans with (qq * (S2 * (1 + u + / 2 * u))); [lra|]. apply Rmult_le_compat_l; [lra|]. nra.
  Qed.
  Lemma second_near : near k2 S2 (B2R s2).
  Proof.
    pose proof squares_near as Nq. replace k2 with (2 + Z.to_nat (33 + 18 * (kk * kk)))%nat by (unfold k2; lia). eapply near_trans; [exact Nq|].
    pose proof largest_square as Lq. assert (kk * kk <= 4096)%Z by nia. assert (1 <= kk * kk)%Z by nia. apply (close_near (32 + 17 * (kk * kk))); try lia; [apply Nq|].
    eapply Rle_trans; [exact E2|]. rewrite plus_IZR, (mult_IZR 17), u_val. set (w := IZR (kk * kk)) in *. apply Rle_trans with (/ 524288 * Sq + / 1048576 * (w * (17 / 16 * Sq))); [apply Rplus_le_compat_l, Rmult_le_compat_l; [lra|exact Lq]|right; field].
  Qed.
  Hypothesis HN : (0 <= N)%Z.
  Hypothesis HMN : (zlen xs * N < 2 ^ 31)%Z.
  Hypothesis Fd : is_finite d = true.
  Hypothesis Hd : 0 <= B2R d <= bpow radix2 20.
  Hypothesis F1 : is_finite s = true.
  Hypothesis F2 : is_finite s2 = true.
  Lemma gpu_value_ok : let sk := sk_list N (zlen xs) (B2R d) (map B2R xs) in let K := factor N (zlen xs) (B2R d) in
    is_finite (value32 N (zlen xs) d s s2) = true /\ Rabs (B2R (value32 N (zlen xs) d s s2) - sk) <= (IZR (kk * kk) + 2) * bpow radix2 (-18) * (sk + K).
  Proof.
    intros sk K. assert (kk * kk <= 4096)%Z by nia. assert (kk <= kk * kk)%Z by nia.
    destruct (value_ok N d xs s s2 k1 k2 HM HX HN HMN Fd Hd F1 first_near F2 second_near) as (P & F & E); [unfold k1, k2; lia|]. split; [exact F|]. eapply Rle_trans; [exact E|]. fold sk K in P |- *. apply Rmult_le_compat_r; [exact P|].
    replace (Z.of_nat (k1 + k1 + k2 + 3)) with (104 + 34 * kk + 18 * (kk * kk))%Z by (unfold k1, k2; lia). assert (W : IZR (104 + 34 * kk + 18 * (kk * kk)) <= IZR (104 + 52 * (kk * kk))) by (apply IZR_le; lia).
    assert (W1 : 1 <= IZR (kk * kk)) by (apply IZR_le; lia). rewrite (plus_IZR 104 (52 * _)), (mult_IZR 52) in W. set (v := IZR (kk * kk)) in *. set (w := IZR (104 + _ + _)) in *. clearbody v w. change (bpow radix2 (-18)) with (/ 262144). rewrite u_val. lra.
  Qed.
End Gpu.
