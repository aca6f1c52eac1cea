(** C98: where the fields of a hit are in a hit file, and what is read from such a file whoever wrote it. *)
From Coq Require Import Reals Lra ZArith Lia String List Psatz.
From Flocq Require Import Core BinarySingleNaN.
From Verif Require Import FileModel FileBits FileProofs TypeModel TypeFloat DriftFloatProofs BaseFacts PropFile HitModel.
Import ListNotations.
Local Open Scope Z_scope.
Local Open Scope list_scope.

(** ** What is expected *)
(** The unsigned number in the [w] bytes from offset [off], least significant byte first. *)
Fixpoint number (w : nat) (l : list Z) : Z := match w, l with S w', b :: l' => b + 256 * number w' l' | _, _ => 0 end.
Definition uint (bytes : list Z) (off w : nat) : Z := number w (skipn off bytes).
(** IEEE 754 interchange format: sign, biased exponent and fraction. *)
Definition ieee (p emax z : Z) (x : binary_float p emax) : Prop :=
  let b := 2 ^ (p - 1) in let s := z / (b * (2 * emax)) in let e := (z / b) mod (2 * emax) in let m := z mod b in
  if e =? 2 * emax - 1 then x = (if m =? 0 then B754_infinity (s =? 1) else B754_nan)
  else is_finite x = true /\ Bsign x = (s =? 1) /\
    B2R x = (IZR ((if s =? 1 then -1 else 1) * (if e =? 0 then m else m + b)) * bpow radix2 ((if e =? 0 then 0 else e - 1) + (3 - emax - p)))%R.
Definition float_at (bytes : list Z) (off : nat) (x : f32) : Prop := ieee 24 128 (uint bytes off 4) x.
Definition double_at (bytes : list Z) (off : nat) (x : f64) : Prop := ieee 53 1024 (uint bytes off 8) x.
(** A double stored as a float. *)
Definition single_at (bytes : list Z) (off : nat) (x : f64) : Prop := exists y : f32, float_at bytes off y /\ to_single x (widen y).
(** Two's complement, modulo 2^32. *)
Definition int_at (bytes : list Z) (off : nat) (z : Z) : Prop := (uint bytes off 4 - z) mod 2 ^ 32 = 0.
(** The record of a hit, at offset [k] of a file: table of one segment of twelve words; pointers to Hit and Signal, no filterbank; Signal. *)
Definition record_at (bytes : list Z) (k : nat) (h : hit) : Prop :=
  uint bytes k 4 = 0 /\ uint bytes (k + 4) 4 = 12 /\ uint bytes (k + 8) 8 = 2 * 2 ^ 48 /\ uint bytes (k + 16) 8 = 4 * 1 + 9 * 2 ^ 32 /\ uint bytes (k + 24) 8 = 0 /\
  double_at bytes (k + 32) (h_freq h) /\ int_at bytes (k + 40) (h_index h) /\ int_at bytes (k + 44) (h_steps h) /\ double_at bytes (k + 48) (h_drift h) /\
  float_at bytes (k + 56) (h_snr h) /\ uint bytes (k + 60) 4 = 0 /\ uint bytes (k + 64) 4 = 0 /\ int_at bytes (k + 68) (h_steps h) /\
  single_at bytes (k + 72) (h_power h) /\ single_at bytes (k + 76) (h_power h) /\ int_at bytes (k + 80) (h_rate h) /\ single_at bytes (k + 84) (h_time h) /\
  single_at bytes (k + 88) (h_dur h) /\ float_at bytes (k + 92) (h_band h) /\
  (exists y : f32, float_at bytes (k + 96) y /\ is_finite y = true /\ B2R y = IZR (h_bins h)) /\ uint bytes (k + 100) 4 = 0.
(** A record as any program may write it: any data, any filterbank pointer. *)
Definition is_record (r : list Z) : Prop := List.length r = 104%nat /\ Forall (fun b => 0 <= b < 256) r /\
  uint r 0 4 = 0 /\ uint r 4 4 = 12 /\ uint r 8 8 = 2 * 2 ^ 48 /\ uint r 16 8 = 4 * 1 + 9 * 2 ^ 32.
(** What is read from it: power, number of time steps and drift index, not incoherent power, drift steps, coarse channel and beam. *)
Definition read_from (r : list Z) (h : hit) : Prop :=
  double_at r 32 (h_freq h) /\ low_part (uint r 40 4) (h_index h) /\ double_at r 48 (h_drift h) /\ float_at r 56 (h_snr h) /\ low_part (uint r 68 4) (h_steps h) /\
  (exists y : f32, float_at r 72 y /\ h_power h = widen y) /\ low_part (uint r 80 4) (h_rate h) /\ (exists y : f32, float_at r 84 y /\ h_time h = widen y) /\
  (exists y : f32, float_at r 88 y /\ h_dur h = widen y) /\ float_at r 92 (h_band h) /\ (exists y : f32, float_at r 96 y /\ is_finite y = true /\ h_bins h = Ztrunc (B2R y)) /\
  h_rfi h = [] /\ h_coarse h = 0.
(** The width is a number whose whole part is an int64. *)
Definition width_fits (r : list Z) : Prop := exists y : f32, float_at r 96 y /\ is_finite y = true /\ - 2 ^ 63 <= Ztrunc (B2R y) < 2 ^ 63.

(** ** Bits *)
Section Ieee.
  Context (p emax : Z) {Hp : FLX.Prec_gt_0 p} {He : Prec_lt_emax p emax}.
  Hypotheses (P2 : 2 <= p) (E2 : 1 < emax).
  Lemma normalize_exact s M E : 0 < M < 2 ^ p -> 3 - emax - p <= E <= emax - p -> let x := binary_normalize p emax Hp He mode_NE (cond_Zopp s M) E s in
    is_finite x = true /\ Bsign x = s /\ B2R x = (IZR ((if s then -1 else 1) * M) * bpow radix2 E)%R.
  Proof.
    intros HM HE x. pose proof (binary_normalize_correct p emax Hp He mode_NE (cond_Zopp s M) E s) as C. cbv zeta in C. fold x in C.
    assert (V : F2R (Float radix2 (cond_Zopp s M) E) = (IZR ((if s then -1 else 1) * M) * bpow radix2 E)%R) by (unfold F2R; cbn [Fnum Fexp]; f_equal; f_equal; destruct s; cbn [cond_Zopp]; lia).
    assert (Hd : Z.abs (cond_Zopp s M) < 2 ^ p) by (destruct s; cbn [cond_Zopp]; lia).
    rewrite round_generic in C; [| apply valid_rnd_round_mode|].
    2: { unfold SpecFloat.fexp, SpecFloat.emin. apply generic_format_FLT. exists (Float radix2 (cond_Zopp s M) E); [reflexivity|exact Hd|cbn [Fexp]; lia]. }
    rewrite Rlt_bool_true in C.
    - destruct C as (C1 & C2 & C3). split; [exact C2|]. split; [|rewrite C1; exact V]. rewrite C3. destruct s; cbn [cond_Zopp].
      + rewrite Rcompare_Lt; [reflexivity|]. apply F2R_lt_0. cbn [Fnum]. lia.
      + rewrite Rcompare_Gt; [reflexivity|]. apply F2R_gt_0. cbn [Fnum]. lia.
    - rewrite <- F2R_Zabs. apply Rlt_le_trans with (bpow radix2 (p + E)); [|apply bpow_le; lia]. unfold F2R. cbn [Fnum Fexp]. rewrite bpow_plus. apply Rmult_lt_compat_r; [apply bpow_gt_0|].
      rewrite <- IZR_Zpower by lia. apply IZR_lt. exact Hd.
  Qed.
  Lemma of_bits_ieee z : 0 <= z < 2 ^ (p - 1) * (4 * emax) -> ieee p emax z (of_bits p emax (Hp := Hp) (He := He) z).
  Proof.
    intros Hz. assert (Pe : p < emax) by exact He. assert (HB : 0 < 2 ^ (p - 1)) by (apply Z.pow_pos_nonneg; lia). assert (H2 : 2 ^ p = 2 * 2 ^ (p - 1)) by (replace p with (1 + (p - 1)) at 1 by lia; rewrite Z.pow_add_r; lia).
    unfold ieee, of_bits, low_exp. set (B := 2 ^ (p - 1)) in *. clearbody B. rewrite (Z.rem_mul_r z B (2 * emax)) by lia. set (m := z mod B). set (e := (z / B) mod (2 * emax)).
    assert (Hm : 0 <= m < B) by (apply Z.mod_pos_bound; lia). assert (Hee : 0 <= e < 2 * emax) by (apply Z.mod_pos_bound; lia).
    replace ((m + B * e) / B) with e by (rewrite (Z.mul_comm B e), Z.div_add, Z.div_small by lia; lia). replace ((m + B * e) mod B) with m by (rewrite (Z.mul_comm B e), Z.mod_add, Z.mod_small by lia; lia).
    assert (Hs : (B * (2 * emax) <=? z) = (z / (B * (2 * emax)) =? 1)).
    { set (T := B * (2 * emax)) in *. assert (HT : 0 < T) by (unfold T; nia). assert (z < 2 * T) by (unfold T; nia). destruct (Z.leb_spec T z); symmetry; [apply Z.eqb_eq|apply Z.eqb_neq].
      - symmetry. apply (Z.div_unique z T 1 (z - T)); lia.
      - rewrite Z.div_small; lia. }
    rewrite Hs. set (s := z / (B * (2 * emax)) =? 1). clearbody s m e. destruct (Z.eqb_spec e (2 * emax - 1)) as [|Ne]; [destruct (m =? 0); reflexivity|].
    destruct (Z.eqb_spec e 0) as [->|N0].
    - destruct (Z.eq_dec m 0) as [->|Nm].
      + replace (cond_Zopp s 0) with 0 by (destruct s; reflexivity). cbn [binary_normalize is_finite Bsign B2R]. split; [reflexivity|]. split; [reflexivity|]. rewrite Z.mul_0_r. lra.
      + apply (normalize_exact s m (0 + (3 - emax - p))); lia.
    - apply (normalize_exact s (m + B) (e - 1 + (3 - emax - p))); lia.
  Qed.
  Lemma bits_of_ieee pay (x : binary_float p emax) : 0 < pay < 2 ^ (p - 1) -> ieee p emax (bits_of p emax pay x) x.
  Proof. intros H. rewrite <- (bits_back p emax P2 E2 pay x H) at 2. apply of_bits_ieee. now apply bits_range. Qed.
End Ieee.

(** ** Bytes *)
Lemma number_of_le w l : (w <= List.length l)%nat -> number w l = of_le (firstn w l).
Proof. revert l. induction w as [|w IH]; intros [|b l] H; cbn in *; try lia. rewrite IH by lia. reflexivity. Qed.
Lemma number_range w l : Forall (fun b => 0 <= b < 256) l -> 0 <= number w l < 256 ^ Z.of_nat w.
Proof.
  revert l. induction w as [|w IH]; intros l H; [cbn; lia|]. assert (0 < 256 ^ Z.of_nat w) by (apply Z.pow_pos_nonneg; lia). destruct l as [|b l]; [cbn [number]; rewrite Nat2Z.inj_succ, Z.pow_succ_r by lia; lia|].
  inversion H; subst. specialize (IH l H4). cbn [number]. rewrite Nat2Z.inj_succ, Z.pow_succ_r by lia. lia.
Qed.
Lemma number_app v w l : (v <= List.length l)%nat -> number (v + w) l = number v l + 256 ^ Z.of_nat v * number w (skipn v l).
Proof.
  revert l. induction v as [|v IH]; intros l H; [cbn; destruct (number w l); reflexivity|]. destruct l as [|b l]; [cbn in H; lia|]. cbn [Nat.add number skipn]. cbn in H. rewrite IH by lia. rewrite Nat2Z.inj_succ, Z.pow_succ_r by lia. ring.
Qed.
Lemma number_prefix w l r : (w <= List.length l)%nat -> number w (l ++ r) = number w l.
Proof. revert l. induction w as [|w IH]; intros [|b l] H; cbn in *; try lia. rewrite IH by lia. reflexivity. Qed.
Lemma uint_app l r off w : (off + w <= List.length l)%nat -> uint (l ++ r) off w = uint l off w.
Proof. intros H. unfold uint. rewrite skipn_app. apply number_prefix. rewrite skipn_length. lia. Qed.
Lemma number_le n z w r : (w <= n)%nat -> number w (le n z ++ r) = z mod 256 ^ Z.of_nat w.
Proof.
  revert z w. induction n as [|n IH]; intros z w H; [destruct w; [cbn; now rewrite Z.mod_1_r|lia]|]. destruct w as [|w]; [cbn; now rewrite Z.mod_1_r|]. cbn [le app number]. rewrite IH by lia. rewrite Nat2Z.inj_succ, Z.pow_succ_r by lia.
  rewrite Z.rem_mul_r; [reflexivity|lia|apply Z.pow_pos_nonneg; lia].
Qed.
Lemma skip_le n z a r : (a <= n)%nat -> skipn a (le n z ++ r) = le (n - a) (z / 256 ^ Z.of_nat a) ++ r.
Proof.
  revert z a. induction n as [|n IH]; intros z [|a] H; try lia; [reflexivity|cbn [skipn Nat.sub]; change (256 ^ Z.of_nat 0) with 1; now rewrite Z.div_1_r|]. cbn [le app skipn Nat.sub]. rewrite IH by lia. rewrite Nat2Z.inj_succ, Z.pow_succ_r by lia. rewrite Z.div_div; [reflexivity|lia|apply Z.pow_pos_nonneg; lia].
Qed.
Lemma skip_words i ws r : (i <= List.length ws)%nat -> skipn (8 * i) (flat_map (le 8) ws ++ r) = flat_map (le 8) (skipn i ws) ++ r.
Proof.
  revert ws. induction i as [|i IH]; intros ws H; [reflexivity|]. destruct ws as [|w ws]; [cbn in H; lia|]. cbn [flat_map skipn]. rewrite <- app_assoc. replace (8 * S i)%nat with (8 + 8 * i)%nat by lia.
  assert (Q : forall (l m : list Z) a, skipn (List.length l + a) (l ++ m) = skipn a m) by (intros l m a; rewrite skipn_app; rewrite skipn_all2 by lia; cbn [app]; f_equal; lia).
  replace 8%nat with (List.length (le 8 w)) at 1 by apply le_length. rewrite Q. apply IH. cbn in H. lia.
Qed.
Lemma skip_skip {A} (l : list A) a b : skipn a (skipn b l) = skipn (a + b) l.
Proof. revert l. induction b as [|b IH]; intros l; [rewrite Nat.add_0_r; reflexivity|]. rewrite Nat.add_succ_r. destruct l as [|x l]; [cbn [skipn]; now rewrite !skipn_nil|]. cbn [skipn]. apply IH. Qed.
(** The [k] bytes from byte [a] of word [i]. *)
Lemma uint_word ws r i a k w : nth_error ws i = Some w -> (a + k <= 8)%nat -> uint (flat_map (le 8) ws ++ r) (8 * i + a) k = (w / 256 ^ Z.of_nat a) mod 256 ^ Z.of_nat k.
Proof.
  intros Hw Ha. assert (Hi : (i < List.length ws)%nat) by (apply nth_error_Some; congruence). unfold uint. rewrite Nat.add_comm, <- skip_skip, skip_words by lia.
  assert (E : exists t, skipn i ws = w :: t). { clear - Hw. revert ws Hw. induction i as [|i IH]; intros [|x ws] H; try discriminate; [injection H as ->; eexists; reflexivity|]. cbn in H |- *. now apply IH. }
  destruct E as (t & ->). cbn [flat_map]. rewrite <- app_assoc, skip_le by lia. apply number_le. lia.
Qed.

(** ** Writing *)
Section Write.
  Variables pay32 pay64 : Z.
  Hypotheses (Q32 : 0 < pay32 < 2 ^ 23) (Q64 : 0 < pay64 < 2 ^ 52).
  Lemma file_at hs j h : nth_error hs j = Some h -> exists pre r, hits_file pay32 pay64 hs = pre ++ message pay32 pay64 (to_signal h) ++ r /\ List.length pre = (104 * j)%nat.
  Proof.
    revert hs. induction j as [|j IH]; intros [|x hs] H; try discriminate.
    - injection H as ->. exists [], (hits_file pay32 pay64 hs). split; reflexivity.
    - destruct (IH hs H) as (pre & r & E & L). exists (message pay32 pay64 (to_signal x) ++ pre), r. cbn [hits_file flat_map]. unfold hits_file in E. rewrite E, <- app_assoc. split; [reflexivity|]. rewrite app_length, message_length, L. lia.
  Qed.
  Lemma uint_skip pre l k off w : List.length pre = k -> uint (pre ++ l) (k + off) w = uint l off w.
  Proof. intros <-. unfold uint. f_equal. rewrite skipn_app. rewrite skipn_all2 by lia. cbn [app]. f_equal. lia. Qed.
  Lemma pack_lo a b : 0 <= a < 2 ^ 32 -> pack a b mod 2 ^ 32 = a.
  Proof. exact (pack_low a b). Qed.
  Lemma pack_hi a b : 0 <= a < 2 ^ 32 -> 0 <= b < 2 ^ 32 -> (pack a b / 2 ^ 32) mod 2 ^ 32 = b.
  Proof. intros H1 H2. pose proof (pack_high a b H1) as E. unfold high32 in E. rewrite E. now apply Z.mod_small. Qed.
End Write.
(** Every hit of a file is in a record of 104 bytes of its own, in order, with each field at its place; the coarse channel is written as zero, the
    power twice, and the number of steps twice. *)
Theorem C98_layout : forall p32 p64 hs, 0 < p32 < 2 ^ 23 -> 0 < p64 < 2 ^ 52 -> Forall narrow_width hs ->
  List.length (hits_file p32 p64 hs) = (104 * List.length hs)%nat /\
  forall j h, nth_error hs j = Some h -> record_at (hits_file p32 p64 hs) (104 * j) h.
Proof.
  intros p32 p64 hs Q32 Q64 Hw. split; [rewrite hits_file_flat, flat_length, map_length; reflexivity|]. intros j h Hj. assert (Hb : Z.abs (h_bins h) <= 2 ^ 24) by (rewrite Forall_forall in Hw; apply Hw; eapply nth_error_In; exact Hj).
  destruct (file_at p32 p64 hs j h Hj) as (pre & r & E & L). rewrite E. clear E Hj Hw hs. set (g := to_signal h).
  assert (B32 : forall x, 0 <= bits32 p32 x < 2 ^ 32) by (intros x; now apply bits32_range). assert (B64 : forall x, 0 <= bits64 p64 x < 2 ^ 64) by (intros x; now apply bits64_range).
  assert (W : forall i a k w, nth_error (message_words p32 p64 g) i = Some w -> (a + k <= 8)%nat -> uint (pre ++ message p32 p64 g ++ r) (104 * j + (8 * i + a)) k = (w / 256 ^ Z.of_nat a) mod 256 ^ Z.of_nat k).
  { intros i a k w Hn Ha. rewrite (uint_skip pre _ (104 * j) (8 * i + a) k L). unfold message. now apply uint_word. }
  set (bytes := pre ++ message p32 p64 g ++ r) in *. clearbody bytes.
  assert (Full : forall i w, nth_error (message_words p32 p64 g) i = Some w -> 0 <= w < 2 ^ 64 -> uint bytes (104 * j + 8 * i) 8 = w).
  { intros i w Hn Hr. rewrite <- (Nat.add_0_r (8 * i)), (W i 0%nat 8%nat w Hn ltac:(lia)). change (256 ^ Z.of_nat 0) with 1. rewrite Z.div_1_r. apply Z.mod_small. exact Hr. }
  assert (Lo : forall i a b, nth_error (message_words p32 p64 g) i = Some (pack a b) -> 0 <= a < 2 ^ 32 -> uint bytes (104 * j + 8 * i) 4 = a).
  { intros i a b Hn Hr. rewrite <- (Nat.add_0_r (8 * i)), (W i 0%nat 4%nat _ Hn ltac:(lia)). change (256 ^ Z.of_nat 0) with 1. rewrite Z.div_1_r. apply pack_lo. exact Hr. }
  assert (Hi : forall i a b, nth_error (message_words p32 p64 g) i = Some (pack a b) -> 0 <= a < 2 ^ 32 -> 0 <= b < 2 ^ 32 -> uint bytes (104 * j + (8 * i + 4)) 4 = b).
  { intros i a b Hn H1 H2. rewrite (W i 4%nat 4%nat _ Hn ltac:(lia)). apply pack_hi; assumption. }
  assert (I32 : forall x (y : f32), uint bytes x 4 = bits32 p32 y -> float_at bytes x y) by (intros x y Ex; unfold float_at; rewrite Ex; exact (bits_of_ieee 24 128 (Hp := prec24) (He := emax128) ltac:(lia) ltac:(lia) p32 y Q32)).
  assert (I64 : forall x (y : f64), uint bytes x 8 = bits64 p64 y -> double_at bytes x y) by (intros x y Ex; unfold double_at; rewrite Ex; exact (bits_of_ieee 53 1024 (Hp := prec53) (He := emax1024) ltac:(lia) ltac:(lia) p64 y Q64)).
  assert (N32 : forall x z, uint bytes x 4 = u32 (to_int32 z) -> int_at bytes x z).
  { intros x z Ex. unfold int_at. rewrite Ex. destruct (low_part_int32 z) as (_ & Lp). unfold u32. rewrite Zminus_mod_idemp_l. exact Lp. }
  assert (S32 : forall x y, uint bytes x 4 = bits32 p32 (narrow y) -> single_at bytes x y) by (intros x y Ex; exists (narrow y); split; [now apply I32|apply to_single_narrow]).
  unfold record_at.
  split; [rewrite <- (Nat.add_0_r (104 * j)); exact (Lo 0%nat 0 12 eq_refl ltac:(lia))|].
  split; [exact (Hi 0%nat 0 12 eq_refl ltac:(lia) ltac:(lia))|].
  split; [exact (Full 1%nat _ eq_refl ltac:(vm_compute; split; [discriminate|reflexivity]))|].
  split; [exact (Full 2%nat _ eq_refl ltac:(vm_compute; split; [discriminate|reflexivity]))|].
  split; [exact (Full 3%nat _ eq_refl ltac:(lia))|].
  split; [apply I64; exact (Full 4%nat _ eq_refl (B64 _))|].
  split; [apply N32; exact (Lo 5%nat _ _ eq_refl (u32_range _))|].
  split; [apply N32; exact (Hi 5%nat _ _ eq_refl (u32_range _) (u32_range _))|].
  split; [apply I64; exact (Full 6%nat _ eq_refl (B64 _))|].
  split; [apply I32; exact (Lo 7%nat _ _ eq_refl (B32 _))|].
  split; [exact (Hi 7%nat _ _ eq_refl (B32 _) (u32_range _))|].
  split; [exact (Lo 8%nat _ _ eq_refl (u32_range _))|].
  split; [apply N32; exact (Hi 8%nat _ _ eq_refl (u32_range _) (u32_range _))|].
  split; [apply S32; exact (Lo 9%nat _ _ eq_refl (B32 _))|].
  split; [apply S32; exact (Hi 9%nat _ _ eq_refl (B32 _) (B32 _))|].
  split; [apply N32; exact (Lo 10%nat _ _ eq_refl (u32_range _))|].
  split; [apply S32; exact (Hi 10%nat _ _ eq_refl (u32_range _) (B32 _))|].
  split; [apply S32; exact (Lo 11%nat _ _ eq_refl (B32 _))|].
  split; [apply I32; exact (Hi 11%nat _ _ eq_refl (B32 _) (B32 _))|].
  assert (En : nth_error (message_words p32 p64 g) 12 = Some (pack (bits32 p32 (f32_of_Z (h_bins h))) 0)) by (cbn [nth_error message_words app signal_words g_bins]; unfold pack; rewrite Z.mul_0_l, Z.add_0_r; reflexivity).
  split; [|exact (Hi 12%nat _ _ En (B32 _) ltac:(lia))]. exists (f32_of_Z (h_bins h)). split; [apply I32; exact (Lo 12%nat _ _ En (B32 _))|]. destruct (f32_of_Z_ok (h_bins h) Hb) as (A & B). split; [exact B|exact A].
Qed.
Print Assumptions C98_layout.
Example C98_layout_case : Forall narrow_width [sample 100 4 3] /\ uint (hits_file (2 ^ 22) (2 ^ 51) [sample 100 4 3]) 40 4 = 123456 /\ uint (hits_file (2 ^ 22) (2 ^ 51) [sample 100 4 3]) 60 4 = 0 /\ h_coarse (sample 100 4 3) = 3.
Proof. split; [repeat constructor; unfold narrow_width; cbn; lia|]. vm_compute. auto. Qed.

(** ** Reading *)
Section Read.
  Variable other : list Z -> option (signal * list Z).
  Lemma words_numbers n l : (8 * n <= List.length l)%nat -> words_of n l = map (fun i => uint l (8 * i) 8) (seq 0 n).
  Proof. clear other.
    revert l. induction n as [|n IH]; intros l H; [reflexivity|]. cbn [words_of seq map]. f_equal; [unfold uint; change (8 * 0)%nat with 0%nat; change (skipn 0 l) with l; rewrite number_of_le by lia; reflexivity|].
    rewrite IH by (rewrite skipn_length; lia). rewrite <- seq_shift, map_map. apply map_ext. intros i. unfold uint. rewrite skip_skip. f_equal. f_equal. lia.
  Qed.
  Lemma halves r off : (off + 8 <= List.length r)%nat -> Forall (fun b => 0 <= b < 256) r -> low32 (uint r off 8) = uint r off 4 /\ high32 (uint r off 8) = uint r (off + 4) 4 /\ 0 <= uint r off 4 < 2 ^ 32 /\ 0 <= uint r (off + 4) 4 < 2 ^ 32 /\ 0 <= uint r off 8 < 2 ^ 64.
  Proof. clear other.
    intros H F. assert (Fs : forall k, Forall (fun b => 0 <= b < 256) (skipn k r)) by (intros k; rewrite <- (firstn_skipn k r) in F; apply Forall_app in F; apply F).
    pose proof (number_range 4 (skipn off r) (Fs off)) as R1. pose proof (number_range 4 (skipn (off + 4) r) (Fs _)) as R2. pose proof (number_range 8 (skipn off r) (Fs off)) as R3.
    change (256 ^ Z.of_nat 4) with (2 ^ 32) in *. change (256 ^ Z.of_nat 8) with (2 ^ 64) in R3. unfold uint.
    assert (E : number 8 (skipn off r) = number 4 (skipn off r) + 2 ^ 32 * number 4 (skipn (off + 4) r)).
    { change 8%nat with (4 + 4)%nat. rewrite number_app by (rewrite skipn_length; lia). rewrite skip_skip, (Nat.add_comm 4 off). reflexivity. }
    unfold low32, high32. rewrite E at 1 2. split; [|split; [|split; [exact R1|split; [exact R2|exact R3]]]].
    - rewrite Z.mul_comm, Z.mod_add by lia. apply Z.mod_small. exact R1.
    - rewrite Z.mul_comm, Z.div_add, Z.div_small by lia. lia.
  Qed.
  (** The contents of a record. *)
  Definition contents (r : list Z) : signal := signal_of_words (map (fun i => uint r (8 * i) 8) (seq 4 9)).
  Lemma read_record r rest : is_record r -> read_message other (r ++ rest) = Some (contents r, rest).
  Proof.
    intros (L & F & E0 & E4 & E8 & E16). assert (L' : zlen (r ++ rest) = 104 + zlen rest) by (unfold zlen; rewrite app_length, L; lia). assert (Hr : 0 <= zlen rest) by (unfold zlen; lia).
    unfold read_message. rewrite L'. replace (104 + zlen rest <? 8) with false by (symmetry; apply Z.ltb_ge; lia). unfold segments.
    assert (A : of_le (firstn 4 (r ++ rest)) = 0). { rewrite <- number_of_le by (rewrite app_length; lia). pose proof (uint_app r rest 0 4 ltac:(lia)) as U. rewrite E0 in U. exact U. }
    assert (B : of_le (firstn 4 (skipn 4 (r ++ rest))) = 12). { rewrite <- number_of_le by (rewrite skipn_length, app_length; lia). pose proof (uint_app r rest 4 4 ltac:(lia)) as U. rewrite E4 in U. exact U. }
    rewrite A, B. cbv zeta. change ((0 + 1) mod 2 ^ 32) with 1. change (512 <=? 1) with false. change (negb (1 =? 1)) with false. change (8 * 2 ^ 20 <? 12) with false. cbv iota.
    replace (104 + zlen rest - 8 <? 8 * 12) with false by (symmetry; apply Z.ltb_ge; lia). change (Z.to_nat 12) with 12%nat. change (Z.to_nat (8 + 8 * 12)) with 104%nat.
    assert (W : words_of 12 (skipn 8 (r ++ rest)) = (2 * 2 ^ 48) :: (4 * 1 + 9 * 2 ^ 32) :: uint r 24 8 :: map (fun i => uint r (8 * i) 8) (seq 4 9)).
    { rewrite words_numbers by (rewrite skipn_length, app_length; lia). rewrite <- E8, <- E16.
      assert (S : forall i, (i < 12)%nat -> uint (skipn 8 (r ++ rest)) (8 * i) 8 = uint r (8 * (i + 1)) 8).
      { intros i Hi. rewrite <- (uint_app r rest) by lia. unfold uint. rewrite skip_skip. f_equal. f_equal. lia. }
      change (seq 0 12) with [0;1;2;3;4;5;6;7;8;9;10;11]%nat. change (seq 4 9) with [4;5;6;7;8;9;10;11;12]%nat. cbn [map]. rewrite !S by lia. reflexivity. }
    rewrite W. set (d := map _ (seq 4 9)). assert (Ld : zlen d = 9) by reflexivity. assert (Lf : zlen (2 * 2 ^ 48 :: (4 * 1 + 9 * 2 ^ 32) :: uint r 24 8 :: d) = 12) by reflexivity.
    assert (F0 : follow (2 * 2 ^ 48 :: (4 * 1 + 9 * 2 ^ 32) :: uint r 24 8 :: d) 0 = Some (inr (1, 0, 2))) by (unfold follow; rewrite Lf; reflexivity).
    assert (F1 : follow (2 * 2 ^ 48 :: (4 * 1 + 9 * 2 ^ 32) :: uint r 24 8 :: d) (1 + 0) = Some (inr (3, 9, 0))) by (unfold follow; rewrite Lf; reflexivity).
    assert (P : plain (2 * 2 ^ 48 :: (4 * 1 + 9 * 2 ^ 32) :: uint r 24 8 :: d) = true) by (unfold plain; rewrite F0; reflexivity). rewrite P.
    assert (G : signal_of_segment (2 * 2 ^ 48 :: (4 * 1 + 9 * 2 ^ 32) :: uint r 24 8 :: d) = Some (contents r)).
    { unfold signal_of_segment. rewrite F0. change (2 =? 0) with false. cbv iota. rewrite F1. change (Z.to_nat 9) with 9%nat. change (Z.to_nat 3) with 3%nat. reflexivity. }
    rewrite G. do 2 f_equal. rewrite skipn_app, skipn_all2 by lia. rewrite L. reflexivity.
  Qed.
  Lemma read_records rs fuel : Forall is_record rs -> (List.length rs <= fuel)%nat -> read_signals other fuel (List.concat rs) = map contents rs.
  Proof.
    intros F. revert fuel. induction F as [|r rs Hr F IH]; intros fuel Hf.
    - destruct fuel; reflexivity.
    - destruct fuel as [|fuel]; [cbn in Hf; lia|]. cbn [List.concat read_signals map]. rewrite read_record by exact Hr. f_equal. apply IH. cbn in Hf. lia.
  Qed.
  Lemma records_length rs : Forall is_record rs -> List.length (List.concat rs) = (104 * List.length rs)%nat.
  Proof. clear other. induction 1 as [|r rs (L & _) _ IH]; [reflexivity|]. cbn [List.concat List.length]. rewrite app_length, L, IH. lia. Qed.
  Lemma trunc_int64 (y : f32) : is_finite y = true -> trunc_to_int64 y = if (- 2 ^ 63 <=? Ztrunc (B2R y)) && (Ztrunc (B2R y) <? 2 ^ 63) then Ok (Ztrunc (B2R y)) else UB.
  Proof. clear other.
    intros Hf. pose proof (trunc_Z_ok y Hf) as T. set (t := Ztrunc (B2R y)) in *. clearbody t. destruct y as [s|s| |s m e H]; try discriminate Hf; cbn [trunc_Z] in T; injection T as <-; reflexivity.
  Qed.
  Lemma float_unique r off (x y : f32) : float_at r off x -> float_at r off y -> x = y.
  Proof. clear other.
    unfold float_at, ieee. destruct (_ =? _); [congruence|]. intros (A1 & A2 & A3) (B1 & B2 & B3). apply B2R_Bsign_inj; congruence.
  Qed.
  (** What [of_signal] makes of the contents of a record. *)
  Lemma contents_fields r : is_record r -> let g := contents r in
    double_at r 32 (g_freq g) /\ low_part (uint r 40 4) (g_index g) /\ double_at r 48 (g_drift g) /\ float_at r 56 (g_snr g) /\ low_part (uint r 68 4) (g_nsteps g) /\ float_at r 72 (g_power g) /\
    low_part (uint r 80 4) (g_dindex g) /\ float_at r 84 (g_start g) /\ float_at r 88 (g_dur g) /\ float_at r 92 (g_band g) /\ float_at r 96 (g_bins g).
  Proof. clear other.
    intros (L & F & _) g. assert (I32 : forall z, 0 <= z < 2 ^ 32 -> ieee 24 128 z (of_bits32 z)) by (intros z Hz; exact (of_bits_ieee 24 128 (Hp := prec24) (He := emax128) ltac:(lia) ltac:(lia) z Hz)).
    assert (I64 : forall z, 0 <= z < 2 ^ 64 -> ieee 53 1024 z (of_bits64 z)) by (intros z Hz; exact (of_bits_ieee 53 1024 (Hp := prec53) (He := emax1024) ltac:(lia) ltac:(lia) z Hz)).
    pose proof (fun off H => halves r off H F) as Hv. unfold g, contents. change (seq 4 9) with [4;5;6;7;8;9;10;11;12]%nat. cbn [map]. unfold signal_of_words, word. cbn [nth g_freq g_index g_drift g_snr g_nsteps g_power g_dindex g_start g_dur g_band g_bins].
    unfold double_at, float_at.
    destruct (Hv (8 * 4)%nat ltac:(lia)) as (_ & _ & _ & _ & A4). destruct (Hv (8 * 5)%nat ltac:(lia)) as (A5 & _). destruct (Hv (8 * 6)%nat ltac:(lia)) as (_ & _ & _ & _ & A6). destruct (Hv (8 * 7)%nat ltac:(lia)) as (A7 & _ & B7 & _). destruct (Hv (8 * 8)%nat ltac:(lia)) as (_ & A8 & _).
    destruct (Hv (8 * 9)%nat ltac:(lia)) as (A9 & _ & B9 & _). destruct (Hv (8 * 10)%nat ltac:(lia)) as (A10 & B10 & _ & C10 & _). destruct (Hv (8 * 11)%nat ltac:(lia)) as (A11 & B11 & C11 & D11 & _). destruct (Hv (8 * 12)%nat ltac:(lia)) as (A12 & _ & B12 & _).
    rewrite A5, A7, A8, A9, A10, B10, A11, B11, A12.
    repeat split; try (apply I64; assumption); try (apply I32; assumption); try apply low_part_int32.
  Qed.
End Read.
(** Whoever wrote the records, and whatever their filterbanks: the hits are read in order, each from its own record. *)
Theorem C98_any_writer : forall other rs, Forall is_record rs -> Forall width_fits rs -> exists hs, read_hits other (List.concat rs) = Ok hs /\ Forall2 read_from rs hs.
Proof.
  intros other rs F Fw. unfold read_hits. rewrite read_records by (try exact F; rewrite records_length by exact F; lia). rewrite each_map. revert Fw. induction F as [|r rs Hr F IH]; intros Fw; [exists []; split; constructor|].
  inversion Fw as [|? ? (y & Hy & Fy & By) Fw']; subst. destruct (IH Fw') as (hs & E & F2). destruct (contents_fields r Hr) as (C1 & C2 & C3 & C4 & C5 & C6 & C7 & C8 & C9 & C10 & C11). cbv zeta in *.
  cbn [each]. unfold of_signal at 1. rewrite (float_unique _ _ _ _ C11 Hy), trunc_int64 by exact Fy. replace ((- 2 ^ 63 <=? Ztrunc (B2R y)) && (Ztrunc (B2R y) <? 2 ^ 63)) with true by (symmetry; apply andb_true_iff; split; [apply Z.leb_le|apply Z.ltb_lt]; lia).
  cbn [obind]. rewrite E. cbn [obind]. eexists. split; [reflexivity|]. constructor; [|exact F2]. unfold read_from. cbn [h_freq h_index h_drift h_snr h_steps h_power h_rate h_time h_dur h_band h_bins h_rfi h_coarse].
  split; [exact C1|]. split; [exact C2|]. split; [exact C3|]. split; [exact C4|]. split; [exact C5|]. split; [eexists; split; [exact C6|reflexivity]|]. split; [exact C7|]. split; [eexists; split; [exact C8|reflexivity]|]. split; [eexists; split; [exact C9|reflexivity]|]. split; [exact C10|].
  split; [exists y; split; [exact Hy|split; [exact Fy|reflexivity]]|]. split; reflexivity.
Qed.
Print Assumptions C98_any_writer.
(** A single width that does not fit makes the whole read undefined. *)
Theorem C98_width_refuted : forall other rs r, Forall is_record rs -> In r rs -> ~ width_fits r -> read_hits other (List.concat rs) = UB.
Proof.
  intros other rs r F Hi Hn. unfold read_hits. rewrite read_records by (try exact F; rewrite records_length by exact F; lia). rewrite each_map.
  assert (One : forall q, is_record q -> (exists h, of_signal (contents q) = Ok h) \/ of_signal (contents q) = UB).
  { intros q _. unfold of_signal. destruct (trunc_to_int64 (g_bins (contents q))) as [z|e|] eqn:E; cbn [obind]; [left; eexists; reflexivity| |now right]. exfalso. unfold trunc_to_int64 in E. destruct (g_bins (contents q)); try discriminate. destruct (_ && _) in E; discriminate. }
  assert (Bad : of_signal (contents r) = UB).
  { rewrite Forall_forall in F. pose proof (F r Hi) as Hr. destruct (contents_fields r Hr) as (_ & _ & _ & _ & _ & _ & _ & _ & _ & _ & C). cbv zeta in C. unfold of_signal.
    destruct (is_finite (g_bins (contents r))) eqn:Ff.
    - rewrite trunc_int64 by exact Ff. destruct (_ && _) eqn:E; [|reflexivity]. exfalso. apply Hn. exists (g_bins (contents r)). split; [exact C|]. split; [exact Ff|]. apply andb_true_iff in E as (E1 & E2). apply Z.leb_le in E1. apply Z.ltb_lt in E2. lia.
    - destruct (g_bins (contents r)); try discriminate Ff; reflexivity. }
  induction F as [|q rs Hq F IH]; [destruct Hi|]. cbn [each]. destruct (One q Hq) as [(h & E)|E]; rewrite E; cbn [obind]; [|reflexivity].
  destruct Hi as [->|Hi]; [congruence|]. rewrite (IH Hi). reflexivity.
Qed.
Print Assumptions C98_width_refuted.
(** Records of another program: drift steps and time steps, power and incoherent power differ; the second has no width. *)
Definition foreign (bins : f32) : list Z :=
  message (2 ^ 22) (2 ^ 51) (Signal (f64_of_Z 8421) 77 7 (f64_of_Z 1) (-3) (f32_of_Z 12) 5 2 4 (f32_of_Z 10) (f32_of_Z 20) (f32_of_Z 100) (f32_of_Z 300) (f32_of_Z 3) bins).
Definition bytes_ok (r : list Z) : bool := forallb (fun b => (0 <=? b) && (b <? 256)) r.
Lemma bytes_ok_forall r : bytes_ok r = true -> Forall (fun b => 0 <= b < 256) r.
Proof. intros H. apply Forall_forall. intros b Hb. unfold bytes_ok in H. rewrite forallb_forall in H. specialize (H b Hb). apply andb_true_iff in H as (A & B). apply Z.leb_le in A. apply Z.ltb_lt in B. lia. Qed.
Example C98_any_writer_case : is_record (foreign (f32_of_Z 9)) /\ width_fits (foreign (f32_of_Z 9)) /\
  match read_hits (fun _ => None) (foreign (f32_of_Z 9)) with Ok [h] => h_steps h = 4 /\ h_index h = 77 /\ h_rate h = -3 /\ f64eq (h_power h) (f64_of_Z 10) = true /\ h_bins h = 9 /\ h_coarse h = 0 | _ => False end.
Proof.
  split; [|split].
  - split; [vm_compute; reflexivity|]. split; [apply bytes_ok_forall; vm_compute; reflexivity|]. vm_compute. auto.
  - exists (f32_of_Z 9). destruct (f32_of_Z_ok 9 ltac:(lia)) as (V & Fi). split; [|split; [exact Fi|rewrite V, Ztrunc_IZR; lia]]. unfold float_at. replace (uint (foreign (f32_of_Z 9)) 96 4) with (bits32 1 (f32_of_Z 9)) by (vm_compute; reflexivity).
    exact (bits_of_ieee 24 128 (Hp := prec24) (He := emax128) ltac:(lia) ltac:(lia) 1 (f32_of_Z 9) ltac:(lia)).
  - vm_compute. auto 10.
Qed.
Example C98_width_case : is_record (foreign B754_nan) /\ ~ width_fits (foreign B754_nan).
Proof.
  split; [split; [vm_compute; reflexivity|]; split; [apply bytes_ok_forall; vm_compute; reflexivity|]; vm_compute; auto|]. intros (y & Hy & Fy & _). assert (y = B754_nan); [|subst; discriminate].
  apply (float_unique (foreign B754_nan) 96 y B754_nan Hy). unfold float_at. replace (uint (foreign B754_nan) 96 4) with (bits32 (2 ^ 22) B754_nan) by (vm_compute; reflexivity).
  exact (bits_of_ieee 24 128 (Hp := prec24) (He := emax128) ltac:(lia) ltac:(lia) (2 ^ 22) B754_nan ltac:(lia)).
Qed.
