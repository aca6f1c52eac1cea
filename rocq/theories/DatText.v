(** Reading printed numbers and tables back. *)
From Coq Require Import Reals Lra ZArith Lia.
From Flocq Require Import Core BinarySingleNaN.
From Verif Require Import DatModel.
Local Open Scope Z_scope.
Local Open Scope list_scope.

(** ** Specification: what a reader makes of a text *)
Definition is_digit (c : ascii) : bool := (48 <=? Z.of_nat (nat_of_ascii c)) && (Z.of_nat (nat_of_ascii c) <=? 57).
Fixpoint value_from (s : string) (acc : Z) : option Z :=
  match s with EmptyString => Some acc | String c s' => if is_digit c then value_from s' (10 * acc + (Z.of_nat (nat_of_ascii c) - 48)) else None end.
Definition read_natural (s : string) : option Z := match s with EmptyString => None | _ => value_from s 0 end.
(** Removes a leading minus sign. *)
Definition read_signed (f : string -> option Z) (s : string) : option Z :=
  match s with String "-" s' => option_map Z.opp (f s') | _ => f s end.
Definition read_integer : string -> option Z := read_signed read_natural.
(** The pieces between occurrences of a character. *)
Fixpoint split (c : ascii) (s : string) : list string :=
  match s with
  | EmptyString => [""%string]
  | String a s' => if Ascii.eqb a c then ""%string :: split c s'
                   else match split c s' with [] => [String a ""] | w :: ws => String a w :: ws end
  end.
(** A decimal number with exactly [k] digits after the point, as a multiple of [10^-k]. *)
Definition read_decimal (k : nat) : string -> option Z := read_signed (fun s =>
  match split "." s with
  | [a; b] => match read_natural a, read_natural b with
              | Some x, Some y => if (String.length b =? k)%nat then Some (x * 10 ^ Z.of_nat k + y) else None
              | _, _ => None end
  | _ => None end).

(** ** Facts *)
Fixpoint all_chars (P : ascii -> bool) (s : string) : bool := match s with EmptyString => true | String c s' => P c && all_chars P s' end.
Lemma all_app P s t : all_chars P (s ++ t) = all_chars P s && all_chars P t.
Proof. induction s; cbn; [reflexivity|]. rewrite IHs. apply Bool.andb_assoc. Qed.
Lemma all_impl (P Q : ascii -> bool) s : (forall c, P c = true -> Q c = true) -> all_chars P s = true -> all_chars Q s = true.
Proof. intros H. induction s as [|c s IH]; cbn; auto. rewrite !Bool.andb_true_iff. intros (A & B). auto. Qed.
Lemma app_empty s : (s ++ "")%string = s. Proof. induction s; cbn; congruence. Qed.
Lemma app_assoc_s a b c : ((a ++ b) ++ c)%string = (a ++ (b ++ c))%string. Proof. induction a; cbn; congruence. Qed.
Lemma len_app a b : String.length (a ++ b)%string = (String.length a + String.length b)%nat. Proof. induction a; cbn; congruence. Qed.

Lemma digit_code d : 0 <= d < 10 -> Z.of_nat (nat_of_ascii (digit d)) = 48 + d.
Proof. intros H. unfold digit. rewrite nat_ascii_embedding by lia. lia. Qed.
Lemma digit_is d : 0 <= d < 10 -> is_digit (digit d) = true.
Proof. intros H. unfold is_digit. rewrite digit_code by auto. apply Bool.andb_true_iff; split; apply Z.leb_le; lia. Qed.

Lemma digits_value k : forall n tail acc, 0 <= n -> value_from (digits k n tail) acc = value_from tail (acc * 10 ^ Z.of_nat k + n mod 10 ^ Z.of_nat k).
Proof.
  induction k as [|k IH]; intros n tail acc Hn; cbn [digits].
  - change (10 ^ Z.of_nat 0) with 1. rewrite Z.mod_1_r, Z.mul_1_r, Z.add_0_r. reflexivity.
  - pose proof (Z.mod_pos_bound n 10 ltac:(lia)) as B. rewrite IH by (apply Z.div_pos; lia). cbn [value_from].
    rewrite digit_is, digit_code by lia. f_equal. rewrite Nat2Z.inj_succ, Z.pow_succ_r by lia.
    rewrite Z.rem_mul_r by (try apply Z.pow_nonzero; lia || (apply Z.pow_pos_nonneg; lia)). lia.
Qed.
Lemma digits_length k : forall n tail, String.length (digits k n tail) = (k + String.length tail)%nat.
Proof. induction k; intros; cbn [digits]; [reflexivity|]. rewrite IHk. cbn [String.length]. lia. Qed.
Lemma digits_all k : forall n tail, all_chars is_digit (digits k n tail) = all_chars is_digit tail.
Proof. induction k; intros; cbn [digits]; [reflexivity|]. rewrite IHk. cbn [all_chars]. rewrite digit_is; [reflexivity|]. apply Z.mod_pos_bound. lia. Qed.
Lemma digits_app k : forall n tail, digits k n tail = (digits k n "" ++ tail)%string.
Proof. induction k; intros; cbn [digits]; [reflexivity|]. rewrite IHk. rewrite (IHk _ (String _ "")). rewrite app_assoc_s. reflexivity. Qed.

Lemma width_enough fuel : forall n, 0 <= n -> Z.log2 n <= Z.of_nat fuel -> n < 10 ^ Z.of_nat (width fuel n) /\ (1 <= width fuel n)%nat.
Proof.
  induction fuel as [|f IH]; intros n Hn Hf; cbn [width].
  - assert (n < 2). { destruct (Z.lt_ge_cases n 2); auto. pose proof (Z.log2_le_mono 2 n H). change (Z.log2 2) with 1 in H0. lia. } change (10 ^ Z.of_nat 1) with 10. lia.
  - destruct (Z.ltb_spec n 10); [change (10 ^ Z.of_nat 1) with 10; lia|].
    assert (L : Z.log2 (n / 10) <= Z.of_nat f).
    { assert (n / 10 <= n / 2) by (apply Z.div_le_compat_l; lia). pose proof (Z.log2_le_mono _ _ H0).
      replace (n / 2) with (Z.shiftr n 1) in H1 by (rewrite Z.shiftr_div_pow2 by lia; reflexivity). rewrite Z.log2_shiftr in H1 by lia. lia. }
    destruct (IH (n / 10) ltac:(apply Z.div_pos; lia) L) as (A & B). split; [|lia]. rewrite Nat2Z.inj_succ, Z.pow_succ_r by lia.
    pose proof (Z.div_mod n 10 ltac:(lia)). pose proof (Z.mod_pos_bound n 10 ltac:(lia)). lia.
Qed.
Lemma digit_count_ok n : 0 <= n -> n < 10 ^ Z.of_nat (digit_count n) /\ (1 <= digit_count n)%nat.
Proof. intros H. apply width_enough; auto. pose proof (Z.log2_nonneg n). lia. Qed.

Lemma read_digits k n : 0 <= n < 10 ^ Z.of_nat k -> (1 <= k)%nat -> read_natural (digits k n "") = Some n.
Proof.
  intros H Hk. unfold read_natural. pose proof (digits_length k n "") as L. destruct (digits k n "") eqn:E; [cbn in L; lia|]. rewrite <- E.
  rewrite digits_value by lia. cbn [value_from]. rewrite Z.mod_small by lia. reflexivity.
Qed.
Lemma read_digits_wide k n : 0 <= n -> (digit_count n <= k)%nat -> read_natural (digits k n "") = Some n.
Proof.
  intros Hn Hk. destruct (digit_count_ok n Hn) as (A & B). apply read_digits; [|lia]. split; [lia|].
  apply Z.lt_le_trans with (1 := A). apply Z.pow_le_mono_r; lia.
Qed.
Definition not_minus (s : string) : Prop := match s with String "-" _ => False | _ => True end.
Lemma digits_not_minus s : all_chars is_digit s = true -> forall t, s <> ""%string -> not_minus (s ++ t).
Proof.
  destruct s as [|c s]; [congruence|]. cbn [all_chars]. rewrite Bool.andb_true_iff. intros (A & _) t _. cbn.
  destruct c as [[] [] [] [] [] [] [] []]; try exact I; vm_compute in A; discriminate.
Qed.
Lemma read_minus f b s : not_minus s -> read_signed f (minus b ++ s) = option_map (fun z => if b then - z else z) (f s).
Proof.
  intros H. destruct b; cbn [minus String.append]; [reflexivity|]. unfold read_signed.
  destruct s as [|c s]; [cbn; destruct (f ""%string); reflexivity|]. 
  assert (E : match c with "-"%char => option_map Z.opp (f s) | _ => f (String c s) end = f (String c s)).
  { cbn in H. destruct c as [[] [] [] [] [] [] [] []]; try reflexivity; contradiction. }
  rewrite E. destruct (f (String c s)); reflexivity.
Qed.
Lemma digits_nonempty k n : (1 <= k)%nat -> digits k n "" <> ""%string.
Proof. intros H E. pose proof (digits_length k n "") as L. rewrite E in L. cbn in L. lia. Qed.
Lemma digits_plain k n t : (1 <= k)%nat -> not_minus (digits k n "" ++ t).
Proof. intros H. apply digits_not_minus; [rewrite digits_all; reflexivity|apply digits_nonempty; auto]. Qed.

Theorem integer_back z : read_integer (integer z) = Some z.
Proof.
  unfold read_integer, integer, natural. destruct (digit_count_ok (Z.abs z) ltac:(lia)) as (A & B).
  rewrite read_minus by (rewrite <- (app_empty (digits _ _ "")); apply digits_plain; auto). rewrite read_digits_wide by lia. cbn [option_map].
  destruct (Z.ltb_spec z 0); f_equal; lia.
Qed.
Theorem zero_padded_back w z : read_integer (zero_padded w z) = Some z.
Proof.
  unfold read_integer, zero_padded. destruct (digit_count_ok (Z.abs z) ltac:(lia)) as (A & B).
  rewrite read_minus by (rewrite <- (app_empty (digits _ _ "")); apply digits_plain; lia). rewrite read_digits_wide by lia. cbn [option_map].
  destruct (Z.ltb_spec z 0); f_equal; lia.
Qed.
Lemma zero_padded_length w z : (w <= String.length (zero_padded w z))%nat.
Proof. unfold zero_padded. rewrite len_app, digits_length. cbn [String.length]. lia. Qed.

(** Splitting. *)
Lemma split_none c s : all_chars (fun a => negb (Ascii.eqb a c)) s = true -> split c s = [s].
Proof. induction s as [|a s IH]; [reflexivity|]. cbn [all_chars split]. rewrite Bool.andb_true_iff. intros (A & B). apply Bool.negb_true_iff in A. rewrite A, IH by auto. reflexivity. Qed.
Lemma split_app c s t : all_chars (fun a => negb (Ascii.eqb a c)) s = true -> split c (s ++ String c t) = s :: split c t.
Proof.
  induction s as [|a s IH]; intros H; cbn [String.append split].
  - rewrite Ascii.eqb_refl. reflexivity.
  - cbn [all_chars] in H. apply Bool.andb_true_iff in H as (A & B). apply Bool.negb_true_iff in A. rewrite A, IH by auto. reflexivity.
Qed.
Lemma split_join c l : l <> [] -> Forall (fun s => all_chars (fun a => negb (Ascii.eqb a c)) s = true) l -> split c (join c l) = l.
Proof.
  intros Hne F. induction F as [|s l Hs F IH]; [congruence|]. destruct l as [|t l]; [apply split_none; auto|].
  change (join c (s :: t :: l)) with (s ++ String c (join c (t :: l)))%string. rewrite split_app by auto. f_equal. apply IH. discriminate.
Qed.
Lemma digit_not_dot s : all_chars is_digit s = true -> all_chars (fun a => negb (Ascii.eqb a ".")) s = true.
Proof. apply all_impl. intros c H. destruct (Ascii.eqb_spec c "."); [subst; discriminate|reflexivity]. Qed.

(** ** Rounding to decimals *)
Lemma scaled_near k m e : 0 <= m -> (Rabs (IZR (scaled k m e) - F2R (Float radix2 m e) * IZR (10 ^ Z.of_nat k)) <= / 2)%R.
Proof.
  intros Hm. unfold scaled. set (T := 10 ^ Z.of_nat k). destruct (Z.leb_spec 0 e) as [He|He].
  - unfold F2R. cbn [Fnum Fexp]. rewrite <- (IZR_Zpower radix2 e He). change (Zpower radix2 e) with (2 ^ e). rewrite !mult_IZR.
    replace (IZR m * IZR T * IZR (2 ^ e) - IZR m * IZR (2 ^ e) * IZR T)%R with 0%R by ring. rewrite Rabs_R0. lra.
  - set (num := m * T). set (den := 2 ^ (- e)). assert (Hd : 0 < den) by (apply Z.pow_pos_nonneg; lia).
    assert (Ev : (F2R (Float radix2 m e) * IZR T = IZR num / IZR den)%R).
    { unfold F2R, num, den. cbn [Fnum Fexp]. rewrite mult_IZR. replace e with (- - e) at 1 by lia. rewrite bpow_opp.
      rewrite <- (IZR_Zpower radix2 (- e)) by lia. change (Zpower radix2 (- e)) with (2 ^ (- e)). field. apply not_0_IZR. fold den. lia. }
    rewrite Ev. pose proof (Z.div_mod num den ltac:(lia)) as D. pose proof (Z.mod_pos_bound num den Hd) as B.
    set (q := num / den) in *. set (r := num mod den) in *.
    assert (Dr : (IZR num = IZR den * IZR q + IZR r)%R) by (rewrite <- mult_IZR, <- plus_IZR; f_equal; exact D).
    assert (Hdr : (0 < IZR den)%R) by (apply IZR_lt; auto).
    assert (Q : (IZR num / IZR den = IZR q + IZR r / IZR den)%R) by (rewrite Dr; field; lra). rewrite Q.
    assert (R0 : (0 <= IZR r / IZR den)%R) by (apply Rmult_le_pos; [apply IZR_le; lia|left; apply Rinv_0_lt_compat; auto]).
    assert (up : 2 * r <= den -> (IZR r / IZR den <= / 2)%R).
    { intros H. apply (Rmult_le_reg_r (IZR den)); auto. unfold Rdiv. rewrite Rmult_assoc, Rinv_l, Rmult_1_r by lra. apply IZR_le in H. rewrite mult_IZR in H. lra. }
    assert (lo : den <= 2 * r -> (/ 2 <= IZR r / IZR den)%R).
    { intros H. apply (Rmult_le_reg_r (IZR den)); auto. unfold Rdiv. rewrite Rmult_assoc, Rinv_l, Rmult_1_r by lra. apply IZR_le in H. rewrite mult_IZR in H. lra. }
    assert (R1 : (IZR r / IZR den <= 1)%R).
    { apply (Rmult_le_reg_r (IZR den)); auto. unfold Rdiv. rewrite Rmult_assoc, Rinv_l, Rmult_1_r by lra. rewrite Rmult_1_l. apply IZR_le. lia. }
    destruct (Z.ltb_spec (2 * r) den); [specialize (up ltac:(lia)); apply Rabs_le; lra|].
    destruct (Z.ltb_spec den (2 * r)); [specialize (lo ltac:(lia)); rewrite plus_IZR; apply Rabs_le; lra|].
    specialize (up ltac:(lia)). specialize (lo ltac:(lia)). destruct (Z.even q); [|rewrite plus_IZR]; apply Rabs_le; lra.
Qed.
Lemma scaled_nonneg k m e : 0 <= m -> 0 <= scaled k m e.
Proof.
  intros Hm. unfold scaled. assert (0 < 10 ^ Z.of_nat k) by (apply Z.pow_pos_nonneg; lia).
  destruct (Z.leb_spec 0 e); [apply Z.mul_nonneg_nonneg; [nia|apply Z.pow_nonneg; lia]|].
  assert (0 < 2 ^ (- e)) by (apply Z.pow_pos_nonneg; lia). assert (0 <= m * 10 ^ Z.of_nat k / 2 ^ (- e)) by (apply Z.div_pos; nia).
  repeat (destruct (_ <? _)); try destruct (Z.even _); lia.
Qed.

(** ** Fixed notation *)
Definition body (k i : nat) (n : Z) : string := (digits i (n / 10 ^ Z.of_nat k) "" ++ "." ++ digits k (n mod 10 ^ Z.of_nat k) "")%string.
Lemma read_body k i n b : (1 <= k)%nat -> 0 <= n -> (digit_count (n / 10 ^ Z.of_nat k) <= i)%nat ->
  read_decimal k (minus b ++ body k i n) = Some (if b then - n else n).
Proof.
  intros Hk Hn Hi. assert (H10 : 0 < 10 ^ Z.of_nat k) by (apply Z.pow_pos_nonneg; lia).
  pose proof (Z.div_pos n (10 ^ Z.of_nat k) Hn H10) as Hq. pose proof (Z.mod_pos_bound n _ H10) as Hr. destruct (digit_count_ok _ Hq) as (_ & W).
  unfold read_decimal, body. rewrite read_minus by (apply digits_plain; lia).
  change ("." ++ digits k (n mod 10 ^ Z.of_nat k) "")%string with (String "." (digits k (n mod 10 ^ Z.of_nat k) "")).
  rewrite split_app by (apply digit_not_dot; rewrite digits_all; reflexivity).
  rewrite split_none by (apply digit_not_dot; rewrite digits_all; reflexivity).
  rewrite read_digits_wide, read_digits by (auto; lia). rewrite digits_length. cbn [String.length]. rewrite Nat.add_0_r, Nat.eqb_refl. cbn [option_map].
  f_equal. pose proof (Z.div_mod n (10 ^ Z.of_nat k)). destruct b; lia.
Qed.
Lemma body_length k i n : String.length (body k i n) = (i + 1 + k)%nat.
Proof. unfold body. rewrite !len_app, !digits_length. cbn [String.length]. lia. Qed.
Lemma no_blank w s : (w <= String.length s)%nat -> (spaces (w - String.length s) ++ s)%string = s.
Proof. intros H. replace (w - String.length s)%nat with 0%nat by lia. reflexivity. Qed.

(** Value of the printed magnitude. *)
Definition magnitude {p q} (k : nat) (x : binary_float p q) : Z :=
  match x with B754_finite _ m e _ => scaled k (Zpos m) e | _ => 0 end.
Lemma fixed_finite {p q} w zeros k (x : binary_float p q) : is_finite x = true -> (w <= k + 2)%nat \/ zeros = true ->
  exists i, (digit_count (magnitude k x / 10 ^ Z.of_nat k) <= i)%nat /\ fixed w zeros k x = (minus (Bsign x) ++ body k i (magnitude k x))%string /\
    (zeros = true -> (w <= String.length (fixed w zeros k x))%nat).
Proof.
  intros Hf Hw. assert (H : forall s n, 0 <= n -> exists i, (digit_count (n / 10 ^ Z.of_nat k) <= i)%nat /\
    (if zeros then minus s ++ body k (Nat.max (digit_count (n / 10 ^ Z.of_nat k)) (w - String.length (minus s) - 1 - k)) n
     else spaces (w - String.length (minus s ++ body k (digit_count (n / 10 ^ Z.of_nat k)) n)) ++ minus s ++ body k (digit_count (n / 10 ^ Z.of_nat k)) n)%string
    = (minus s ++ body k i n)%string /\ (zeros = true -> (w <= String.length (minus s ++ body k i n))%nat)).
  { intros s n Hn. destruct (digit_count_ok (n / 10 ^ Z.of_nat k)) as (_ & W); [apply Z.div_pos; [auto|apply Z.pow_pos_nonneg; lia]|].
    destruct zeros.
    - eexists. split; [|split; [reflexivity|]]. lia. intros _. rewrite len_app, body_length. lia.
    - exists (digit_count (n / 10 ^ Z.of_nat k)). split; [lia|]. split; [|discriminate]. apply no_blank. rewrite len_app, body_length. destruct Hw; [lia|discriminate]. }
  destruct x as [s|s| |s m e Hb]; try discriminate; cbn [magnitude Bsign].
  - destruct (H s 0 ltac:(lia)) as (i & A & B & C). exists i. split; [exact A|]. split; [exact B|]. intros Z. rewrite <- B in C. apply C, Z.
  - destruct (H s (scaled k (Zpos m) e) (scaled_nonneg k (Zpos m) e ltac:(lia))) as (i & A & B & C). exists i. split; [exact A|]. split; [exact B|].
    intros Z. rewrite <- B in C. apply C, Z.
Qed.

(** The printed number read back. *)
Theorem fixed_back {p q} w zeros k (x : binary_float p q) : is_finite x = true -> (1 <= k)%nat -> (w <= k + 2)%nat \/ zeros = true ->
  exists z, read_decimal k (fixed w zeros k x) = Some z /\ (Rabs (IZR z / IZR (10 ^ Z.of_nat k) - B2R x) <= / 2 / IZR (10 ^ Z.of_nat k))%R /\
    (Bsign x = false -> 0 <= z).
Proof.
  intros Hf Hk Hw. destruct (fixed_finite w zeros k x Hf Hw) as (i & A & B & _). rewrite B.
  assert (N : 0 <= magnitude k x) by (destruct x; cbn; try lia; apply scaled_nonneg; lia).
  rewrite read_body by auto. eexists. split; [reflexivity|].
  assert (T : (0 < IZR (10 ^ Z.of_nat k))%R) by (apply IZR_lt, Z.pow_pos_nonneg; lia).
  assert (M : (Rabs (IZR (magnitude k x) - Rabs (B2R x) * IZR (10 ^ Z.of_nat k)) <= / 2)%R).
  { destruct x as [s|s| |s m e Hb]; try discriminate; cbn [magnitude].
    - cbn. rewrite Rabs_R0, Rmult_0_l, Rminus_0_r, Rabs_R0. lra.
    - cbn [B2R]. rewrite <- F2R_Zabs. replace (Z.abs (cond_Zopp s (Z.pos m))) with (Z.pos m) by (destruct s; reflexivity). apply scaled_near. lia. }
  assert (S : (B2R x = if Bsign x then - Rabs (B2R x) else Rabs (B2R x))%R).
  { destruct x as [s|s| |s m e Hb]; try discriminate; cbn [Bsign].
    - cbn. rewrite Rabs_R0. destruct s; lra.
    - cbn [B2R]. rewrite <- F2R_Zabs. destruct s; cbn [cond_Zopp Z.abs Z.opp]; [|reflexivity]. rewrite <- F2R_Zopp. reflexivity. }
  split; [|intros ->; auto]. rewrite S. 
  apply (Rmult_le_reg_r (IZR (10 ^ Z.of_nat k))); auto. replace (/ 2 / IZR (10 ^ Z.of_nat k) * IZR (10 ^ Z.of_nat k))%R with (/ 2)%R by (field; lra).
  rewrite <- (Rabs_pos_eq (IZR (10 ^ Z.of_nat k))) at 2 by lra. rewrite <- Rabs_mult.
  destruct (Bsign x).
  - rewrite opp_IZR. replace ((- IZR (magnitude k x) / IZR (10 ^ Z.of_nat k) - - Rabs (B2R x)) * IZR (10 ^ Z.of_nat k))%R with
      (- (IZR (magnitude k x) - Rabs (B2R x) * IZR (10 ^ Z.of_nat k)))%R by (field; lra). rewrite Rabs_Ropp. exact M.
  - replace ((IZR (magnitude k x) / IZR (10 ^ Z.of_nat k) - Rabs (B2R x)) * IZR (10 ^ Z.of_nat k))%R with
      (IZR (magnitude k x) - Rabs (B2R x) * IZR (10 ^ Z.of_nat k))%R by (field; lra). exact M.
Qed.

(** ** No separators inside fields *)
Definition no_sep (s : string) : Prop := all_chars (fun a => negb (Ascii.eqb a tab)) s = true /\ all_chars (fun a => negb (Ascii.eqb a newline)) s = true.
Lemma no_sep_digits s : all_chars is_digit s = true -> no_sep s.
Proof. intros H. split; revert H; apply all_impl; intros c H; destruct (Ascii.eqb_spec c tab) + destruct (Ascii.eqb_spec c newline); subst; try discriminate; reflexivity. Qed.
Lemma no_sep_app s t : no_sep s -> no_sep t -> no_sep (s ++ t).
Proof. intros (A & B) (C & D). split; rewrite all_app; apply Bool.andb_true_iff; auto. Qed.
Lemma no_sep_minus b : no_sep (minus b). Proof. destruct b; split; reflexivity. Qed.
Lemma no_sep_spaces n : no_sep (spaces n). Proof. induction n; [split; reflexivity|]. destruct IHn as (A & B). split; cbn; auto. Qed.
Lemma no_sep_nat k n : no_sep (digits k n ""). Proof. apply no_sep_digits. rewrite digits_all. reflexivity. Qed.
Lemma no_sep_integer z : no_sep (integer z). Proof. apply no_sep_app; [apply no_sep_minus|apply no_sep_nat]. Qed.
Lemma no_sep_padded w z : no_sep (zero_padded w z). Proof. apply no_sep_app; [apply no_sep_minus|apply no_sep_nat]. Qed.
Lemma no_sep_fixed {p q} w zeros k (x : binary_float p q) : no_sep (fixed w zeros k x).
Proof.
  assert (D : no_sep "."%string) by (split; reflexivity).
  unfold fixed. destruct x; try destruct zeros; repeat apply no_sep_app; auto using no_sep_minus, no_sep_spaces, no_sep_nat; split; reflexivity.
Qed.
