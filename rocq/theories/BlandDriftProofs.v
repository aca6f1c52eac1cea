(** The slice-based drift kernel performs the same updates as the CPU kernel. *)
From Verif Require Export DriftProofs NdProofs NdProofs2.
From Coq Require Import ZifyBool ZifyNat.
Ltac Zify.zify_post_hook ::= Z.div_mod_to_equations.
Local Open Scope Z_scope.

Definition window_layout (n s0 s1 o0 o1 : Z) : layout := Layout [1; n] [s0; s1] [o0; o1].

Lemma slice_axis0 T N s0 s1 o0 o1 start stop : 0 <= start <= stop -> stop <= T ->
  slice1 (Layout [T; N] [s0; s1] [o0; o1]) 0 start stop 1 = Ok (Layout [stop - start; N] [s0; s1] [o0 + start * s0; o1]).
Proof.
  intros Hs Hn. unfold slice1, size_axis, ndim. cbn [l_shape l_strides l_offsets]. change (zlen [T; N]) with 2.
  change (0 <? 2) with true. cbv iota. unfold zget. change (znth [T; N] 0) with (Some T). cbn [obind].
  replace (negb (start <? 0) && (T <? start)) with false by lia. replace (start <? 0) with false by lia.
  replace (stop <? 0) with false by lia. replace (T <? stop) with false by lia.
  replace (stop <? start) with false by lia. change (1 =? 0) with false. change (znth [s0; s1] 0) with (Some s0). cbv iota.
  change (Z.to_nat 0) with 0%nat. cbn [upd]. now rewrite Z.mul_1_r, Z.quot_1_r.
Qed.

Lemma slice_axis1 T N s0 s1 o0 o1 start stop : 0 <= start <= stop -> stop <= N ->
  slice1 (Layout [T; N] [s0; s1] [o0; o1]) 1 start stop 1 = Ok (Layout [T; stop - start] [s0; s1] [o0; o1 + start * s1]).
Proof.
  intros Hs Hn. unfold slice1, size_axis, ndim. cbn [l_shape l_strides l_offsets]. change (zlen [T; N]) with 2.
  change (1 <? 2) with true. cbv iota. unfold zget. change (znth [T; N] 1) with (Some N). cbn [obind].
  replace (negb (start <? 0) && (N <? start)) with false by lia. replace (start <? 0) with false by lia.
  replace (stop <? 0) with false by lia. replace (N <? stop) with false by lia.
  replace (stop <? start) with false by lia. change (1 =? 0) with false. change (znth [s0; s1] 1) with (Some s1). cbv iota.
  change (Z.to_nat 1) with 1%nat. cbn [upd]. now rewrite Z.mul_1_r, Z.quot_1_r.
Qed.

Lemma row_slice_ok l T N s0 s1 o0 o1 i start stop :
  l = Layout [T; N] [s0; s1] [o0; o1] -> 0 <= i < T -> 0 <= start <= stop -> stop <= N ->
  row_slice l i start stop = Ok (window_layout (stop - start) s0 s1 (o0 + i * s0) (o1 + start * s1)).
Proof.
  intros -> Hi Hs Hn. unfold row_slice. cbn [slice_many sp_dim sp_start sp_end sp_stride].
  rewrite slice_axis0 by lia. cbn [obind]. rewrite slice_axis1 by lia. cbn [obind].
  unfold window_layout. replace (i + 1 - i) with 1 by ring. reflexivity.
Qed.

Lemma in_range_row n idx : in_range [1; n] idx <-> exists j, 0 <= j < n /\ idx = [0; j].
Proof.
  unfold in_range. split.
  - intros H. inversion H as [|? i ? ? H1 H2]; subst. inversion H2 as [|? j ? ? H3 H4]; subst. inversion H4; subst.
    exists j. split; [auto|]. f_equal. lia.
  - intros (j & Hj & ->). repeat constructor; lia.
Qed.

Lemma window_cell n s0 s1 o0 o1 j : cell (window_layout n s0 s1 o0 o1) [0; j] = o0 + o1 + j * s1.
Proof. unfold cell, window_layout. cbn. ring. Qed.

Lemma dense_row_cell n j : cell (dense [1; n]) [0; j] = j.
Proof. unfold cell, dense. cbn. ring. Qed.

Lemma window_wf n s0 s1 o0 o1 : wf (window_layout n s0 s1 o0 o1).
Proof. split; reflexivity. Qed.

Lemma small_row n : 0 <= n < 2 ^ 31 -> small [1; n].
Proof. intros H. split; [repeat constructor; lia|]. unfold zprod. cbn. lia. Qed.

(** One temporary array computed from a row. *)
Lemma row_scalar_op {A B V} (op : A -> B -> V) junk n s0 s1 o0 o1 (m : mem A) (b : B) :
  0 <= n < 2 ^ 31 -> (forall j, 0 <= j < n -> 0 <= o0 + o1 + j * s1 < zlen m) ->
  exists m', array_scalar_op op junk (window_layout n s0 s1 o0 o1) m b = Ok (dense [1; n], m') /\ zlen m' = n /\
    forall j, 0 <= j < n -> exists x, znth m (o0 + o1 + j * s1) = Some x /\ znth m' j = Some (op x b).
Proof.
  intros Hn Hin.
  destruct (array_scalar_op_correct op junk (window_layout n s0 s1 o0 o1) m b) as (m' & E & L & H).
  - apply window_wf.
  - now apply small_row.
  - intros idx Hi. apply in_range_row in Hi as (j & Hj & ->). rewrite window_cell. auto.
  - cbn [window_layout l_shape] in *. exists m'. split; [exact E|]. split; [rewrite L; unfold zprod; cbn; lia|].
    intros j Hj. destruct (H [0; j]) as (x & E1 & E2); [apply in_range_row; eauto|].
    unfold elt in E1, E2. rewrite window_cell in E1. rewrite dense_row_cell in E2. eauto.
Qed.

Lemma dense_row_window n : dense [1; n] = window_layout n (1 * n) 1 0 0.
Proof. reflexivity. Qed.

(** [slice = op(slice, temporary)]. *)
Lemma row_accumulate {A B} (op : A -> B -> A) junk n s0 s1 o0 o1 (m : mem A) (mq : mem B) :
  0 < n < 2 ^ 31 -> s1 <> 0 -> (forall j, 0 <= j < n -> 0 <= o0 + o1 + j * s1 < zlen m) -> zlen mq = n ->
  exists a m', expand_op op junk (window_layout n s0 s1 o0 o1) (dense [1; n]) m mq = Ok a /\
    assign_slice (fun x => x) (window_layout n s0 s1 o0 o1) (fst a) m (snd a) = Ok m' /\ zlen m' = zlen m /\
    (forall j, 0 <= j < n -> exists x y, znth m (o0 + o1 + j * s1) = Some x /\ znth mq j = Some y /\
                                        znth m' (o0 + o1 + j * s1) = Some (op x y)) /\
    (forall c, (forall j, 0 <= j < n -> o0 + o1 + j * s1 <> c) -> znth m' c = znth m c).
Proof.
  intros Hn Hs1 Hin Lq. set (lw := window_layout n s0 s1 o0 o1).
  assert (Hins : inside lw (zlen m)).
  { intros idx Hi. apply in_range_row in Hi as (j & Hj & ->). unfold lw. rewrite window_cell. auto. }
  assert (Hp : posl [1; n]) by (repeat constructor; lia).
  destruct (expand_op_correct op junk lw (dense [1; n]) m mq [1; n]) as (ma & Ea & La & Ha).
  - apply window_wf.
  - apply dense_wf.
  - exact Hp.
  - exact Hp.
  - apply expand_shapes_self.
  - discriminate.
  - unfold zprod. cbn. lia.
  - left; reflexivity.
  - left; reflexivity.
  - exact Hins.
  - intros idx Hi. cbn [dense l_shape] in Hi. apply in_range_row in Hi as (j & Hj & ->). rewrite dense_row_cell. lia.
  - assert (Lz : zprod [1; n] = n) by (unfold zprod; cbn; lia).
    destruct (assign_slice_correct (fun x => x) lw (dense [1; n]) m ma) as (m' & Em & Lm & Hm & Hout).
    + apply window_wf.
    + apply dense_wf.
    + apply small_row. lia.
    + reflexivity.
    + exact Hins.
    + intros i j Hi Hj E. apply in_range_row in Hi as (i' & Hi & ->). apply in_range_row in Hj as (j' & Hj & ->).
      unfold lw in E. rewrite !window_cell in E. do 2 f_equal. nia.
    + intros idx Hi. cbn [dense l_shape] in Hi. apply in_range_row in Hi as (j & Hj & ->). rewrite dense_row_cell. lia.
    + exists (dense [1; n], ma), m'. split; [exact Ea|]. split; [exact Em|]. split; [exact Lm|]. split.
      * intros j Hj. destruct (Ha [0; j]) as (x & y & E1 & E2 & E3); [apply in_range_row; eauto|].
        destruct (Hm [0; j]) as (z & E4 & E5); [apply in_range_row; eauto|].
        unfold elt in *. unfold lw in E1, E5. 
        assert (Eb : bidx [1; n] [0; j] = [0; j]).
        { unfold bidx. cbn. destruct (n =? 1) eqn:E1n; [|reflexivity]. do 2 f_equal. lia. }
        cbn [window_layout l_shape dense] in E1, E2. rewrite Eb in E1, E2. rewrite window_cell in E1, E5.
        change (Layout [1; n] (rev (row_major_loop (rev [1; n]) 1)) (map (fun _ : Z => 0) [1; n])) with (dense [1; n]) in E2.
        rewrite dense_row_cell in E2, E3, E4.
        exists x, y. split; [exact E1|]. split; [exact E2|]. rewrite E5. congruence.
      * intros c Hc. apply Hout. intros idx Hi. apply in_range_row in Hi as (j & Hj & ->). unfold lw. rewrite window_cell. auto.
Qed.

Lemma land_pow2 b n : 0 <= n -> Z.land b (2 ^ n) = if Z.testbit b n then 2 ^ n else 0.
Proof.
  intros Hn. apply Z.bits_inj'. intros i Hi. rewrite Z.land_spec, Z.pow2_bits_eqb by auto.
  destruct (Z.eqb_spec n i) as [->|Hne].
  - rewrite andb_true_r. destruct (Z.testbit b i); [now rewrite Z.pow2_bits_true|now rewrite Z.bits_0].
  - rewrite andb_false_r. destruct (Z.testbit b n); [now rewrite Z.pow2_bits_false by lia|now rewrite Z.bits_0].
Qed.

Definition a_flag (flag : Z) : Prop := exists n, 0 <= n /\ flag = 2 ^ n.

Lemma bump_arith flag b c : a_flag flag -> 0 <= c < 256 ->
  bump flag b c = to_uint8 (c + Z.quot (Z.land b flag) flag).
Proof.
  intros (n & Hn & ->) Hc. assert (0 < 2 ^ n) by (apply Z.pow_pos_nonneg; lia).
  unfold bump. rewrite land_pow2 by auto. destruct (Z.testbit b n).
  - replace (2 ^ n =? 0) with false by lia. rewrite Z.quot_same by lia. reflexivity.
  - rewrite Z.quot_0_l by lia. change (0 =? 0) with true. cbv iota. rewrite Z.add_0_r, to_uint8_small; auto.
Qed.

Lemma bump_byte flag b c : 0 <= c < 256 -> 0 <= bump flag b c < 256.
Proof. intros H. unfold bump, to_uint8. destruct (_ =? 0); [auto|]. apply Z.mod_pos_bound. lia. Qed.

Lemma bland_count_ok junk flag n d0 d1 e0 e1 s0 s1 o0 o1 (mc mm : mem Z) :
  a_flag flag -> 0 < n < 2 ^ 31 -> d1 <> 0 ->
  (forall j, 0 <= j < n -> 0 <= e0 + e1 + j * d1 < zlen mc) ->
  (forall j, 0 <= j < n -> 0 <= o0 + o1 + j * s1 < zlen mm) ->
  Forall (fun c => 0 <= c < 256) mc ->
  exists mc', bland_count junk flag (window_layout n d0 d1 e0 e1) (window_layout n s0 s1 o0 o1) mc mm = Ok mc' /\
    zlen mc' = zlen mc /\
    (forall j, 0 <= j < n -> exists c b, znth mc (e0 + e1 + j * d1) = Some c /\ znth mm (o0 + o1 + j * s1) = Some b /\
                                        znth mc' (e0 + e1 + j * d1) = Some (bump flag b c)) /\
    (forall c, (forall j, 0 <= j < n -> e0 + e1 + j * d1 <> c) -> znth mc' c = znth mc c).
Proof.
  intros Hfl Hn Hd1 Hc Hm Hby. unfold bland_count.
  destruct (row_scalar_op Z.land junk n s0 s1 o0 o1 mm flag) as (m1 & E1 & L1 & V1); [lia|auto|].
  rewrite E1. cbn [obind fst snd].
  destruct (row_scalar_op Z.quot junk n (1 * n) 1 0 0 m1 flag) as (m2 & E2 & L2 & V2); [lia|intros; lia|].
  rewrite <- dense_row_window in E2. rewrite E2. cbn [obind fst snd].
  destruct (row_accumulate (fun x y => to_uint8 (x + y)) junk n d0 d1 e0 e1 mc m2 Hn Hd1 Hc L2) as (a & m3 & E3 & E4 & L3 & V3 & O3).
  rewrite E3. cbn [obind]. rewrite E4. exists m3. split; [reflexivity|]. split; [exact L3|]. split; [|exact O3].
  intros j Hj. destruct (V3 j Hj) as (c & q & Q1 & Q2 & Q3). destruct (V2 j Hj) as (x & X1 & X2).
  replace (0 + 0 + j * 1) with j in X1 by ring. destruct (V1 j Hj) as (b & B1 & B2).
  exists c, b. split; [auto|]. split; [auto|]. rewrite Q3, bump_arith; [congruence|auto|].
  rewrite Forall_forall in Hby. apply Hby. unfold znth in Q1. destruct (_ <? 0); [discriminate|]. eapply nth_error_In; eauto.
Qed.

Lemma nth_error_all {V} (l m : list V) : (forall n, nth_error l n = nth_error m n) -> l = m.
Proof.
  revert m; induction l as [|x l IH]; intros [|y m] H; auto; try (specialize (H O); discriminate).
  f_equal; [specialize (H O); cbn in H; congruence|]. apply IH. intros n. exact (H (S n)).
Qed.

Lemma list_ext {V} (l m : mem V) : zlen l = zlen m -> (forall i, 0 <= i < zlen l -> znth l i = znth m i) -> l = m.
Proof.
  intros L H. apply nth_error_all. intros n. destruct (le_lt_dec (length l) n) as [Hn|Hn].
  - assert (length m <= n)%nat by (unfold zlen in L; lia).
    rewrite (proj2 (nth_error_None l n)), (proj2 (nth_error_None m n)) by auto. reflexivity.
  - specialize (H (Z.of_nat n)). unfold znth in H. replace (Z.of_nat n <? 0) with false in H by lia.
    rewrite Nat2Z.id in H. apply H. unfold zlen. lia.
Qed.

(** Counters hold bytes. *)
Definition bytes {F} (st : planes F) : Prop :=
  Forall (fun c => 0 <= c < 256) (p_low st) /\ Forall (fun c => 0 <= c < 256) (p_high st) /\
  Forall (fun c => 0 <= c < 256) (p_roll st).

Lemma upd_forall {V} (P : V -> Prop) (l : list V) n f : Forall P l -> (forall x, P x -> P (f x)) -> Forall P (upd l n f).
Proof.
  intros H Hf. revert n. induction H as [|x l Hx Hl IH]; intros [|n]; cbn; constructor; auto.
Qed.

Lemma znth_forall {V} (P : V -> Prop) (l : list V) i x : Forall P l -> znth l i = Some x -> P x.
Proof.
  intros H E. rewrite Forall_forall in H. apply H. unfold znth in E. destruct (_ <? 0); [discriminate|]. eapply nth_error_In; eauto.
Qed.

Lemma visit_bytes {F} fadd fdivz (spec : mem F) mask st a st' :
  bytes st -> cpu_visit fadd fdivz spec mask st a = Ok st' -> bytes st'.
Proof.
  intros (B1 & B2 & B3). unfold cpu_visit, load, zget, store.
  repeat match goal with
  | |- context [match znth ?m ?i with _ => _ end] => let E := fresh "E" in destruct (znth m i) eqn:E; cbn [obind]; [|discriminate]
  | |- context [if ?b then Ok _ else UB] => destruct b; cbn [obind]; [|discriminate]
  end.
  intros H. injection H as <-. repeat split; cbn; apply upd_forall; auto; intros _ _; apply bump_byte;
    first [eapply (znth_forall (fun c => 0 <= c < 256) (p_low st)); eauto; fail|eapply (znth_forall (fun c => 0 <= c < 256) (p_high st)); eauto; fail|eapply (znth_forall (fun c => 0 <= c < 256) (p_roll st)); eauto].
Qed.

Lemma run_bytes {F} fadd fdivz (spec : mem F) mask l : forall st st',
  bytes st -> cpu_run fadd fdivz spec mask st l = Ok st' -> bytes st'.
Proof.
  induction l as [|a l IH]; intros st st' B E; cbn in E; [injection E as <-; auto|].
  destruct (cpu_visit fadd fdivz spec mask st a) as [st1| |] eqn:E1; try discriminate.
  eapply IH; [|exact E]. eapply visit_bytes; eauto.
Qed.

Lemma cpu_run_app {F} fadd fdivz (spec : mem F) mask l1 l2 : forall st,
  cpu_run fadd fdivz spec mask st (l1 ++ l2)
  = (let! st' := cpu_run fadd fdivz spec mask st l1 in cpu_run fadd fdivz spec mask st' l2).
Proof.
  induction l1 as [|a l1 IH]; intros st; cbn; [reflexivity|].
  destruct (cpu_visit fadd fdivz spec mask st a); cbn; auto.
Qed.

Definition strict_fits (N : Z) (r : rate) (t k : Z) : Prop := fits (N - 1) r t k.

Lemma strict_fits_fits N r t k : strict_fits N r t k -> fits N r t k.
Proof. unfold strict_fits, fits. destruct (r_nonneg r); lia. Qed.

Lemma quad_eq (a b c d a' b' c' d' : Z) : a = a' -> b = b' -> c = c' -> d = d' -> (a, b, c, d) = (a', b', c', d').
Proof. congruence. Qed.

Section Step.
  Context {F : Type} (fadd : F -> F -> F) (fdivz : F -> Z -> F) (junkF : Z -> F) (junkZ : Z -> Z).
  Variables (fzero : F) (spec : mem F) (mask : mem Z) (ls lm : layout) (T N D : Z) (S : Z -> Z -> F) (M : Z -> Z -> Z).
  Hypothesis Hsp : holds ls spec T N S.
  Hypothesis Hm : holds lm mask T N M.
  Hypothesis HN : 0 <= N < 2 ^ 31.

  Lemma holds_layout {V} l (m : mem V) X : holds l m T N X -> l = Layout [T; N] [stride l 0; stride l 1] [0; 0].
  Proof.
    intros (E & W & O & _). destruct (layout2 l T N E W) as (s0 & s1 & o0 & o1 & E1 & E2).
    rewrite E2 in O. inversion_clear O as [|? ? O1 O2]. inversion_clear O2 as [|? ? O3 _]. subst o0 o1.
    unfold stride. rewrite E1. cbn [nth]. destruct l; cbn in *. congruence.
  Qed.

  Lemma dense2 : dense [D; N] = Layout [D; N] [1 * N; 1] [0; 0].
  Proof. reflexivity. Qed.

  (** One desmearing step of the slice kernel is the inner loop of the CPU kernel. *)
  Lemma bland_step_cpu d r t k (st : planes F) :
    sized (D * N) st -> bytes st -> 0 <= d < D -> 0 <= t < T -> 0 <= k -> signed_rate T r -> strict_fits N r t k ->
    bland_step fadd fdivz junkF junkZ N (dense [D; N]) ls lm spec mask d r t k st
    = cpu_run fadd fdivz spec mask st (cpu_inner N ls lm d r t k).
  Proof.
    intros Hsz Hby Hd Ht Hk Hsr Hfit.
    destruct (cpu_window N r t k) as ((ps & ss) & n) eqn:Ew.
    assert (HN63 : 0 <= N < 2 ^ 63) by lia.
    destruct (window_ok N T r t k ps ss n Hsr Ht Hk (strict_fits_fits _ _ _ _ Hfit) HN63 Ew) as (E1 & H1 & H2 & H3 & H4 & H5 & _).
    assert (Hn : 0 < n).
    { specialize (Hsr t Ht). unfold cpu_window, strict_fits, fits in *. destruct (r_nonneg r).
      - injection Ew as <- <- <-. lia.
      - destruct (_ <? 0) eqn:Es; injection Ew as <- <- <-; lia. }
    (* the slices *)
    assert (Esl : (if r_nonneg r then (0, N - (r_off r t + k), r_off r t + k, N)
        else if - r_span r + (r_off r t - k) <? 0
             then (- r_span r - (- r_span r + (r_off r t - k)), N,
                   - r_span r + (r_off r t - k) - (- r_span r + (r_off r t - k)), N + (r_off r t - k))
             else (- r_span r, N, - r_span r + (r_off r t - k), N + (r_off r t - k)))
        = (ps, ps + n, ss, ss + n)).
    { unfold cpu_window in Ew. destruct (r_nonneg r).
      - injection Ew as <- <- <-. apply quad_eq; ring.
      - destruct (_ <? 0) eqn:Es; injection Ew as <- <- <-; apply quad_eq; ring. }
    unfold bland_step. cbv zeta. rewrite Esl.
    rewrite (row_slice_ok (dense [D; N]) D N (1 * N) 1 0 0 d ps (ps + n) dense2 Hd) by lia.
    rewrite (row_slice_ok ls T N _ _ 0 0 t ss (ss + n) (holds_layout _ _ _ Hsp) Ht) by lia.
    rewrite (row_slice_ok lm T N _ _ 0 0 t ss (ss + n) (holds_layout _ _ _ Hm) Ht) by lia.
    cbn [obind]. replace (ps + n - ps) with n by lia. replace (ss + n - ss) with n by lia.
    set (base := 0 + d * (1 * N) + (0 + ps * 1)).
    destruct Hsz as (Z1 & Z2 & Z3 & Z4). destruct Hby as (B1 & B2 & B3).
    assert (Hpl : forall j, 0 <= j < n -> 0 <= base + j * 1 < D * N) by (intros; unfold base; nia).
    assert (Rs : forall j, 0 <= j < n -> znth spec (0 + t * stride ls 0 + (0 + ss * stride ls 1) + j * stride ls 1) = Some (S t (ss + j))).
    { intros j Hj. rewrite <- (holds_read _ _ _ _ _ Hsp t (ss + j)) by lia. f_equal. ring. }
    assert (Rm : forall j, 0 <= j < n -> znth mask (0 + t * stride lm 0 + (0 + ss * stride lm 1) + j * stride lm 1) = Some (M t (ss + j))).
    { intros j Hj. rewrite <- (holds_read _ _ _ _ _ Hm t (ss + j)) by lia. f_equal. ring. }
    assert (Hnn : 0 < n < 2 ^ 31) by lia.
    assert (Im : forall j, 0 <= j < n -> 0 <= 0 + t * stride lm 0 + (0 + ss * stride lm 1) + j * stride lm 1 < zlen mask).
    { intros j Hj. eapply znth_len. now apply Rm. }
    assert (Is : forall j, 0 <= j < n -> 0 <= 0 + t * stride ls 0 + (0 + ss * stride ls 1) + j * stride ls 1 < zlen spec).
    { intros j Hj. eapply znth_len. now apply Rs. }
    destruct (bland_count_ok junkZ flag_rolloff n (1 * N) 1 (0 + d * (1 * N)) (0 + ps * 1) (stride lm 0) (stride lm 1)
       (0 + t * stride lm 0) (0 + ss * stride lm 1) (p_roll st) mask) as (roll' & Er & Lr & Vr & Or);
      [exists 0; split; [lia|reflexivity]|auto|lia|fold base; intros; rewrite Z4; auto|auto|auto|].
    rewrite Er. cbn [obind].
    destruct (bland_count_ok junkZ flag_low_sk n (1 * N) 1 (0 + d * (1 * N)) (0 + ps * 1) (stride lm 0) (stride lm 1)
       (0 + t * stride lm 0) (0 + ss * stride lm 1) (p_low st) mask) as (low' & El & Ll & Vl & Ol);
      [exists 1; split; [lia|reflexivity]|auto|lia|fold base; intros; rewrite Z2; auto|auto|auto|].
    rewrite El. cbn [obind].
    destruct (bland_count_ok junkZ flag_high_sk n (1 * N) 1 (0 + d * (1 * N)) (0 + ps * 1) (stride lm 0) (stride lm 1)
       (0 + t * stride lm 0) (0 + ss * stride lm 1) (p_high st) mask) as (high' & Eh & Lh & Vh & Oh);
      [exists 2; split; [lia|reflexivity]|auto|lia|fold base; intros; rewrite Z3; auto|auto|auto|].
    rewrite Eh. cbn [obind].
    destruct (row_scalar_op fdivz junkF n (stride ls 0) (stride ls 1) (0 + t * stride ls 0) (0 + ss * stride ls 1) spec (r_desmear r))
      as (mq & Eq & Lq & Vq); [lia|auto|]. rewrite Eq. cbn [obind fst snd].
    destruct (row_accumulate fadd junkF n (1 * N) 1 (0 + d * (1 * N)) (0 + ps * 1) (p_sum st) mq Hnn) as (a & sum' & Ea & Ea2 & La & Va & Oa);
      [lia|fold base; intros; rewrite Z1; auto|auto|]. rewrite Ea. cbn [obind]. rewrite Ea2. cbn [obind].
    fold base in Vr, Or, Vl, Ol, Vh, Oh, Va, Oa.
    (* the CPU inner loop *)
    assert (HG : Forall (good_access spec mask (D * N)) (cpu_inner N ls lm d r t k)).
    { apply Forall_forall. intros x Hx.
      destruct (inner_good spec mask ls lm T N S M d D r t k x Hsp Hm HN63 Hsr Ht Hk (strict_fits_fits _ _ _ _ Hfit) Hd Hx)
        as (f & c & Hf & Hc & X1 & X2 & X3 & _).
      unfold good_access. rewrite X1, X2, X3. split; [nia|]. split; eapply znth_len; eapply holds_read; eauto. }
    destruct (run_ok fzero fadd fdivz spec mask (D * N) _ st (conj Z1 (conj Z2 (conj Z3 Z4))) HG) as (st2 & Ec & (Y1 & Y2 & Y3 & Y4) & Vc).
    rewrite Ec. f_equal.
    assert (Hmine : forall i, 0 <= i < D * N -> filter (fun x => a_plane x =? i) (cpu_inner N ls lm d r t k)
       = if (0 <=? i - base) && (i - base <? n)
         then [Access (r_desmear r) i (0 + t * stride ls 0 + (0 + ss * stride ls 1) + (i - base) * stride ls 1)
                      (0 + t * stride lm 0 + (0 + ss * stride lm 1) + (i - base) * stride lm 1)] else []).
    { intros i Hi. unfold cpu_inner. rewrite Ew, E1, filter_map_swap. cbn [a_plane].
      rewrite (filter_ext _ (fun j => j =? i - base)) by (intros j; unfold base; lia).
      rewrite filter_zrange_eq. destruct ((0 <=? i - base) && (i - base <? n)); [|reflexivity]. cbn [map].
      f_equal. f_equal; unfold base; ring. }
    assert (Hget : forall i, 0 <= i < D * N -> exists p l h o, at_cell st i p l h o).
    { intros i Hi. destruct (load_ok (p_sum st) i) as (p & _ & X1); [lia|]. destruct (load_ok (p_low st) i) as (l & _ & X2); [lia|].
      destruct (load_ok (p_high st) i) as (h & _ & X3); [lia|]. destruct (load_ok (p_roll st) i) as (o & _ & X4); [lia|].
      exists p, l, h, o. repeat split; auto. }
    assert (Hcell : forall i, 0 <= i < D * N ->
       znth sum' i = znth (p_sum st2) i /\ znth low' i = znth (p_low st2) i /\ znth high' i = znth (p_high st2) i /\ znth roll' i = znth (p_roll st2) i).
    { intros i Hi. destruct (Hget i Hi) as (p & l & h & o & Q). pose proof (Vc i p l h o Q) as (C1 & C2 & C3 & C4).
      cbv zeta in C1, C2, C3, C4. rewrite (Hmine i Hi) in C1, C2, C3, C4. destruct Q as (Q1 & Q2 & Q3 & Q4).
      rewrite C1, C2, C3, C4. destruct ((0 <=? i - base) && (i - base <? n)) eqn:Ein.
      - cbn [fold_left]. set (j := i - base) in *. assert (Hj : 0 <= j < n) by lia. replace i with (base + j * 1) in * by (unfold j; ring).
        unfold put_sum, put_flag. cbn [a_spec a_mask a_des]. rewrite (Rs j Hj), (Rm j Hj).
        destruct (Va j Hj) as (x & y & V1 & V2 & V3). destruct (Vq j Hj) as (s & V4 & V5).
        destruct (Vl j Hj) as (c1 & b1 & W1 & W2 & W3). destruct (Vh j Hj) as (c2 & b2 & W4 & W5 & W6).
        destruct (Vr j Hj) as (c3 & b3 & W7 & W8 & W9). rewrite V3, W3, W6, W9. rewrite (Rs j Hj) in V4. rewrite (Rm j Hj) in W2, W5, W8.
        repeat split; congruence.
      - cbn [fold_left]. assert (Hno : forall j, 0 <= j < n -> base + j * 1 <> i) by (intros; lia).
        rewrite Oa, Ol, Oh, Or by auto. auto. }
    destruct st2 as [s2 l2 h2 o2]. cbn [p_sum p_low p_high p_roll] in *.
    f_equal; apply list_ext; try congruence; intros i Hi; apply Hcell; congruence || lia.
  Qed.

  Lemma ofor_app {A X} (f : A -> X -> outcome X) l1 l2 : forall s, 
    ofor f (l1 ++ l2) s = (let! s' := ofor f l1 s in ofor f l2 s').
  Proof. induction l1 as [|x l1 IH]; intros s; cbn; [reflexivity|]. destruct (f x s); cbn; auto. Qed.

  (** A loop whose body is a segment of the CPU trace. *)
  Lemma ofor_run {A} (body : A -> planes F -> outcome (planes F)) (seg : A -> list access) l :
    (forall x, In x l -> Forall (good_access spec mask (D * N)) (seg x)) ->
    (forall x st, In x l -> sized (D * N) st -> bytes st -> body x st = cpu_run fadd fdivz spec mask st (seg x)) ->
    forall st, sized (D * N) st -> bytes st ->
      ofor body l st = cpu_run fadd fdivz spec mask st (flat_map seg l).
  Proof.
    induction l as [|x l IH]; intros Hg Hb st Hs By; cbn [ofor flat_map]; [reflexivity|].
    rewrite cpu_run_app, Hb by (cbn; auto).
    destruct (run_ok fzero fadd fdivz spec mask (D * N) (seg x) st Hs) as (st1 & E1 & S1 & _); [apply Hg; cbn; auto|].
    rewrite E1. cbn [obind]. apply IH; auto.
    - intros y Hy. apply Hg. cbn. auto.
    - intros y st' Hy. apply Hb. cbn. auto.
    - eapply run_bytes; eauto.
  Qed.
End Step.

Theorem bland_is_cpu {F} (fzero : F) fadd fdivz junkF junkZ ls lm (spec : mem F) (mask : mem Z) rates T N S M :
  holds ls spec T N S -> holds lm mask T N M -> 0 <= N < 2 ^ 31 ->
  Forall (signed_rate T) rates ->
  Forall (fun r => forall t k, 0 <= t < T -> 0 <= k < r_desmear r -> strict_fits N r t k) rates ->
  integrate_bland fzero fadd fdivz junkF junkZ ls lm spec mask rates
  = integrate_cpu fzero fadd fdivz ls lm spec mask rates.
Proof.
  intros Hsp Hm HN Hs Hf. unfold integrate_bland, integrate_cpu.
  assert (Esh : l_shape ls = [T; N]) by apply Hsp. rewrite Esh. set (D := zlen rates).
  assert (HD : 0 <= D) by (unfold D, zlen; lia).
  rewrite Forall_forall in Hs, Hf.
  assert (Hin : forall d r, In (d, r) (combine (zrange D) rates) -> 0 <= d < D /\ In r rates).
  { intros d r H. apply in_combine_zrange in H. split; [eapply znth_len; eauto|].
    unfold znth in H. destruct (d <? 0); [discriminate|]. eapply nth_error_In; eauto. }
  assert (HN63 : 0 <= N < 2 ^ 63) by lia.
  assert (Hseg : forall d r t k, 0 <= d < D -> In r rates -> 0 <= t < T -> 0 <= k < r_desmear r ->
     Forall (good_access spec mask (D * N)) (cpu_inner N ls lm d r t k)).
  { intros d r t k Hd Hr Ht Hk. apply Forall_forall. intros x Hx.
    destruct (inner_good spec mask ls lm T N S M d D r t k x Hsp Hm HN63 (Hs r Hr) Ht (proj1 Hk)
                (strict_fits_fits _ _ _ _ (Hf r Hr t k Ht Hk)) Hd Hx) as (f & c & Hfr & Hc & X1 & X2 & X3 & _).
    unfold good_access. rewrite X1, X2, X3. split; [nia|]. split; eapply znth_len; eapply holds_read; eauto. }
  assert (Hz : sized (D * N) (zero_planes fzero (D * N))) by (apply zero_sized; nia).
  assert (Hb : bytes (zero_planes fzero (D * N))).
  { unfold bytes, zero_planes. cbn. repeat split; apply Forall_forall; intros x Hx; apply in_map_iff in Hx as (? & <- & _); lia. }
  match goal with |- obind ?a _ = obind ?b _ => assert (E : a = b); [|now rewrite E] end.
  unfold cpu_trace. fold D.
  assert (EqT : forall (l : list (Z * rate)),
    flat_map (fun '(d, r) => flat_map (fun t => flat_map (fun k => cpu_inner N ls lm d r t k) (zrange (r_desmear r))) (zrange T)) l
    = flat_map (fun dr => flat_map (fun t => flat_map (fun k => cpu_inner N ls lm (fst dr) (snd dr) t k) (zrange (r_desmear (snd dr)))) (zrange T)) l).
  { intros l. apply flat_map_ext. intros (d & r). reflexivity. }
  rewrite EqT.
  apply (ofor_run fadd fdivz fzero spec mask N D); auto.
  - intros (d & r) H. destruct (Hin d r H) as (Hd & Hr). cbn [fst snd].
    apply Forall_flat_map, Forall_forall. intros t Ht. apply in_zrange in Ht.
    apply Forall_flat_map, Forall_forall. intros k Hk. apply in_zrange in Hk. auto.
  - intros (d & r) st H S1 B1. destruct (Hin d r H) as (Hd & Hr). cbn [fst snd].
    apply (ofor_run fadd fdivz fzero spec mask N D); auto.
    + intros t Ht. apply in_zrange in Ht. apply Forall_flat_map, Forall_forall. intros k Hk. apply in_zrange in Hk. auto.
    + intros t st1 Ht S2 B2. apply in_zrange in Ht.
      apply (ofor_run fadd fdivz fzero spec mask N D); auto.
      * intros k Hk. apply in_zrange in Hk. auto.
      * intros k st2 Hk S3 B3. apply in_zrange in Hk.
        eapply (bland_step_cpu fadd fdivz junkF junkZ fzero spec mask ls lm T N D S M); try assumption; try lia; [apply Hs; assumption|apply Hf; assumption].
Qed.
