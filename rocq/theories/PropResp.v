(** C82: the channel response. *)
From Verif Require Import FreqProofs PropFreq NdMemFacts NdProofs NdProofs2 RedProofs2 RedProofs3.
From Coq Require Import ZifyBool ZifyNat Lia Reals Lra.
Local Open Scope Z_scope.

Lemma slice_of_dense n start stop : 0 <= start <= stop -> stop <= n -> slice1 (dense [n]) 0 start stop 1 = Ok (Layout [stop - start] [1] [start]).
Proof.
  intros H1 H2. unfold slice1. change (size_axis (dense [n]) 0) with (Ok n). cbn [obind].
  replace (start <? 0) with false by lia. cbn [negb andb]. replace (n <? start) with false by lia.
  replace (stop <? 0) with false by lia. replace (n <? stop) with false by lia. replace (stop <? start) with false by lia. change (1 =? 0) with false. cbv iota.
  change (znth (l_strides (dense [n])) 0) with (Some 1). cbv iota. change (Z.to_nat 0) with 0%nat.
  change (l_shape (dense [n])) with [n]. change (l_strides (dense [n])) with [1]. change (l_offsets (dense [n])) with [0]. cbn [upd].
  rewrite Z.quot_1_r, !Z.mul_1_r, Z.add_0_l. reflexivity.
Qed.
Lemma in_range_1 n idx : in_range [n] idx -> exists i, idx = [i] /\ 0 <= i < n.
Proof. intros H. inversion H as [|? i ? r Hi H']; subst. inversion H'; subst. eauto. Qed.
Lemma in_range_2 n k idx : in_range [n; k] idx -> exists i j, idx = [i; j] /\ 0 <= i < n /\ 0 <= j < k.
Proof. intros H. inversion H as [|? i ? r Hi H']; subst. apply in_range_1 in H' as (j & -> & Hj). exists i, j. auto. Qed.
Lemma cell_1 n st off i : cell (Layout [n] [st] [off]) [i] = off + i * st.
Proof. unfold cell. cbn. lia. Qed.
Lemma znth_zeros {F} (z : F) n i : 0 <= i < n -> znth (map (fun _ => z) (zrange n)) i = Some z.
Proof. intros H. unfold znth. replace (i <? 0) with false by lia. rewrite nth_error_map, nth_error_zrange by exact H. reflexivity. Qed.
Lemma zlen_zeros {F} (z : F) n : 0 <= n -> zlen (map (fun _ => z) (zrange n)) = n.
Proof. intros H. pose proof (zrange_length n) as E. unfold zlen in *. rewrite map_length, E. lia. Qed.

(** The taps, then zeros. *)
Lemma pad_ok {F} (zero : F) total n (h : list F) : 0 <= n <= total -> n < 2 ^ 31 -> zlen h = n ->
  exists p, assign_slice (fun x => x) (Layout [n] [1] [0]) (dense [n]) (map (fun _ => zero) (zrange total)) h = Ok p /\ zlen p = total /\
    forall i, 0 <= i < total -> znth p i = if i <? n then znth h i else Some zero.
Proof.
  intros Hn Hs Hh.
  destruct (assign_slice_correct (fun x : F => x) (Layout [n] [1] [0]) (dense [n]) (map (fun _ => zero) (zrange total)) h) as (p & E & L & V & O).
  - split; reflexivity.
  - apply dense_wf.
  - split; [repeat constructor; lia|]. cbn [l_shape]. rewrite zprod_cons, zprod_nil. lia.
  - reflexivity.
  - intros idx Hr. apply in_range_1 in Hr as (i & -> & Hi). rewrite cell_1, zlen_zeros by lia. lia.
  - intros i j Hi Hj Ec. apply in_range_1 in Hi as (x & -> & _). apply in_range_1 in Hj as (y & -> & _). rewrite !cell_1 in Ec. f_equal. lia.
  - intros idx Hr. apply in_range_1 in Hr as (i & -> & Hi). unfold dense. cbn [row_major_loop]. rewrite Hh. cbn. unfold cell. cbn. lia.
  - exists p. split; [exact E|]. rewrite zlen_zeros in L by lia. split; [exact L|]. intros i Hi. destruct (i <? n) eqn:Ei.
    + destruct (V [i]) as (x & Ex & Ey); [repeat constructor; cbn; lia|]. unfold elt in *. rewrite cell_1 in Ey.
      replace (cell (dense [n]) [i]) with i in Ex by (unfold cell; cbn; lia). replace (0 + i * 1) with i in Ey by lia. congruence.
    + rewrite O; [apply znth_zeros; exact Hi|]. intros idx Hr. apply in_range_1 in Hr as (x & -> & Hx). rewrite cell_1. lia.
Qed.

(** The rows of the folded spectrum. *)
Lemma fold_view total fine C : 0 < fine -> fine mod 2 = 0 -> 1 <= C -> total = C * fine -> total < 2 ^ 31 ->
  (let! ls := slice1 (dense [total]) 0 (Z.quot fine 2) (total - Z.quot fine 2) 1 in reshape ls [Z.quot total fine - 1; fine]) =
  Ok (Layout [C - 1; fine] [fine; 1] [0; fine / 2]).
Proof.
  intros Hf H2 HC -> Ht. rewrite Z.quot_div_nonneg by lia. rewrite slice_of_dense by nia. cbn [obind]. rewrite Z.quot_mul by lia.
  unfold reshape, numel. cbn [l_shape l_strides l_offsets].
  rewrite (small_numel [C - 1; fine]) by (split; [repeat constructor; lia|]; rewrite !zprod_cons, zprod_nil; nia).
  rewrite (small_numel [_]) by (split; [repeat constructor; nia|]; rewrite !zprod_cons, zprod_nil; nia).
  rewrite !zprod_cons, zprod_nil. replace ((C - 1) * (fine * 1) =? (C * fine - fine / 2 - fine / 2) * 1) with true by nia. cbn [negb].
  replace (zlen [C - 1; fine] =? ndim _) with false by reflexivity. cbn -[Z.mul Z.add Z.sub Z.div]. unfold zsum. cbn -[Z.mul Z.add Z.sub Z.div]. rewrite Z.mul_1_l, Z.add_0_r. reflexivity.
Qed.
(** An odd channel width does not fit. *)
Lemma fold_view_odd total fine C : 0 < fine -> fine mod 2 = 1 -> 1 <= C -> total = C * fine -> total < 2 ^ 31 ->
  (let! ls := slice1 (dense [total]) 0 (Z.quot fine 2) (total - Z.quot fine 2) 1 in reshape ls [Z.quot total fine - 1; fine]) = Throw RuntimeError.
Proof.
  intros Hf H2 HC -> Ht. rewrite Z.quot_div_nonneg by lia. rewrite slice_of_dense by nia. cbn [obind]. rewrite Z.quot_mul by lia.
  unfold reshape, numel. cbn [l_shape l_strides l_offsets].
  rewrite (small_numel [C - 1; fine]) by (split; [repeat constructor; lia|]; rewrite !zprod_cons, zprod_nil; nia).
  rewrite (small_numel [_]) by (split; [repeat constructor; nia|]; rewrite !zprod_cons, zprod_nil; nia).
  rewrite !zprod_cons, zprod_nil. replace ((C - 1) * (fine * 1) =? (C * fine - fine / 2 - fine / 2) * 1) with false by nia. reflexivity.
Qed.

From Verif Require Import FlagProofs PropRed GelProofs.

Definition Rgtb (a b : R) : bool := if Rlt_dec b a then true else false.
(** The energy folded onto position [f] of a channel of width [fine], when the spectrum at distance [k] from the centre is [P k] and the filter
    spans [C] channels: what sits there and every whole channel further, half a channel in from either end. *)
Definition folded (P : Z -> R) (fine C f : Z) : R := rsum (fun k => P (fine / 2 + k * fine + f - C * fine / 2)) (C - 1).

Lemma fold_left_rsum f n : fold_left Rplus (map f (zrange n)) 0%R = rsum f n.
Proof. unfold rsum. apply fold_symmetric; intros; lra. Qed.
Lemma dft_power_ext N xs ys k : (forall i, 0 <= i < N -> sample xs i = sample ys i) -> dft_power N xs k = dft_power N ys k.
Proof.
  intros H. unfold dft_power. replace (dft_re N xs k) with (dft_re N ys k) by (apply rsum_ext; intros i Hi; rewrite H by exact Hi; reflexivity).
  replace (dft_im N xs k) with (dft_im N ys k) by (unfold dft_im; f_equal; apply rsum_ext; intros i Hi; rewrite H by exact Hi; reflexivity). reflexivity.
Qed.
Lemma sample_znth (xs : list R) i x : znth xs i = Some x -> sample xs i = x.
Proof. unfold znth, sample. destruct (i <? 0); [discriminate|]. intros H. apply nth_error_nth. exact H. Qed.
Lemma sample_past (xs : list R) i : zlen xs <= i -> sample xs i = 0%R.
Proof. unfold zlen, sample. intros H. apply nth_overflow. lia. Qed.
Lemma znth_there {A} (xs : list A) i : 0 <= i < zlen xs -> exists x, znth xs i = Some x.
Proof. unfold zlen, znth. intros H. replace (i <? 0) with false by lia. destruct (nth_error xs (Z.to_nat i)) eqn:E; [eauto|]. apply nth_error_None in E. lia. Qed.

Lemma column_enum n k f : 0 <= f < k -> enumerates [n; k] [0] [f] (map (fun i => [i; f]) (zrange n)).
Proof.
  intros Hf. split.
  - apply FinFun.Injective_map_NoDup; [intros a b E; congruence|apply zrange_nodup].
  - intros idx. rewrite in_map_iff. split.
    + intros (i & <- & Hi). apply in_zrange in Hi. split; [repeat constructor; lia|reflexivity].
    + intros (Hr & Ho). apply in_range_2 in Hr as (i & j & -> & Hi & Hj). exists i. split; [|apply in_zrange; exact Hi]. change (out_index [0] [i; j]) with [j] in Ho. congruence.
Qed.

Lemma expand_one n : 0 < n -> expand_shapes [n] [1] = Ok [n].
Proof.
  intros H. unfold expand_shapes. change (Nat.max _ _) with 1%nat. change (pad1 (rev [n]) 1) with [n]. change (pad1 (rev [1]) 1) with [1].
  cbn -[Z.eqb Z.max]. destruct (n =? 1) eqn:E1; cbn -[Z.max]; [f_equal; f_equal; lia|].
  f_equal. f_equal. lia.
Qed.
Lemma folded_nonneg N xs fine C f : (0 <= folded (dft_power N xs) fine C f)%R.
Proof.
  unfold folded, rsum. induction (zrange (C - 1)) as [|a l IH]; cbn [map fold_right]; [lra|]. apply Rplus_le_le_0_compat; [|exact IH].
  unfold dft_power. nra.
Qed.

(** With room after the spectrum, exact arithmetic and a filter of the length asked for, the response of an even channel width is the folded energy
    of the filter, normalised to its largest. *)
Theorem C82_response : forall rfft firdes lowest slack junk fine C taps,
  exact_rfft rfft -> (forall n c, 0 <= n -> zlen (firdes n c) = n) -> (lowest <= 0)%R -> 1 <= slack ->
  0 < fine -> fine mod 2 = 0 -> 2 <= C -> 0 <= taps <= fine -> C * fine < 2 ^ 31 -> dc_index (C * fine) = C * fine / 2 ->
  let E := folded (dft_power (C * fine) (firdes (taps * C) C)) fine C in
  exists out M, gen_response 0%R lowest Rplus Rmult Rdiv Rgtb rfft firdes slack junk fine C taps = Ok (dense [fine], out) /\
    zlen out = fine /\
    (forall f, 0 <= f < fine -> elt out (dense [fine]) [f] = Some (E f / M)%R /\ (0 <= E f <= M)%R) /\
    (exists f, 0 <= f < fine /\ E f = M).
Proof.
  intros rfft firdes lowest slack junk fine C taps Hr Hh Hlow Hs Hf H2 HC Ht HN Hdc E.
  assert (Hn : 0 <= taps * C <= C * fine) by nia.
  unfold gen_response, int_mul. replace ((- 2 ^ 31 <=? taps * C) && (taps * C <? 2 ^ 31)) with true by lia. cbn [obind].
  replace (taps * C <? 0) with false by lia. replace ((- 2 ^ 31 <=? C * fine) && (C * fine <? 2 ^ 31)) with true by lia. cbn [obind].
  replace (C * fine <=? 0) with false by lia. rewrite slice_of_dense by lia. cbn [obind]. rewrite Z.sub_0_r.
  destruct (pad_ok 0%R (C * fine) (taps * C) (firdes (taps * C) C)) as (p & -> & Lp & Vp); [lia|lia|apply Hh; lia|]. cbn [obind].
  destruct (C81_cpu_spectrum rfft slack junk (dense [C * fine]) p (C * fine)) as (sp & -> & Vs); auto; [lia|lia|lia|]. cbn [obind fst snd].
  assert (Lsp : C * fine <= zlen sp).
  { specialize (Vs (C * fine - 1)). unfold elt in Vs. replace (cell (dense [C * fine]) [C * fine - 1]) with (C * fine - 1) in Vs by (unfold cell; cbn; lia).
    apply znth_bounds in Vs; [lia|nia]. }
  pose proof (fold_view (C * fine) fine C Hf H2 ltac:(lia) eq_refl HN) as FV.
  destruct (slice1 (dense [C * fine]) 0 (Z.quot fine 2) (C * fine - Z.quot fine 2) 1) as [ls| |]; [|discriminate FV|discriminate FV]. cbn [obind] in *. rewrite FV.
  cbn [obind]. set (lv := Layout [C - 1; fine] [fine; 1] [0; fine / 2]).
  assert (Cv : forall k f, cell lv [k; f] = fine / 2 + k * fine + f) by (intros; unfold cell, lv; cbn; lia).
  assert (Rh : red_hyps sp lv [0]).
  { split; [split; reflexivity|]. split; [repeat constructor; cbn; lia|]. split; [split; [repeat constructor; intros []|repeat constructor; cbn; lia]|].
    split; [change (out_shape [0] (l_shape lv)) with [fine]; rewrite zprod_cons, zprod_nil; nia|].
    intros idx Hi. apply in_range_2 in Hi as (k & f & -> & Hk & Hf'). rewrite Cv. nia. }
  destruct (sum_any_order 0%R Rplus junk lv sp [0] Rh) as (su & -> & Vsu); [intros; lra|intros; lra|]. cbn [obind fst snd].
  change (out_shape [0] (l_shape lv)) with [fine] in *.
  assert (Es : forall f, 0 <= f < fine -> elt su (dense [fine]) [f] = Some (E f)).
  { intros f Hf'. rewrite (Vsu [f] (map (fun i => [i; f]) (zrange (C - 1))) (map (fun k => dft_power (C * fine) (firdes (taps * C) C) (fine / 2 + k * fine + f - C * fine / 2)) (zrange (C - 1)))).
    - rewrite fold_left_rsum. reflexivity.
    - repeat constructor; lia.
    - apply column_enum. lia.
    - unfold reads. apply Forall2_map_same. intros k Hk. apply in_zrange in Hk.
      unfold elt. rewrite Cv. specialize (Vs (fine / 2 + k * fine + f)). unfold elt in Vs.
      replace (cell (dense [C * fine]) [fine / 2 + k * fine + f]) with (fine / 2 + k * fine + f) in Vs by (unfold cell; cbn; lia). rewrite Vs by nia.
      f_equal. apply dft_power_ext. intros i Hi. rewrite firstn_all2 by (unfold zlen in Lp; lia). specialize (Vp i Hi). destruct (i <? taps * C) eqn:Ei.
      + destruct (znth_there (firdes (taps * C) C) i) as (x & X); [rewrite Hh; lia|]. rewrite X in Vp. rewrite (sample_znth _ _ _ X), (sample_znth _ _ _ Vp). reflexivity.
      + rewrite (sample_znth _ _ _ Vp), sample_past; [reflexivity|rewrite Hh; lia]. }
  assert (Lsu : fine <= zlen su).
  { specialize (Es (fine - 1)). unfold elt in Es. replace (cell (dense [fine]) [fine - 1]) with (fine - 1) in Es by (unfold cell; cbn; lia).
    apply znth_bounds in Es; lia. }
  assert (Ra : red_hyps su (dense [fine]) []).
  { split; [apply dense_wf|]. split; [repeat constructor; cbn; lia|]. split; [split; constructor|]. split; [reflexivity|].
    intros idx Hi. apply in_range_1 in Hi as (f & -> & Hf'). replace (cell (dense [fine]) [f]) with f by (unfold cell; cbn; lia). lia. }
  assert (G1 : forall a, Rgtb a a = false) by (intros a; unfold Rgtb; destruct (Rlt_dec a a); [lra|reflexivity]).
  assert (G2 : forall a b c, Rgtb a b = false -> Rgtb b c = false -> Rgtb a c = false)
    by (intros a b c; unfold Rgtb; destruct (Rlt_dec b a), (Rlt_dec c b), (Rlt_dec c a); try discriminate; lra).
  assert (G3 : forall a b, Rgtb a b = true -> Rgtb b a = false) by (intros a b; unfold Rgtb; destruct (Rlt_dec b a), (Rlt_dec a b); try discriminate; lra).
  destruct (C09_max R lowest Rgtb junk (dense [fine]) su [] Ra G1 G2 G3) as (mx & -> & Lmx & Vmx). cbn [obind fst snd].
  change (out_shape [] (l_shape (dense [fine]))) with [1] in *.
  destruct (Vmx [0]) as (M & EM & UM & AM); [repeat constructor; lia|].
  assert (UM' : forall f, 0 <= f < fine -> (E f <= M)%R).
  { intros f Hf'. specialize (UM [f] (E f) ltac:(repeat constructor; cbn; lia) eq_refl (Es f Hf')). unfold Rgtb in UM. destruct (Rlt_dec M (E f)); [discriminate|lra]. }
  assert (NE : forall f, (0 <= E f)%R) by (intros f; apply folded_nonneg).
  destruct (expand_is Rdiv junk (dense [fine], su) (dense [1], mx) [fine] [1] [fine] (fun i => E (hd 0 i)) (fun _ => M)) as (r & Er & Fr & Lr & Ir).
  - split; [apply dense_wf|]. split; [reflexivity|]. split; [apply Ra|]. intros idx Hi. apply in_range_1 in Hi as (f & -> & Hf'). apply Es. exact Hf'.
  - apply arr_is_dense; [exact Lmx|]. intros idx Hi. apply in_range_1 in Hi as (f & -> & Hf'). replace f with 0 by lia. exact EM.
  - repeat constructor; lia.
  - repeat constructor; lia.
  - apply expand_one. lia.
  - discriminate.
  - rewrite zprod_cons, zprod_nil. nia.
  - left. reflexivity.
  - left. reflexivity.
  - cbn [fst snd] in Er. destruct r as (lo, out). cbn [fst snd] in Fr, Lr. subst lo. exists out, M. split; [exact Er|]. split; [rewrite Lr, zprod_cons, zprod_nil; lia|]. split.
    + intros f Hf'. split; [|split; auto]. destruct Ir as (_ & _ & _ & Ir). cbn [fst snd] in Ir. rewrite Ir by (repeat constructor; lia).
      rewrite bidx_same by (repeat constructor; lia). reflexivity.
    + destruct AM as [Em|(idx & Hi & _ & Ei)].
      * exists 0. split; [lia|]. specialize (UM' 0 ltac:(lia)). specialize (NE 0). lra.
      * apply in_range_1 in Hi as (f & -> & Hf'). exists f. split; [exact Hf'|]. rewrite Es in Ei by exact Hf'. congruence.
Qed.
Print Assumptions C82_response.

(** An even number of channels folds about the centre of the channel: position [fine / 2] holds the filter's gain at its own centre and at whole
    channels from it, as far as [C / 2 - 1] channels either way. *)
Theorem C82_even_channels : forall rfft firdes lowest slack junk fine C taps,
  exact_rfft rfft -> (forall n c, 0 <= n -> zlen (firdes n c) = n) -> (lowest <= 0)%R -> 1 <= slack ->
  0 < fine -> fine mod 2 = 0 -> 2 <= C -> C mod 2 = 0 -> 0 <= taps <= fine -> C * fine < 2 ^ 31 -> dc_index (C * fine) = C * fine / 2 ->
  let P := dft_power (C * fine) (firdes (taps * C) C) in
  let E := fun f => rsum (fun k => P (f - fine / 2 + (k - (C / 2 - 1)) * fine)) (C - 1) in
  exists out M, gen_response 0%R lowest Rplus Rmult Rdiv Rgtb rfft firdes slack junk fine C taps = Ok (dense [fine], out) /\
    (forall f, 0 <= f < fine -> elt out (dense [fine]) [f] = Some (E f / M)%R /\ (0 <= E f <= M)%R) /\ (exists f, 0 <= f < fine /\ E f = M).
Proof.
  intros rfft firdes lowest slack junk fine C taps H1 H2 H3 H4 H5 H6 H7 Hev H8 H9 H10 P E.
  destruct (C82_response rfft firdes lowest slack junk fine C taps) as (out & M & R1 & _ & R2 & R3); auto. fold P in R2, R3.
  assert (EE : forall f, E f = folded P fine C f).
  { intros f. unfold E, folded. apply rsum_ext. intros k Hk. f_equal. replace (C * fine / 2) with (C / 2 * fine) by nia. nia. }
  exists out, M. split; [exact R1|]. split; [intros f Hf; rewrite EE; apply R2; exact Hf|]. destruct R3 as (f & Hf & Ef). exists f. split; [exact Hf|]. rewrite EE. exact Ef.
Qed.
Print Assumptions C82_even_channels.

(** With an odd number the fold is off by half a channel: the filter's centre lands on the first position. *)
Theorem C82_odd_channels_refuted : forall rfft firdes lowest slack junk fine C taps,
  exact_rfft rfft -> (forall n c, 0 <= n -> zlen (firdes n c) = n) -> (lowest <= 0)%R -> 1 <= slack ->
  0 < fine -> fine mod 2 = 0 -> 2 <= C -> C mod 2 = 1 -> 0 <= taps <= fine -> C * fine < 2 ^ 31 -> dc_index (C * fine) = C * fine / 2 ->
  let P := dft_power (C * fine) (firdes (taps * C) C) in
  let E := fun f => rsum (fun k => P (f + (k - C / 2) * fine)) (C - 1) in
  exists out M, gen_response 0%R lowest Rplus Rmult Rdiv Rgtb rfft firdes slack junk fine C taps = Ok (dense [fine], out) /\
    (forall f, 0 <= f < fine -> elt out (dense [fine]) [f] = Some (E f / M)%R /\ (0 <= E f <= M)%R) /\ (exists f, 0 <= f < fine /\ E f = M).
Proof.
  intros rfft firdes lowest slack junk fine C taps H1 H2 H3 H4 H5 H6 H7 Hev H8 H9 H10 P E.
  destruct (C82_response rfft firdes lowest slack junk fine C taps) as (out & M & R1 & _ & R2 & R3); auto. fold P in R2, R3.
  assert (EE : forall f, E f = folded P fine C f).
  { intros f. unfold E, folded. apply rsum_ext. intros k Hk. f_equal. replace (C * fine / 2) with (C / 2 * fine + fine / 2) by nia. nia. }
  exists out, M. split; [exact R1|]. split; [intros f Hf; rewrite EE; apply R2; exact Hf|]. destruct R3 as (f & Hf & Ef). exists f. split; [exact Hf|]. rewrite EE. exact Ef.
Qed.
Print Assumptions C82_odd_channels_refuted.

(** Without room after the spectrum there is never an answer, in any arithmetic. *)
Theorem C82_no_answer_refuted : forall F (zero lowest : F) add mul div gt rfft firdes junk fine C taps,
  half_length rfft -> (forall n c, 0 <= n -> zlen (firdes n c) = n) -> 0 < fine -> 1 <= C -> 0 <= taps <= fine -> C * fine < 2 ^ 31 ->
  gen_response zero lowest add mul div gt rfft firdes 0 junk fine C taps =
    if (fine mod 2 =? 1) && (C mod 2 =? 1) && (dc_index (C * fine) =? C * fine / 2) then Throw RuntimeError else UB.
Proof.
  intros F zero lowest add mul div gt rfft firdes junk fine C taps Hr Hh Hf HC Ht HN.
  assert (Hn : 0 <= taps * C <= C * fine) by nia.
  unfold gen_response, int_mul. replace ((- 2 ^ 31 <=? taps * C) && (taps * C <? 2 ^ 31)) with true by lia. cbn [obind].
  replace (taps * C <? 0) with false by lia. replace ((- 2 ^ 31 <=? C * fine) && (C * fine <? 2 ^ 31)) with true by nia. cbn [obind].
  replace (C * fine <=? 0) with false by nia. rewrite slice_of_dense by lia. cbn [obind]. rewrite Z.sub_0_r.
  destruct (pad_ok zero (C * fine) (taps * C) (firdes (taps * C) C)) as (p & -> & Lp & _); [lia|lia|apply Hh; lia|]. cbn [obind].
  destruct (C81_cpu_defined F add mul rfft junk (dense [C * fine]) p (C * fine)) as (_ & D & _); auto; [nia|lia|].
  assert (Em : (C * fine) mod 2 = (C mod 2) * (fine mod 2)).
  { rewrite Z.mul_mod by lia. pose proof (Z.mod_pos_bound C 2). pose proof (Z.mod_pos_bound fine 2). apply Z.mod_small. nia. }
  destruct ((fine mod 2 =? 1) && (C mod 2 =? 1) && (dc_index (C * fine) =? C * fine / 2)) eqn:Ec.
  - destruct (C81_cpu_shift F add mul rfft 0 junk (dense [C * fine]) p (C * fine)) as (out & -> & _); auto; [nia|lia|lia|rewrite Em; replace (C mod 2) with 1 by lia; lia|].
    cbn [obind fst]. pose proof (fold_view_odd (C * fine) fine C Hf ltac:(lia) HC eq_refl HN) as FV.
    destruct (slice1 (dense [C * fine]) 0 (Z.quot fine 2) (C * fine - Z.quot fine 2) 1) as [ls| |]; cbn [obind] in *; [rewrite FV; reflexivity|congruence|congruence].
  - rewrite D; [reflexivity|]. pose proof (Z.mod_pos_bound C 2). pose proof (Z.mod_pos_bound fine 2). rewrite Em. nia.
Qed.
Print Assumptions C82_no_answer_refuted.

(** An odd channel width throws whatever room there is. *)
Theorem C82_odd_width_refuted : forall F (zero lowest : F) add mul div gt rfft firdes slack junk fine C taps,
  half_length rfft -> (forall n c, 0 <= n -> zlen (firdes n c) = n) -> 1 <= slack -> 0 < fine -> fine mod 2 = 1 -> 1 <= C -> 0 <= taps <= fine -> C * fine < 2 ^ 31 ->
  dc_index (C * fine) = C * fine / 2 -> gen_response zero lowest add mul div gt rfft firdes slack junk fine C taps = Throw RuntimeError.
Proof.
  intros F zero lowest add mul div gt rfft firdes slack junk fine C taps Hr Hh Hs Hf H2 HC Ht HN Hdc.
  assert (Hn : 0 <= taps * C <= C * fine) by nia.
  unfold gen_response, int_mul. replace ((- 2 ^ 31 <=? taps * C) && (taps * C <? 2 ^ 31)) with true by lia. cbn [obind].
  replace (taps * C <? 0) with false by lia. replace ((- 2 ^ 31 <=? C * fine) && (C * fine <? 2 ^ 31)) with true by nia. cbn [obind].
  replace (C * fine <=? 0) with false by nia. rewrite slice_of_dense by lia. cbn [obind]. rewrite Z.sub_0_r.
  destruct (pad_ok zero (C * fine) (taps * C) (firdes (taps * C) C)) as (p & -> & Lp & _); [lia|lia|apply Hh; lia|]. cbn [obind].
  destruct (C81_cpu_shift F add mul rfft slack junk (dense [C * fine]) p (C * fine)) as (out & -> & _); auto; [nia|lia|lia|].
  cbn [obind fst]. pose proof (fold_view_odd (C * fine) fine C Hf ltac:(lia) HC eq_refl HN) as FV.
  destruct (slice1 (dense [C * fine]) 0 (Z.quot fine 2) (C * fine - Z.quot fine 2) 1) as [ls| |]; cbn [obind] in *; [rewrite FV; reflexivity|congruence|congruence].
Qed.
Print Assumptions C82_odd_width_refuted.

(** Four channels of two samples and one tap each, an exact transform: the hypotheses of the even case; three channels for the odd one. *)
Example C82_cases : exists rfft, exact_rfft rfft /\ half_length rfft /\ dc_index (4 * 2) = 4 * 2 / 2 /\ dc_index (3 * 2) = 3 * 2 / 2 /\ dc_index (3 * 3) = 3 * 3 / 2 /\
  (forall n c, 0 <= n -> zlen ((fun n (_ : Z) => map (fun _ => 1%R) (zrange n)) n c) = n).
Proof.
  destruct C81_cpu_case as (rfft & H1 & H2 & _). exists rfft. split; [exact H1|]. split; [exact H2|]. rewrite !dc_small by lia. repeat split.
  intros n _ Hn. apply zlen_zeros. exact Hn.
Qed.

(** The default 2048 channels of 2^20 samples, and anything as large, overflow. *)
Theorem C82_too_large_refuted : forall F (zero lowest : F) add mul div gt rfft firdes slack junk fine C taps,
  0 < fine -> 0 < C -> 0 <= taps -> 2 ^ 31 <= C * fine -> gen_response zero lowest add mul div gt rfft firdes slack junk fine C taps = UB.
Proof.
  intros F zero lowest add mul div gt rfft firdes slack junk fine C taps Hf HC Ht HN. unfold gen_response, int_mul.
  destruct ((- 2 ^ 31 <=? taps * C) && (taps * C <? 2 ^ 31)); [|reflexivity]. cbn [obind]. replace (taps * C <? 0) with false by nia.
  replace (C * fine <? 2 ^ 31) with false by lia. rewrite andb_false_r. reflexivity.
Qed.
Print Assumptions C82_too_large_refuted.
Example C82_too_large_case : 2 ^ 31 <= 2048 * 1048576. Proof. lia. Qed.
