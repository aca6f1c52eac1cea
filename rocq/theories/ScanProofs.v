(** Scans: channelization, slices, cached reads, devices. *)
From Verif Require Import BaseFacts H5Proofs.
From Verif Require Export ScanModel.
From Coq Require Import Reals Lra.
Local Open Scope Z_scope.
Local Open Scope list_scope.

(** ** Number of coarse channels *)
Section Infer.
Context {F : Type} (O : numops F).

Lemma try_common_product n common other c f :
  (forall c f, other = Ok (c, f) -> c * f = n) -> try_common n common other = Ok (c, f) -> c * f = n.
Proof.
  unfold try_common. intros H. destruct (Z.quot n common =? 0); [discriminate|].
  destruct (Z.eqb_spec ((common + Z.quot (Z.rem n common) (Z.quot n common)) * Z.quot n common) n) as [E|E].
  - intros [= <- <-]. lia.
  - apply H.
Qed.

Lemma infer_product n foff tsamp c f : infer_number_coarse_channels O n foff tsamp = Ok (c, f) -> c * f = n.
Proof.
  unfold infer_number_coarse_channels. destruct (find _ _) as [k|] eqn:E.
  - intros [= <- <-]. apply find_some in E. destruct E as [_ E]. unfold matches_known in E.
    apply andb_prop in E. destruct E as [E _]. apply andb_prop in E. destruct E as [E _]. lia.
  - apply try_common_product. intros c1 f1. apply try_common_product. intros c2 f2 [= <- <-]. lia.
Qed.

(** The split around a common size: possible exactly when the number of whole blocks divides the number of channels. *)
Lemma split_divides n common : 0 < common -> common <= n ->
  (common + Z.quot (Z.rem n common) (Z.quot n common)) * Z.quot n common = n <-> (Z.div n common | n).
Proof.
  intros Hc Hn. rewrite (Z.quot_div_nonneg n common) by lia. rewrite Z.rem_mod_nonneg by lia.
  assert (DM : n = common * (n / common) + n mod common) by (apply Z.div_mod; lia).
  pose proof (Z.mod_pos_bound n common Hc) as MB.
  assert (1 <= n / common) by (apply Z.div_le_lower_bound; lia).
  set (q := n / common) in *. set (r := n mod common) in *.
  clearbody q r. rewrite Z.quot_div_nonneg by lia. split.
  - intros E. exists (common + r / q). symmetry. exact E.
  - intros [k Hk]. assert (Hr : r = (k - common) * q) by nia.
    rewrite Hr, Z.div_mul by lia. nia.
Qed.

(** When is the result undefined (division by zero)? *)
Lemma infer_ub n foff tsamp : 0 <= n ->
  (infer_number_coarse_channels O n foff tsamp = UB <->
   find (matches_known O n foff tsamp) (known_channelizations O) = None /\
   (n < 2 ^ 18 \/ (~ (n / 2 ^ 18 | n) /\ n < 1000000))).
Proof.
  intros H0. unfold infer_number_coarse_channels. destruct (find _ _) as [k|].
  { split; [discriminate|]. now intros [? _]. }
  unfold try_common at 1.
  destruct (Z.eqb_spec (Z.quot n (2 ^ 18)) 0) as [Q|Q].
  { split; [intros _; split; [reflexivity|left]|reflexivity].
    rewrite Z.quot_div_nonneg in Q by lia. apply Z.div_small_iff in Q; lia. }
  assert (Hn : 2 ^ 18 <= n).
  { rewrite Z.quot_div_nonneg in Q by lia. destruct (Z_lt_le_dec n (2 ^ 18)); [|lia]. exfalso. apply Q, Z.div_small. lia. }
  destruct (Z.eqb_spec ((2 ^ 18 + Z.quot (Z.rem n (2 ^ 18)) (Z.quot n (2 ^ 18))) * Z.quot n (2 ^ 18)) n) as [S|S].
  { apply split_divides in S; try lia. split; [discriminate|]. intros [_ [?|[D _]]]; [lia|]. contradiction. }
  assert (D : ~ (n / 2 ^ 18 | n)).
  { intros D. apply S, split_divides; try lia. exact D. }
  unfold try_common.
  destruct (Z.eqb_spec (Z.quot n 1000000) 0) as [Q'|Q'].
  { split; [intros _; split; [reflexivity|right]|reflexivity].
    rewrite Z.quot_div_nonneg in Q' by lia. apply Z.div_small_iff in Q'; [split; [assumption|lia]|lia]. }
  assert (1000000 <= n).
  { rewrite Z.quot_div_nonneg in Q' by lia. destruct (Z_lt_le_dec n 1000000); [|lia]. exfalso. apply Q', Z.div_small. lia. }
  destruct (_ =? n); (split; [discriminate|]; intros [_ [?|[_ ?]]]; lia).
Qed.

(** Without undefined behaviour there is always a result. *)
Lemma infer_total n foff tsamp e : infer_number_coarse_channels O n foff tsamp <> Throw e.
Proof.
  unfold infer_number_coarse_channels, try_common. destruct (find _ _); [discriminate|].
  repeat (destruct (_ =? _); try discriminate).
Qed.
End Infer.

(** ** Slices *)
Section Slices.
Context {F P : Type} (O : numops F).
Notation scan := (scan F P).

(** Everything but the frequency of the first channel. *)
Definition same_channels (a b : scan) : Prop :=
  s_cache a = s_cache b /\ s_file a = s_file b /\ s_pipe a = s_pipe b /\ s_foff a = s_foff b /\ s_nchans a = s_nchans b /\
  s_fine a = s_fine b /\ s_num a = s_num b /\ s_start a = s_start b /\ s_steps a = s_steps b /\ s_about a = s_about b /\
  s_device a = s_device b.

Lemma slice_fields (s s' : scan) start count : slice_scan O s start count = Ok s' ->
  exists fine, s_fine s = Some fine /\ s_fine s' = Some fine /\
  s_num s' = (if count =? -1 then to_int32 (s_num s) - start else count) /\
  s_nchans s' = s_num s' * fine /\ s_start s' = s_start s + start /\
  s_fch1 s' = o_add O (s_fch1 s) (o_mul O (o_mul O (s_foff s) (o_of O fine)) (o_of O start)) /\
  s_cache s' = s_cache s /\ s_file s' = s_file s /\ s_pipe s' = s_pipe s /\ s_foff s' = s_foff s /\
  s_steps s' = s_steps s /\ s_about s' = s_about s /\ s_device s' = s_device s.
Proof.
  unfold slice_scan. destruct (s_fine s) as [fine|]; [|discriminate]. intros [= <-]. exists fine. cbn. repeat split.
Qed.

Lemma slice_slice (s s1 s2 : scan) a b c d :
  slice_scan O s a b = Ok s1 -> slice_scan O s1 c d = Ok s2 ->
  - 2 ^ 31 <= s_num s1 < 2 ^ 31 ->
  let d' := if d =? -1 then s_num s1 - c else d in
  d' <> -1 ->
  exists s', slice_scan O s (a + c) d' = Ok s' /\ same_channels s2 s'.
Proof.
  intros H1 H2 Hn d' Hd.
  destruct (slice_fields _ _ _ _ H1) as (fine & E1 & E2 & N1 & C1 & S1 & _ & K1 & F1 & P1 & O1 & T1 & A1 & D1).
  destruct (slice_fields _ _ _ _ H2) as (fine' & E3 & E4 & N2 & C2 & S2 & _ & K2 & F2 & P2 & O2 & T2 & A2 & D2).
  rewrite E2 in E3. injection E3 as <-.
  unfold slice_scan at 1. rewrite E1.
  destruct (Z.eqb_spec d' (-1)) as [E|_]; [contradiction|].
  eexists. split; [reflexivity|]. unfold same_channels. cbn.
  rewrite to_int32_small in N2 by assumption. fold d' in N2.
  rewrite ?K2, ?K1, ?F2, ?F1, ?P2, ?P1, ?O2, ?O1, ?T2, ?T1, ?A2, ?A1, ?D2, ?D1, ?S2, ?S1, ?C2, ?N2, ?E4.
  repeat split; lia.
Qed.

(** Channel i of a slice and channel start+i of the parent: same window of the file, same number. *)
Lemma slice_new_chan (s s' : scan) start count i c :
  slice_scan O s start count = Ok s' -> new_chan O s' i = Ok c ->
  (forall fine, s_fine s = Some fine -> - 2 ^ 31 <= fine * (start + i) < 2 ^ 31) ->
  exists c', new_chan O s (start + i) = Ok c' /\
    c_body c = c_body c' /\ c_foff c = c_foff c' /\ c_nchans c = c_nchans c' /\ c_steps c = c_steps c' /\
    c_about c = c_about c' /\ c_number c = c_number c' /\ c_device c = c_device c'.
Proof.
  intros H E B.
  destruct (slice_fields _ _ _ _ H) as (fine & E1 & E2 & _ & _ & S1 & _ & _ & F1 & _ & O1 & T1 & A1 & _).
  unfold new_chan in E |- *. rewrite F1, E2, A1, O1, S1 in E. rewrite E1.
  destruct (s_file s) as [f|]; [|discriminate].
  destruct (get_data_shape f) as [sh|e|]; cbn [obind] in E |- *; try discriminate.
  destruct (a_nbits (s_about s)); [|discriminate]. destruct (a_nifs (s_about s)); [|discriminate].
  destruct ((- 2 ^ 31 <=? fine * i) && (fine * i <? 2 ^ 31)); [|discriminate].
  specialize (B fine E1).
  assert (G : (- 2 ^ 31 <=? fine * (start + i)) && (fine * (start + i) <? 2 ^ 31) = true) by lia. rewrite G.
  destruct (zget sh 0) as [steps|e|]; cbn [obind] in E |- *; try discriminate.
  destruct (zget sh 1) as [feeds|e|]; cbn [obind] in E |- *; try discriminate.
  injection E as <-. eexists. split; [reflexivity|]. cbn.
  replace (i + (s_start s + start)) with (start + i + s_start s) by lia. repeat split.
Qed.
End Slices.

(** With exact arithmetic the frequencies agree as well. *)
Lemma slice_slice_fch1 {P} (s s1 s2 s' : scan R P) a b c d d' :
  slice_scan opsR s a b = Ok s1 -> slice_scan opsR s1 c d = Ok s2 -> slice_scan opsR s (a + c) d' = Ok s' ->
  s_fch1 s2 = s_fch1 s'.
Proof.
  intros H1 H2 H3.
  destruct (slice_fields _ _ _ _ _ H1) as (fine & E1 & E2 & _ & _ & _ & C1 & _ & _ & _ & O1 & _).
  destruct (slice_fields _ _ _ _ _ H2) as (fine2 & E3 & _ & _ & _ & _ & C2 & _).
  destruct (slice_fields _ _ _ _ _ H3) as (fine3 & E4 & _ & _ & _ & _ & C3 & _).
  rewrite E2 in E3. rewrite E1 in E4. injection E3 as <-. injection E4 as <-.
  rewrite C2, C3, C1, O1. cbn. rewrite plus_IZR. ring.
Qed.

Lemma slice_new_chan_fch1 {P} (s s' : scan R P) start count i c c' :
  slice_scan opsR s start count = Ok s' -> new_chan opsR s' i = Ok c -> new_chan opsR s (start + i) = Ok c' ->
  c_fch1 c = c_fch1 c'.
Proof.
  intros H E E'.
  destruct (slice_fields _ _ _ _ _ H) as (fine & E1 & E2 & _ & _ & S1 & C1 & _ & F1 & _ & O1 & T1 & A1 & _).
  unfold new_chan in E, E'. rewrite F1, E2, A1, O1 in E. rewrite E1 in E'.
  destruct (s_file s) as [f|]; [|discriminate].
  destruct (get_data_shape f) as [sh|e|]; cbn [obind] in E, E'; try discriminate.
  destruct (a_nbits (s_about s)); [|discriminate]. destruct (a_nifs (s_about s)); [|discriminate].
  destruct ((- 2 ^ 31 <=? fine * i) && (fine * i <? 2 ^ 31)); [|discriminate].
  destruct ((- 2 ^ 31 <=? fine * (start + i)) && (fine * (start + i) <? 2 ^ 31)); [|discriminate].
  destruct (zget sh 0) as [steps|e|]; cbn [obind] in E, E'; try discriminate.
  destruct (zget sh 1) as [feeds|e|]; cbn [obind] in E, E'; try discriminate.
  injection E as <-. injection E' as <-. cbn. rewrite C1. cbn. rewrite !mult_IZR, plus_IZR. ring.
Qed.

(** ** Frequency lookup, exact arithmetic *)
Lemma lookup_exact {P} (s : scan R P) fine i (y : R) :
  s_foff s <> 0%R -> s_nchans s = s_num s * fine -> 0 < fine -> s_num s <> 0 -> (0 <= y < IZR fine)%R ->
  - 2 ^ 31 <= i < 2 ^ 31 ->
  channel_with_frequency opsR s (s_fch1 s + s_foff s * (IZR (fine * i) + y))%R = Ok i.
Proof.
  intros Hf Hn Hfine Hnum Hy Hi. unfold channel_with_frequency. cbn.
  assert (Hn0 : IZR (s_num s) <> 0%R) by (apply not_0_IZR; lia).
  assert (Hf0 : (0 < IZR fine)%R) by (apply IZR_lt; lia).
  assert (E : ((s_fch1 s + s_foff s * (IZR (fine * i) + y) - s_fch1 s) / s_foff s / IZR (s_nchans s) * IZR (s_num s) =
               IZR i + y / IZR fine)%R).
  { rewrite Hn, !mult_IZR. field. repeat split; auto. lra. }
  rewrite E.
  assert (Z : Zfloor (IZR i + y / IZR fine) = i).
  { apply Zfloor_imp. rewrite plus_IZR. split.
    - assert (0 <= y / IZR fine)%R by (apply Rmult_le_pos; [lra|apply Rlt_le, Rinv_0_lt_compat; lra]). lra.
    - assert (y / IZR fine < 1)%R.
      { apply Rmult_lt_reg_r with (IZR fine); [lra|]. unfold Rdiv. rewrite Rmult_assoc, Rinv_l by lra. lra. }
      lra. }
  rewrite Z. unfold int_of. replace ((- 2 ^ 31 <=? i) && (i <? 2 ^ 31)) with true by lia. reflexivity.
Qed.
