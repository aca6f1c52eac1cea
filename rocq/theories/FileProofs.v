(** Hit files: round trip, truncation, damage. *)
From Coq Require Import Reals Lra ZArith Lia.
From Flocq Require Import Core BinarySingleNaN.
From Verif Require Import FileModel FileBits HitFacts DriftFloatProofs BaseFacts.
Local Open Scope Z_scope.
Local Open Scope list_scope.

(** Integers of the schema's type. *)
Definition int32 (z : Z) : Prop := - 2 ^ 31 <= z < 2 ^ 31.
Lemma int32_exact z : int32 z -> to_int32 z = z.
Proof. unfold int32, to_int32. intros. rewrite Z.mod_small; lia. Qed.
Lemma to_int32_int32 z : int32 (to_int32 z).
Proof. unfold int32, to_int32. pose proof (Z.mod_pos_bound (z + 2 ^ 31) (2 ^ 32) ltac:(lia)). lia. Qed.
Definition in_schema (g : signal) : Prop :=
  int32 (g_index g) /\ int32 (g_dsteps g) /\ int32 (g_dindex g) /\ int32 (g_coarse g) /\ int32 (g_beam g) /\ int32 (g_nsteps g).
Lemma to_signal_in_schema h : in_schema (to_signal h).
Proof. repeat split; cbn [to_signal g_index g_dsteps g_dindex g_coarse g_beam g_nsteps]; try apply to_int32_int32; unfold int32; lia. Qed.

Section Wire.
Variables pay32 pay64 : Z.
Hypotheses (Q32 : 0 < pay32 < 2 ^ 23) (Q64 : 0 < pay64 < 2 ^ 52).
Notation signal_words := (signal_words pay32 pay64).
Notation message_words := (message_words pay32 pay64).
Notation message := (message pay32 pay64).

Definition word64 (w : Z) : Prop := 0 <= w < 2 ^ 64.
Lemma signal_words_range g : Forall word64 (signal_words g).
Proof.
  pose proof (fun x => bits32_range pay32 x Q32) as B32. pose proof (fun x => bits64_range pay64 x Q64) as B64.
  repeat constructor; try apply B64; try (apply pack_range; auto using u32_range); try (pose proof (B32 (g_bins g)); unfold word64; lia).
Qed.
Lemma message_words_range g : Forall word64 (message_words g).
Proof.
  unfold FileModel.message_words. apply Forall_app. split; [|apply signal_words_range].
  repeat constructor; unfold word64; vm_compute; intuition discriminate.
Qed.
Lemma signal_words_back g : in_schema g -> signal_of_words (signal_words g) = g.
Proof.
  intros (I1 & I2 & I3 & I4 & I5 & I6).
  pose proof (fun x => bits32_range pay32 x Q32) as B32.
  unfold signal_of_words, signal_words, word. cbn [nth].
  rewrite !pack_low, !pack_high by auto using u32_range.
  rewrite !bits64_back, !bits32_back, !int32_u32, !int32_exact by auto.
  unfold low32. rewrite Z.mod_small by apply B32. rewrite bits32_back by auto. destruct g; reflexivity.
Qed.

Lemma take8 w r : firstn 8 (le 8 w ++ r) = le 8 w.
Proof. rewrite firstn_app, le_length. replace (8 - 8)%nat with 0%nat by lia. rewrite firstn_O, app_nil_r. apply firstn_all2. rewrite le_length; lia. Qed.
Lemma drop8 w r : skipn 8 (le 8 w ++ r) = r.
Proof. rewrite skipn_app, le_length. replace (8 - 8)%nat with 0%nat by lia. rewrite skipn_all2 by (rewrite le_length; lia). reflexivity. Qed.
Lemma words_of_flat ws r : Forall word64 ws -> words_of (List.length ws) (flat_map (le 8) ws ++ r) = ws.
Proof.
  induction 1 as [|w ws Hw _ IH]; [reflexivity|]. cbn [flat_map List.length words_of]. rewrite <- app_assoc.
  rewrite take8, drop8, IH. f_equal. apply of_le_word; auto.
Qed.
Lemma flat_le_length ws : List.length (flat_map (le 8) ws) = (8 * List.length ws)%nat.
Proof. induction ws; [reflexivity|]. cbn [flat_map List.length]. rewrite app_length, le_length, IHws. lia. Qed.
Lemma message_length g : List.length (message g) = 104%nat.
Proof. unfold FileModel.message. rewrite flat_le_length. reflexivity. Qed.

Lemma zlen_app {A} (l m : list A) : zlen (l ++ m) = zlen l + zlen m.
Proof. unfold zlen. rewrite app_length. lia. Qed.

Variable other : list Z -> option (signal * list Z).
Notation read_message := (read_message other).
Notation read_signals := (read_signals other).

(** The segment of a message. *)
Lemma table g r : firstn 8 (message g ++ r) = le 8 (pack 0 12).
Proof. unfold FileModel.message, FileModel.message_words. cbn [app flat_map]. rewrite <- !app_assoc. apply take8. Qed.
Lemma first4 l : firstn 4 (l : list Z) = firstn 4 (firstn 8 l).
Proof. rewrite firstn_firstn. reflexivity. Qed.
Lemma next4 l : firstn 4 (skipn 4 (l : list Z)) = skipn 4 (firstn 8 l).
Proof. rewrite firstn_skipn_comm. reflexivity. Qed.
Lemma after8 g r : skipn 8 (message g ++ r) = flat_map (le 8) (tl (message_words g)) ++ r.
Proof. unfold FileModel.message, FileModel.message_words. cbn [app flat_map tl]. rewrite <- !app_assoc. apply drop8. Qed.
Lemma skip104 g r : skipn 104 (message g ++ r) = r.
Proof. rewrite skipn_app, message_length. cbn [Nat.sub]. rewrite skipn_O, skipn_all2 by (rewrite message_length; lia). reflexivity. Qed.

Lemma segment_signal g : in_schema g -> plain (tl (message_words g)) = true /\ signal_of_segment (tl (message_words g)) = Some g.
Proof.
  intros Hg. set (seg := tl (message_words g)).
  assert (L12 : zlen seg = 12) by reflexivity.
  assert (F0 : follow seg 0 = Some (inr (1, 0, 2))).
  { unfold follow. change (znth seg 0) with (Some (struct_ptr 0 0 2)). rewrite L12. vm_compute. reflexivity. }
  assert (F1 : follow seg 1 = Some (inr (3, 9, 0))).
  { unfold follow. change (znth seg 1) with (Some (struct_ptr 1 9 0)). rewrite L12. vm_compute. reflexivity. }
  split.
  - unfold plain. rewrite F0. unfold is_struct. change (znth seg 0) with (Some (struct_ptr 0 0 2)).
    change (znth seg (1 + 0)) with (Some (struct_ptr 1 9 0)). vm_compute. reflexivity.
  - unfold signal_of_segment. rewrite F0. change (2 =? 0) with false. cbv iota. change (1 + 0) with 1. rewrite F1.
    f_equal. apply signal_words_back; auto.
Qed.

Lemma read_message_back g r : in_schema g -> read_message (message g ++ r) = Some (g, r).
Proof.
  intros Hg. unfold FileModel.read_message, segments.
  assert (L : zlen (message g ++ r) = 104 + zlen r) by (rewrite zlen_app; unfold zlen at 1; rewrite message_length; reflexivity).
  assert (Hr : 0 <= zlen r) by (unfold zlen; lia).
  rewrite L. rewrite (proj2 (Z.ltb_ge (104 + zlen r) 8)) by lia.
  rewrite first4, next4, table. change (of_le (firstn 4 (le 8 (pack 0 12)))) with 0. change (of_le (skipn 4 (le 8 (pack 0 12)))) with 12.
  cbv zeta. change ((0 + 1) mod 2 ^ 32) with 1. change (512 <=? 1) with false. change (1 =? 1) with true. change (8 * 2 ^ 20 <? 12) with false.
  cbv iota. cbn [negb]. rewrite (proj2 (Z.ltb_ge (104 + zlen r - 8) (8 * 12))) by lia.
  rewrite after8. change (Z.to_nat 12) with (List.length (tl (message_words g))). rewrite words_of_flat.
  2: { pose proof (message_words_range g) as F. inversion F; subst. assumption. }
  destruct (segment_signal g Hg) as (A & B). rewrite A, B. change (Z.to_nat (8 + 8 * 12)) with 104%nat. rewrite skip104. reflexivity.
Qed.

(** A message cut anywhere is not read. *)
Lemma read_message_cut g k : (k < 104)%nat -> read_message (firstn k (message g)) = None.
Proof.
  intros Hk. unfold FileModel.read_message, segments.
  assert (L : List.length (firstn k (message g)) = k) by (rewrite firstn_length, message_length; lia).
  unfold zlen. rewrite L. destruct (Z.ltb_spec (Z.of_nat k) 8); [reflexivity|].
  assert (T : firstn 8 (firstn k (message g)) = le 8 (pack 0 12)).
  { rewrite firstn_firstn, Nat.min_l by lia. rewrite <- (app_nil_r (message g)). apply table. }
  rewrite first4, next4, T. change (of_le (firstn 4 (le 8 (pack 0 12)))) with 0. change (of_le (skipn 4 (le 8 (pack 0 12)))) with 12.
  cbv zeta. change ((0 + 1) mod 2 ^ 32) with 1. change (512 <=? 1) with false. change (1 =? 1) with true. change (8 * 2 ^ 20 <? 12) with false.
  cbv iota. cbn [negb]. rewrite (proj2 (Z.ltb_lt (Z.of_nat k - 8) (8 * 12))) by lia. reflexivity.
Qed.

Lemma read_signals_app gs r fuel : Forall in_schema gs -> (List.length gs <= fuel)%nat ->
  read_signals fuel (flat_map message gs ++ r) = gs ++ read_signals (fuel - List.length gs) r.
Proof.
  intros H; revert fuel; induction H as [|g gs Hg _ IH]; intros fuel Hf; [cbn; rewrite Nat.sub_0_r; reflexivity|].
  destruct fuel as [|fuel]; cbn [List.length] in *; [lia|]. cbn [flat_map FileModel.read_signals]. rewrite <- app_assoc.
  rewrite read_message_back by auto. cbn [app Nat.sub]. f_equal. apply IH. lia.
Qed.
Lemma read_signals_none fuel r : read_message r = None -> read_signals fuel r = [].
Proof. intros H. destruct fuel; cbn [FileModel.read_signals]; [reflexivity|]. rewrite H. reflexivity. Qed.
Lemma read_message_empty : read_message [] = None. Proof. reflexivity. Qed.
Lemma flat_length gs : List.length (flat_map message gs) = (104 * List.length gs)%nat.
Proof. induction gs; [reflexivity|]. cbn [flat_map List.length]. rewrite app_length, message_length, IHgs. lia. Qed.

Lemma cut_messages gs k : exists j, firstn k (flat_map message gs) = flat_map message (firstn (k / 104) gs) ++ j /\ read_message j = None.
Proof.
  revert k; induction gs as [|g gs IH]; intros k.
  - exists []. rewrite !firstn_nil. split; [reflexivity|apply read_message_empty].
  - destruct (Nat.lt_ge_cases k 104) as [Hk|Hk].
    + exists (firstn k (message g)). rewrite Nat.div_small by auto. split; [|apply read_message_cut; auto].
      cbn [flat_map firstn app]. rewrite firstn_app, message_length. replace (k - 104)%nat with 0%nat by lia. cbn [firstn]. apply app_nil_r.
    + destruct (IH (k - 104)%nat) as (j & E & Hj). exists j. split; [|auto].
      assert (Ek : (k / 104 = S ((k - 104) / 104))%nat).
      { replace k with ((k - 104) + 1 * 104)%nat at 1 by lia. rewrite Nat.div_add by lia. lia. }
      rewrite Ek. cbn [firstn flat_map]. rewrite <- app_assoc, <- E.
      rewrite firstn_app, message_length. f_equal. apply firstn_all2. rewrite message_length; auto.
Qed.
Lemma truncated gs k fuel : Forall in_schema gs -> (List.length gs <= fuel)%nat ->
  read_signals fuel (firstn k (flat_map message gs)) = firstn (k / 104) gs.
Proof.
  intros H Hf. destruct (cut_messages gs k) as (j & E & Hj). rewrite E.
  assert (Forall in_schema (firstn (k / 104) gs)) by (rewrite <- (firstn_skipn (k / 104) gs) in H; apply Forall_app in H; tauto).
  rewrite read_signals_app; auto; [|rewrite firstn_length; lia]. rewrite read_signals_none by auto. apply app_nil_r.
Qed.
Lemma whole gs fuel : Forall in_schema gs -> (List.length gs <= fuel)%nat -> read_signals fuel (flat_map message gs) = gs.
Proof.
  intros H Hf. rewrite <- (app_nil_r (flat_map message gs)). rewrite read_signals_app by auto.
  rewrite read_signals_none by apply read_message_empty. apply app_nil_r.
Qed.
(** A damaged segment table. *)
Lemma damaged gs t rest fuel : Forall in_schema gs -> (List.length gs <= fuel)%nat ->
  List.length t = 8%nat -> 511 <= of_le (firstn 4 t) < 2 ^ 32 - 1 ->
  read_signals fuel (flat_map message gs ++ t ++ rest) = gs.
Proof.
  intros H Hf Ht Hc. rewrite read_signals_app by auto. rewrite read_signals_none; [apply app_nil_r|].
  unfold FileModel.read_message, segments. assert (L : zlen (t ++ rest) = 8 + zlen rest) by (rewrite zlen_app; unfold zlen at 1; rewrite Ht; reflexivity).
  assert (0 <= zlen rest) by (unfold zlen; lia).
  rewrite L, (proj2 (Z.ltb_ge (8 + zlen rest) 8)) by lia.
  replace (firstn 4 (t ++ rest)) with (firstn 4 t) by (rewrite firstn_app, Ht; cbn [Nat.sub]; rewrite firstn_O, app_nil_r; reflexivity).
  cbv zeta. rewrite Z.mod_small by lia. rewrite (proj2 (Z.leb_le 512 _)) by lia. reflexivity.
Qed.
End Wire.

(** ** Hits *)
Lemma each_map {A B C} (f : A -> B) (g : B -> outcome C) l : each g (map f l) = each (fun a => g (f a)) l.
Proof. induction l; cbn; [reflexivity|]. rewrite IHl. reflexivity. Qed.
Lemma each_ok {A B} (f : A -> outcome B) (g : A -> B) l : (forall a, In a l -> f a = Ok (g a)) -> each f l = Ok (map g l).
Proof. induction l as [|a l IH]; intros H; [reflexivity|]. cbn. rewrite (H a), IH; cbn; auto. intros b Hb. apply H. right; auto. Qed.

Lemma hits_file_flat p32 p64 hs : hits_file p32 p64 hs = flat_map (message p32 p64) (map to_signal hs).
Proof. unfold hits_file. rewrite flat_map_concat_map, flat_map_concat_map, map_map. reflexivity. Qed.
Lemma all_in_schema hs : Forall in_schema (map to_signal hs).
Proof. apply Forall_forall. intros g Hg. apply in_map_iff in Hg as (h & <- & _). apply to_signal_in_schema. Qed.

(** What the round trip makes of a hit whose width is a whole number of at most 2^24 bins. *)
Definition reread (h : hit) : hit :=
  Hit (to_int32 (h_index h)) (h_freq h) (widen (narrow (h_time h))) (widen (narrow (h_dur h))) (to_int32 (h_rate h)) (h_drift h)
      (widen (narrow (h_power h))) (to_int32 (h_steps h)) (h_snr h) (h_band h) (h_bins h) [] 0.
Lemma signal_round h : Z.abs (h_bins h) <= 2 ^ 24 -> of_signal (to_signal h) = Ok (reread h).
Proof. intros Hb. unfold of_signal, to_signal. cbn [g_bins]. rewrite steps_exact by auto. reflexivity. Qed.
Lemma reread_twice h : reread (reread h) = reread h.
Proof. unfold reread. cbn. rewrite !narrow_widen, !int32_again. reflexivity. Qed.

Section Hits.
Variables (p32 p64 : Z) (other : list Z -> option (signal * list Z)).
Hypotheses (Q32 : 0 < p32 < 2 ^ 23) (Q64 : 0 < p64 < 2 ^ 52).
Lemma fuel_enough hs : (List.length (map to_signal hs) <= S (List.length (hits_file p32 p64 hs)))%nat.
Proof. rewrite hits_file_flat, flat_length, map_length. lia. Qed.
Lemma read_hits_whole hs : Forall (fun h => Z.abs (h_bins h) <= 2 ^ 24) hs ->
  read_hits other (hits_file p32 p64 hs) = Ok (map reread hs).
Proof.
  intros H. unfold read_hits. rewrite hits_file_flat at 2. rewrite whole; auto using all_in_schema, fuel_enough. rewrite each_map.
  apply each_ok. intros h Hh. apply signal_round. rewrite Forall_forall in H. auto.
Qed.
Lemma read_hits_cut hs k : Forall (fun h => Z.abs (h_bins h) <= 2 ^ 24) hs ->
  read_hits other (firstn k (hits_file p32 p64 hs)) = Ok (map reread (firstn (k / 104) hs)).
Proof.
  intros H. unfold read_hits. rewrite hits_file_flat.
  destruct (cut_messages p32 p64 other (map to_signal hs) k) as (j & E & Hj). rewrite E.
  assert (Hs : Forall in_schema (firstn (k / 104) (map to_signal hs))).
  { rewrite firstn_map. apply all_in_schema. }
  rewrite read_signals_app; auto.
  2: { rewrite app_length, flat_length. lia. }
  rewrite read_signals_none by auto. rewrite app_nil_r, firstn_map, each_map. apply each_ok.
  intros h Hh. apply signal_round. rewrite Forall_forall in H. apply H. rewrite <- (firstn_skipn (k / 104) hs). apply in_or_app. auto.
Qed.
End Hits.
