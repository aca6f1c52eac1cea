(** Further theorems on files and the command line: C53, C56, C58, C71. *)
From Coq Require Import Reals Lra ZArith Lia String.
From Flocq Require Import Core BinarySingleNaN.
From Verif Require Import FileModel FileBits FileProofs FileScanProofs FileProofs2 HitFacts DriftFloatProofs BaseFacts PropFile.
From Verif Require Import ScanModel HitModel DatModel DatText DatProofs FloatErr.
Local Open Scope Z_scope.
Local Open Scope list_scope.

(** ** C53: damaged and larger messages *)
Lemma head8 {A} (a b r : list A) : List.length a = 4%nat -> List.length b = 4%nat ->
  firstn 4 (a ++ b ++ r) = a /\ firstn 4 (skipn 4 (a ++ b ++ r)) = b /\ skipn 8 (a ++ b ++ r) = r.
Proof.
  intros Ha Hb. destruct a as [|? [|? [|? [|? [|]]]]]; try discriminate. destruct b as [|? [|? [|? [|? [|]]]]]; try discriminate. repeat split.
Qed.
Lemma le4_back z : 0 <= z < 2 ^ 32 -> of_le (le 4 z) = z.
Proof.
  intros H. cbn [le of_le]. rewrite !Z.div_div by lia. change (256 * 256) with (2 ^ 16). change (2 ^ 16 * 256) with (2 ^ 24).
  pose proof (Z.div_mod z 256 ltac:(lia)). pose proof (Z.div_mod (z / 256) 256 ltac:(lia)) as D1. pose proof (Z.div_mod (z / 2 ^ 16) 256 ltac:(lia)) as D2.
  pose proof (Z.div_mod (z / 2 ^ 24) 256 ltac:(lia)) as D3. rewrite Z.div_div in D1, D2, D3 by lia. change (256 * 256) with (2 ^ 16) in D1. change (2 ^ 16 * 256) with (2 ^ 24) in D2.
  change (2 ^ 24 * 256) with (2 ^ 32) in D3. rewrite (Z.div_small z (2 ^ 32)) in D3 by lia. lia.
Qed.

Lemma flat_le_length ws : List.length (flat_map (le 8) ws) = (8 * List.length ws)%nat.
Proof. induction ws as [|w ws IH]; [reflexivity|]. cbn [flat_map]. rewrite app_length, IH. cbn [le List.length]. lia. Qed.
Lemma after_hits p32 p64 other hs r : 0 < p32 < 2 ^ 23 -> 0 < p64 < 2 ^ 52 -> Forall narrow_width hs ->
  read_hits other (hits_file p32 p64 hs ++ r) =
  omap (app (map reread hs)) (each of_signal (read_signals other (S (List.length (hits_file p32 p64 hs) + List.length r) - List.length hs) r)).
Proof.
  intros P Q N. unfold read_hits. rewrite app_length. rewrite hits_file_flat at 2. rewrite (read_signals_app p32 p64 P Q other); auto using all_in_schema.
  2: { rewrite hits_file_flat, flat_length, map_length. lia. }
  rewrite map_length. generalize (read_signals other (S (List.length (hits_file p32 p64 hs) + List.length r) - List.length hs) r). intros gs.
  induction N as [|h hs Hh _ IH]; [cbn; destruct (each of_signal gs); reflexivity|]. cbn [map app each]. rewrite (signal_round h Hh). cbn [obind]. rewrite IH.
  destruct (each of_signal gs); reflexivity.
Qed.
Lemma one_segment other size r : 0 <= size < 2 ^ 32 ->
  read_message other (le 4 0 ++ le 4 size ++ r) =
  if 8 * 2 ^ 20 <? size then None else if zlen r <? 8 * size then None else
  let seg := words_of (Z.to_nat size) r in
  if FileModel.plain seg then match signal_of_segment seg with Some g => Some (g, skipn (Z.to_nat (8 * size)) r) | None => None end else other (le 4 0 ++ le 4 size ++ r).
Proof.
  intros Hs. destruct (head8 (le 4 0) (le 4 size) r eq_refl eq_refl) as (E1 & E2 & E3). unfold read_message, segments. rewrite E1, E2, E3, (le4_back size Hs).
  change (of_le (le 4 0)) with 0. cbv zeta. change ((0 + 1) mod 2 ^ 32) with 1. change (512 <=? 1) with false. change (negb (1 =? 1)) with false. cbv iota.
  assert (L : zlen (le 4 0 ++ le 4 size ++ r) = 8 + zlen r) by (unfold zlen; rewrite !app_length; cbn [le List.length]; lia). rewrite L.
  assert (0 <= zlen r) by (unfold zlen; lia). rewrite (proj2 (Z.ltb_ge (8 + zlen r) 8)) by lia. replace (8 + zlen r - 8) with (zlen r) by lia.
  replace (Z.to_nat (8 + 8 * size)) with (8 + Z.to_nat (8 * size))%nat by lia. change (skipn (8 + Z.to_nat (8 * size)) (le 4 0 ++ le 4 size ++ r)) with (skipn (Z.to_nat (8 * size)) r). reflexivity.
Qed.

(** One segment of [size] words follows the hits.  The message is taken for the end of the file when the segment has more than 8 Mi words, and when
    its root leads out of it: [off] words ahead, [data] words and [ptrs] pointers. *)
Theorem C53_bad_message_hides_later_hits : forall p32 p64 other hs size words rest, 0 < p32 < 2 ^ 23 -> 0 < p64 < 2 ^ 52 -> Forall narrow_width hs -> 0 <= size < 2 ^ 32 ->
  (8 * 2 ^ 20 < size \/
   exists off data ptrs more, words = (4 * off + 2 ^ 32 * data + 2 ^ 48 * ptrs) :: more /\ zlen words = size /\ Forall (fun w => 0 <= w < 2 ^ 64) words /\
     0 <= off < 2 ^ 29 /\ 0 <= data < 2 ^ 16 /\ 0 <= ptrs < 2 ^ 16 /\ size < 1 + off + data + ptrs) ->
  exists hs', read_hits other (hits_file p32 p64 hs ++ le 4 0 ++ le 4 size ++ flat_map (le 8) words ++ rest) = Ok hs' /\ Forall2 comes_back hs hs'.
Proof.
  intros p32 p64 other hs size words rest P Q N Hs Hc. exists (map reread hs). split; [|apply reread_list]. rewrite after_hits by auto.
  rewrite read_signals_none; [cbn; rewrite app_nil_r; reflexivity|]. rewrite one_segment by auto.
  destruct Hc as [Hc|(off & data & ptrs & more & Ew & El & Fw & Ho & Hd & Hp & Hout)]; [rewrite (proj2 (Z.ltb_lt _ _) Hc); reflexivity|].
  destruct (8 * 2 ^ 20 <? size); [reflexivity|]. destruct (_ <? 8 * size); [reflexivity|]. cbv zeta.
  replace (Z.to_nat size) with (List.length words) by (unfold zlen in El; lia). rewrite words_of_flat by exact Fw.
  set (p := 4 * off + 2 ^ 32 * data + 2 ^ 48 * ptrs) in *.
  assert (Z0 : znth words 0 = Some p) by (rewrite Ew; reflexivity).
  assert (D4 : p / 4 = off + 2 ^ 30 * (data + 2 ^ 16 * ptrs)). { symmetry. apply Z.div_unique with 0; unfold p; lia. }
  assert (D32 : p / 2 ^ 32 = data + 2 ^ 16 * ptrs). { symmetry. apply Z.div_unique with (4 * off); unfold p; lia. }
  assert (D48 : p / 2 ^ 48 = ptrs). { symmetry. apply Z.div_unique with (4 * off + 2 ^ 32 * data); unfold p; lia. }
  assert (M4 : p mod 4 = 0). { symmetry. apply Z.mod_unique with (off + 2 ^ 30 * (data + 2 ^ 16 * ptrs)); unfold p; lia. }
  assert (M30 : (p / 4) mod 2 ^ 30 = off). { rewrite D4. symmetry. apply Z.mod_unique with (data + 2 ^ 16 * ptrs); lia. }
  assert (M16 : (p / 2 ^ 32) mod 2 ^ 16 = data). { rewrite D32. symmetry. apply Z.mod_unique with ptrs; lia. }
  assert (Hn : p =? 0 = false). { apply Z.eqb_neq. unfold zlen in El. rewrite Ew in El. cbn [List.length] in El. unfold p. lia. }
  assert (F0 : follow words 0 = None).
  { unfold follow. rewrite Z0, Hn, M30, M16, D48. replace (off <? 2 ^ 29) with true by (symmetry; apply Z.ltb_lt; lia). rewrite El.
    rewrite (proj2 (Z.leb_gt (0 + 1 + off + data + ptrs) size)) by lia. rewrite Bool.andb_false_r. reflexivity. }
  assert (Pl : FileModel.plain words = true) by (unfold FileModel.plain; rewrite F0; unfold is_struct; rewrite Z0, M4; reflexivity). rewrite Pl.
  unfold signal_of_segment. rewrite F0. reflexivity.
Qed.
Print Assumptions C53_bad_message_hides_later_hits.
Example C53_bad_message_case :
  let rest := hits_file (2 ^ 22) (2 ^ 51) [sample 200 4 0] in
  let bad := le 4 0 ++ le 4 2 ++ flat_map (le 8) [4 * 0 + 2 ^ 32 * 0 + 2 ^ 48 * 2; 0] in
  match read_hits (fun _ => None) (hits_file (2 ^ 22) (2 ^ 51) [sample 100 4 0] ++ bad ++ rest) with Ok [a] => is_z64 (h_time a) 100 = true | _ => False end.
Proof. vm_compute. reflexivity. Qed.

(** A hit in a segment with further words, up to 8 Mi in all, is read like any other, and so are the hits behind it. *)
Theorem C53_larger_messages_are_read : forall p32 p64 other hs h words hs2, 0 < p32 < 2 ^ 23 -> 0 < p64 < 2 ^ 52 -> Forall narrow_width (hs ++ h :: hs2) ->
  Forall (fun w => 0 <= w < 2 ^ 64) words -> 12 + zlen words <= 8 * 2 ^ 20 ->
  exists hs', read_hits other (hits_file p32 p64 hs ++ (le 4 0 ++ le 4 (12 + zlen words) ++ skipn 8 (hits_file p32 p64 [h]) ++ flat_map (le 8) words) ++ hits_file p32 p64 hs2) = Ok hs' /\
    Forall2 comes_back (hs ++ h :: hs2) hs'.
Proof.
  intros p32 p64 other hs h words hs2 P Q N Fw Hw. exists (map reread (hs ++ h :: hs2)). split; [|apply reread_list].
  apply Forall_app in N as (N1 & N2). apply Forall_cons_iff in N2 as (Nh & N2). rewrite after_hits by auto.
  set (msg := le 4 0 ++ le 4 (12 + zlen words) ++ skipn 8 (hits_file p32 p64 [h]) ++ flat_map (le 8) words).
  assert (Lw : 0 <= zlen words) by (unfold zlen; lia).
  assert (Ef : forall n, read_signals other (S n) (msg ++ hits_file p32 p64 hs2) = to_signal h :: read_signals other n (hits_file p32 p64 hs2)).
  { intros n. cbn [read_signals]. unfold msg. rewrite <- !app_assoc. rewrite one_segment by lia. rewrite (proj2 (Z.ltb_ge _ _) Hw).
    rewrite hits_file_flat. cbn [map flat_map]. rewrite app_nil_r. replace (skipn 8 (message p32 p64 (to_signal h))) with (flat_map (le 8) (tl (message_words p32 p64 (to_signal h)))).
    2: { pose proof (after8 p32 p64 (to_signal h) []) as A. rewrite !app_nil_r in A. symmetry; exact A. }
    set (tw := tl (message_words p32 p64 (to_signal h))). assert (Lt : List.length tw = 12%nat) by reflexivity.
    rewrite app_assoc, <- flat_map_app.
    assert (Lb : zlen (flat_map (le 8) (tw ++ words) ++ flat_map (message p32 p64) (map to_signal hs2)) = 8 * (12 + zlen words) + zlen (flat_map (message p32 p64) (map to_signal hs2))).
    { unfold zlen. rewrite app_length, flat_le_length, app_length, Lt. lia. }
    rewrite hits_file_flat. rewrite Lb. assert (0 <= zlen (flat_map (message p32 p64) (map to_signal hs2))) by (unfold zlen; lia). rewrite (proj2 (Z.ltb_ge _ (8 * (12 + zlen words)))) by lia.
    cbv zeta. assert (Ln : Z.to_nat (12 + zlen words) = List.length (tw ++ words)) by (rewrite app_length, Lt; unfold zlen; lia). rewrite Ln, words_of_flat.
    2: { apply Forall_app. split; [|exact Fw]. pose proof (message_words_range p32 p64 P Q (to_signal h)) as F. inversion F; subst. assumption. }
    assert (Ls : zlen (tw ++ words) = 12 + zlen words) by (unfold zlen; rewrite app_length, Lt; lia).
    assert (F0 : follow (tw ++ words) 0 = Some (inr (1, 0, 2))).
    { unfold follow. change (znth (tw ++ words) 0) with (Some (struct_ptr 0 0 2)). rewrite Ls. change (struct_ptr 0 0 2) with 562949953421312. 
      change (562949953421312 =? 0) with false. cbv iota zeta. change (0 + 1 + (if 562949953421312 / 4 mod 2 ^ 30 <? 2 ^ 29 then 562949953421312 / 4 mod 2 ^ 30 else 562949953421312 / 4 mod 2 ^ 30 - 2 ^ 30)) with 1.
      change ((562949953421312 / 2 ^ 32) mod 2 ^ 16) with 0. change (562949953421312 / 2 ^ 48) with 2. change (0 <=? 1) with true. cbn [andb]. rewrite (proj2 (Z.leb_le (1 + 0 + 2) _)) by lia. reflexivity. }
    assert (F1 : follow (tw ++ words) 1 = Some (inr (3, 9, 0))).
    { unfold follow. change (znth (tw ++ words) 1) with (Some (struct_ptr 1 9 0)). rewrite Ls. change (struct_ptr 1 9 0) with 38654705668.
      change (38654705668 =? 0) with false. cbv iota zeta. change (1 + 1 + (if 38654705668 / 4 mod 2 ^ 30 <? 2 ^ 29 then 38654705668 / 4 mod 2 ^ 30 else 38654705668 / 4 mod 2 ^ 30 - 2 ^ 30)) with 3.
      change ((38654705668 / 2 ^ 32) mod 2 ^ 16) with 9. change (38654705668 / 2 ^ 48) with 0. change (0 <=? 3) with true. cbn [andb]. rewrite (proj2 (Z.leb_le (3 + 9 + 0) _)) by lia. reflexivity. }
    assert (Pl : FileModel.plain (tw ++ words) = true).
    { unfold FileModel.plain. rewrite F0. unfold is_struct. change (znth (tw ++ words) 0) with (Some (struct_ptr 0 0 2)). change (znth (tw ++ words) (1 + 0)) with (Some (struct_ptr 1 9 0)). vm_compute. reflexivity. }
    rewrite Pl.
    assert (Sg : signal_of_segment (tw ++ words) = Some (to_signal h)).
    { destruct (segment_signal p32 p64 P Q (to_signal h) (to_signal_in_schema h)) as (_ & B). rewrite <- B. unfold signal_of_segment. rewrite F0. change (2 =? 0) with false. cbv iota. change (1 + 0) with 1. rewrite F1.
      fold tw. assert (G0 : follow tw 0 = Some (inr (1, 0, 2))) by (unfold follow; change (znth tw 0) with (Some (struct_ptr 0 0 2)); change (zlen tw) with 12; vm_compute; reflexivity).
      assert (G1 : follow tw 1 = Some (inr (3, 9, 0))) by (unfold follow; change (znth tw 1) with (Some (struct_ptr 1 9 0)); change (zlen tw) with 12; vm_compute; reflexivity).
      rewrite G0. change (2 =? 0) with false. cbv iota. change (1 + 0) with 1. rewrite G1. reflexivity. }
    rewrite Sg. f_equal. replace (Z.to_nat (8 * (12 + zlen words))) with (List.length (flat_map (le 8) (tw ++ words))) by (rewrite flat_le_length, app_length, Lt; unfold zlen; lia).
    rewrite skipn_app, skipn_all, Nat.sub_diag. reflexivity. }
  assert (E104 : List.length (hits_file p32 p64 hs) = (104 * List.length hs)%nat) by (rewrite hits_file_flat, flat_length, map_length; reflexivity).
  assert (Lm : (96 <= List.length msg)%nat).
  { unfold msg. rewrite !app_length, skipn_length. rewrite (hits_file_flat p32 p64 [h]), flat_length. cbn [map List.length]. lia. }
  rewrite app_length. set (n := (S (List.length (hits_file p32 p64 hs) + (List.length msg + List.length (hits_file p32 p64 hs2))) - List.length hs)%nat).
  assert (Hn : exists n', n = S n' /\ (List.length hs2 <= n')%nat).
  { exists (n - 1)%nat. assert (E2 : List.length (hits_file p32 p64 hs2) = (104 * List.length hs2)%nat) by (rewrite hits_file_flat, flat_length, map_length; reflexivity). unfold n. lia. }
  destruct Hn as (n' & -> & Hn'). rewrite Ef. rewrite (hits_file_flat p32 p64 hs2), (whole p32 p64 P Q other) by (auto using all_in_schema; rewrite map_length; exact Hn').
  change (to_signal h :: map to_signal hs2) with (map to_signal (h :: hs2)). rewrite each_map, (each_ok _ reread); [cbn [omap obind]; rewrite map_app; reflexivity|].
  intros a Ha. apply signal_round. destruct Ha as [<-|Ha]; [exact Nh|]. rewrite Forall_forall in N2. exact (N2 a Ha).
Qed.
Print Assumptions C53_larger_messages_are_read.
Example C53_larger_case :
  match read_hits (fun _ => None) ([0; 0; 0; 0; 14; 0; 0; 0] ++ skipn 8 (hits_file (2 ^ 22) (2 ^ 51) [sample 100 4 0]) ++ flat_map (le 8) [7; 8] ++ hits_file (2 ^ 22) (2 ^ 51) [sample 200 4 0]) with
  | Ok [a; b] => is_z64 (h_time a) 100 && is_z64 (h_time b) 200 = true | _ => False end.
Proof. vm_compute. reflexivity. Qed.

(** ** C58: failures *)
(** When a scan cannot be written, the output, with the hits of the scans before it, is left empty; later scans are not tried, no other file changes, and the
    program goes on as if nothing had happened. *)
Theorem C58_failed_write_empties_the_output : forall S (hits : S -> outcome (list hit)) save name path inputs before s later fmt fs bytes hs e,
  path <> ""%string -> path <> "-"%string -> path <> "stdout"%string ->
  Forall2 (fun s c => (exists hs, hits s = Ok hs) /\ save path fmt s = Ok c) before bytes -> hits s = Ok hs -> save path fmt s = Throw e ->
  exists fs', cli_loop hits save name inputs (before ++ s :: later) path fmt fs [] = Ok (false, fs', []) /\ look fs' path = Some [] /\
    forall q, q <> path -> look fs' q = look fs q.
Proof.
  intros S hits save name path inputs before s later fmt fs bytes hs e H1 H2 H3 F. revert inputs fs.
  induction F as [|b c before bytes ((bh & Hb) & Hs) _ IH]; intros inputs fs Hh He; cbn [app cli_loop].
  - rewrite Hh, (proj2 (String.eqb_neq _ _) H1). cbn [obind]. rewrite (proj2 (String.eqb_neq _ _) H2), (proj2 (String.eqb_neq _ _) H3). cbn [orb]. rewrite He.
    exists ((path, []) :: fs). split; [reflexivity|]. cbn [look]. rewrite String.eqb_refl. split; [reflexivity|]. intros q Hq. rewrite (proj2 (String.eqb_neq _ _) Hq). reflexivity.
  - rewrite Hb, (proj2 (String.eqb_neq _ _) H1). cbn [obind]. rewrite (proj2 (String.eqb_neq _ _) H2), (proj2 (String.eqb_neq _ _) H3). cbn [orb]. rewrite Hs.
    destruct (IH (tl inputs) ((path, c) :: fs) Hh He) as (fs' & A & B & C). exists fs'. split; [exact A|]. split; [exact B|].
    intros q Hq. rewrite C by exact Hq. cbn [look]. rewrite (proj2 (String.eqb_neq _ _) Hq). reflexivity.
Qed.
Print Assumptions C58_failed_write_empties_the_output.
(** When the hits of a scan cannot be found, the files are as the scans before it left them. *)
Theorem C58_failed_search_keeps_the_output : forall S (hits : S -> outcome (list hit)) save name path inputs before s later fmt fs bytes b e,
  path <> ""%string -> path <> "-"%string -> path <> "stdout"%string ->
  Forall2 (fun s c => (exists hs, hits s = Ok hs) /\ save path fmt s = Ok c) before (bytes ++ [b]) -> hits s = Throw e ->
  exists fs', cli_loop hits save name inputs (before ++ s :: later) path fmt fs [] = Ok (false, fs', []) /\ look fs' path = Some b /\
    forall q, q <> path -> look fs' q = look fs q.
Proof.
  intros S hits save name path inputs before s later fmt fs bytes b e H1 H2 H3 F He.
  enough (G : forall before cs, Forall2 (fun s c => (exists hs, hits s = Ok hs) /\ save path fmt s = Ok c) before cs -> forall inputs fs,
    exists fs', cli_loop hits save name inputs (before ++ s :: later) path fmt fs [] = Ok (false, fs', []) /\
      look fs' path = last (map Some cs) (look fs path) /\ forall q, q <> path -> look fs' q = look fs q).
  { destruct (G before (bytes ++ [b]) F inputs fs) as (fs' & A & B & C). exists fs'. split; [exact A|]. split; [|exact C]. rewrite B, map_app. cbn [map]. apply last_last. }
  clear F before bytes b inputs fs. intros before cs F. induction F as [|b c before bytes ((bh & Hb) & Hs) _ IH]; intros inputs fs; cbn [app cli_loop].
  - rewrite He. exists fs. repeat split.
  - rewrite Hb, (proj2 (String.eqb_neq _ _) H1). cbn [obind]. rewrite (proj2 (String.eqb_neq _ _) H2), (proj2 (String.eqb_neq _ _) H3). cbn [orb]. rewrite Hs.
    destruct (IH (tl inputs) ((path, c) :: fs)) as (fs' & A & B & C). exists fs'. split; [exact A|]. split.
    + rewrite B. cbn [look map]. rewrite String.eqb_refl. destruct bytes as [|b' bs]; [reflexivity|]. cbn [map].
      assert (Q : forall l (d d' x : option (list Z)), last (x :: l) d = last (x :: l) d') by (induction l; intros; cbn in *; auto).
      change (last (Some c :: Some b' :: map Some bs) (look fs path)) with (last (Some b' :: map Some bs) (look fs path)). apply Q.
    + intros q Hq. rewrite C by exact Hq. cbn [look]. rewrite (proj2 (String.eqb_neq _ _) Hq). reflexivity.
Qed.
Print Assumptions C58_failed_search_keeps_the_output.
Example C58_failures : let run hits := cli_loop hits (fun _ _ n => if n =? 9 then Throw OtherExn else Ok [n]) (fun i => i) ["a"; "b"; "c"]%string [1; 9; 3] "out" "capnp" [] [] in
  run (fun _ : Z => Ok []) = Ok (false, [("out", []); ("out", [1])]%string, []) /\ run (fun n => if n =? 9 then Throw OutOfRange else Ok []) = Ok (false, [("out", [1])]%string, []).
Proof. vm_compute. split; reflexivity. Qed.

(** ** C71: the channels of a scan file *)
Section Channels.
  Context {P : Type} (valid : Z -> bool) (hits_of : chan f64 P -> outcome (list hit)).
  Lemma serve_heap (s : scan f64 P) h a r : serve valid s h a = r -> forall b c0, nth_error h b = Some c0 ->
    exists c1, nth_error (snd (snd r)) b = Some c1 /\ with_device (s_device s) c1 = with_device (s_device s) c0.
  Proof.
    intros <- b c0 Hb. unfold serve. destruct (nth_error h a) as [ca|] eqn:Ea; [|exists c0; auto]. unfold chan_set_device.
    destruct (refused valid (s_device s)); [exists c0; auto|]. cbn [snd]. destruct (Nat.eq_dec a b) as [->|Nab].
    - rewrite Hb in Ea. injection Ea as <-. exists (with_device (s_device s) c0). split; [apply (nth_error_upd_same h b (fun _ => with_device (s_device s) c0) c0 Hb)|reflexivity].
    - exists c0. split; [|reflexivity]. rewrite nth_error_upd_other by exact Nab. exact Hb.
  Qed.
  Lemma messages_channels is : forall (s : scan f64 P) h acc ms sh', channel_messages valid hits_of s h is acc = (Ok ms, sh') ->
    exists ms', ms = acc ++ ms' /\ forall k i a c0, nth_error is k = Some i -> lookup (to_int32 (i + s_start s)) (s_cache s) = Some a -> nth_error h a = Some c0 ->
      exists c m, run_pipe (s_pipe s) (with_device (s_device s) c0) = Ok c /\ channel_message hits_of c = Ok m /\ nth_error ms' k = Some m.
  Proof.
    induction is as [|i is IH]; intros s h acc ms sh' H.
    - cbn in H. injection H as <- <-. exists []. split; [symmetry; apply app_nil_r|]. intros [|k]; discriminate.
    - cbn [channel_messages] in H. unfold and_then, peak_channel in H. destruct ((i <? 0) || (s_num s <? i)); [discriminate|].
      destruct (lookup (to_int32 (i + s_start s)) (s_cache s)) as [a|] eqn:El.
      + pose proof (serve_scan valid s h a) as Es. pose proof (serve_heap s h a _ eq_refl) as Eh. destruct (serve valid s h a) as [[c|e|] [s1 h1]] eqn:Ev; cbn in H, Es, Eh; try discriminate. subst s1.
        destruct (channel_message hits_of c) as [m|e|] eqn:Ec; try discriminate. destruct (IH s h1 _ _ _ H) as (ms' & E & G).
        exists (m :: ms'). split; [rewrite E, <- app_assoc; reflexivity|]. intros [|k] j b c0 Hj Hl Hc; cbn [nth_error] in *.
        * injection Hj as <-. rewrite El in Hl. injection Hl as <-. exists c, m. split; [|auto]. unfold serve in Ev. rewrite Hc in Ev. unfold chan_set_device in Ev.
          destruct (refused valid (s_device s)); [discriminate|]. injection Ev as Ev _. exact Ev.
        * destruct (Eh b c0 Hc) as (c1 & X1 & X2). rewrite <- X2. exact (G k j b c1 Hj Hl X1).
      + cbn in H. destruct (IH s h _ _ _ H) as (ms' & E & G). exists (no_channel :: ms'). split; [rewrite E, <- app_assoc; reflexivity|].
        intros [|k] j b c0 Hj Hl Hc; cbn [nth_error] in *; [congruence|]. exact (G k j b c0 Hj Hl Hc).
  Qed.
End Channels.

(** Every channel in the scan's map comes back with the frequencies, source, position and times of the channel that the scan serves, i.e. the channel [c0] on the
    scan's device after the transforms of the scan; counts and telescope are kept as 32 bit integers, the number of bits is always 32, and the channel number is
    lost. *)
Theorem C71_channels_come_back : forall P valid (hits_of : chan f64 P -> outcome (list hit)) (hold : list hit -> P) (s : scan f64 P) h m sh1 s' (h' : heap f64 P), scan_message valid hits_of s h = (Ok m, sh1) -> scan_of_message hold m = Ok (s', h') ->
  forall i a c0, 0 <= i < to_int32 (s_num s) -> lookup (to_int32 (i + s_start s)) (s_cache s) = Some a -> nth_error h a = Some c0 ->
  exists c c' tel, run_pipe (s_pipe s) (with_device (s_device s) c0) = Ok c /\ nth_error h' (Z.to_nat i) = Some c' /\
    c_fch1 c' = c_fch1 c /\ c_foff c' = c_foff c /\ low_part (c_nchans c) (c_nchans c') /\ low_part (c_steps c) (c_steps c') /\
    a_source (c_about c') = a_source (c_about c) /\ a_raj (c_about c') = a_raj (c_about c) /\ a_dej (c_about c') = a_dej (c_about c) /\
    a_tsamp (c_about c') = a_tsamp (c_about c) /\ a_tstart (c_about c') = a_tstart (c_about c) /\
    a_telescope (c_about c) = Some tel /\ a_telescope (c_about c') = Some (to_int32 tel) /\ a_nbits (c_about c') = Some 32 /\ c_number c' = 0 /\ c_device c' = cpu.
Proof.
  intros P valid hits_of hold s h m sh1 s' h' H R i a c0 Hi Hl Hc. destruct (scan_written valid hits_of _ _ _ _ H) as (H0 & M & _).
  destruct (messages_channels valid hits_of _ _ _ _ _ _ M) as (ms' & E & G). cbn [app] in E. subst ms'.
  destruct (G (Z.to_nat i) i a c0) as (c & cm & G1 & G2 & G3); auto.
  { unfold zrange. rewrite nth_error_map, (nth_error_nth' (seq 0 (Z.to_nat (to_int32 (s_num s)))) 0%nat) by (rewrite seq_length; lia). rewrite seq_nth by lia. cbn [option_map]. f_equal. lia. }
  unfold scan_of_message in R. destruct (each (channel_of_message hold) (sm_channels m)) as [cs| |] eqn:Ec; try discriminate. cbn [obind] in R.
  assert (Eh : h' = cs). { destruct (scan_of_channels _ cs) as [s0| |]; try discriminate. cbn [obind] in R. injection R as _ <-. reflexivity. }
  subst cs. apply each_Forall2 in Ec.
  assert (X : exists c', nth_error h' (Z.to_nat i) = Some c' /\ channel_of_message hold cm = Ok c').
  { clear -Ec G3. revert G3. generalize (Z.to_nat i). induction Ec as [|x y l l' Ha _ IH]; intros [|k] E; cbn [nth_error] in *; try discriminate; eauto. injection E as ->. eauto. }
  destruct X as (c' & X1 & X2). unfold channel_message in G2.
  destruct (a_dej (c_about c)) as [dej|] eqn:Ed; [|discriminate]. destruct (a_raj (c_about c)) as [raj|] eqn:Er; [|discriminate]. destruct (a_telescope (c_about c)) as [tel|] eqn:Et; [|discriminate].
  cbn [value obind] in G2. destruct (hits_of c) as [hs| |]; try discriminate. cbn [obind] in G2. injection G2 as <-.
  unfold channel_of_message in X2. cbn [cm_hits cm_md] in X2. destruct (each of_signal (map to_signal hs)) as [hs'| |]; try discriminate. cbn [obind] in X2. injection X2 as <-.
  exists c. eexists. exists tel. rewrite G1. split; [reflexivity|]. split; [exact X1|].
  cbn [c_fch1 c_foff c_nchans c_steps c_about a_source a_raj a_dej a_tsamp a_tstart a_telescope a_nbits c_number c_device b_fch1 b_foff b_nchans b_nsteps b_source b_dec b_ra b_telescope b_tsamp b_tstart].
  repeat split; auto; apply low_part_int32.
Qed.
Print Assumptions C71_channels_come_back.
Example C71_channels_case : match fst (scan_message (fun _ => true) simple_hits (sample_scan false) sample_heap) with
  | Ok m => match scan_of_message (fun hs => hs) m with
            | Ok (_, [a; b]) => f64eq (c_fch1 a) (f64_of_Z 8421) && f64eq (c_fch1 b) (f64_of_Z 8420) &&
                match a_raj (c_about b), a_dej (c_about b) with Some x, Some y => f64eq x (f64_of_Z 17) && f64eq y (f64_of_Z 12) | _, _ => false end && (c_number b =? 0) = true
            | _ => False end
  | _ => False end.
Proof. vm_compute. reflexivity. Qed.

(** ** C56: coordinates out of range and widths *)
Local Open Scope R_scope.
Definition beyond (b : R) (x : f64) : Prop := is_finite x = false \/ b <= Rabs (B2R x).
Lemma rd64_abs_lower b v : generic_format radix2 fexp64 b -> b <= Rabs v -> b <= Rabs (rd64 v).
Proof. intros F H. unfold rd64. apply abs_round_ge_generic; auto. apply valid64. apply valid_rnd_N. Qed.
Lemma beyond_mul b x n : (1 <= n <= 100)%Z -> generic_format radix2 fexp64 (b * IZR n) -> beyond b x -> beyond (b * IZR n) (mul64 x (f64_of_Z n)).
Proof.
  intros Hn Fb Hx. destruct (int64_ok n ltac:(lia)) as (I1 & I2). pose proof (Bmult_correct 53 1024 _ _ mode_NE x (f64_of_Z n)) as C. fold (mul64 x (f64_of_Z n)) in C.
  rewrite I1 in C. rewrite Bool.andb_true_r in C. destruct Hx as [Hx|Hx].
  - left. destruct (Rlt_bool _ _).
    + destruct C as (_ & C & _). rewrite C. exact Hx.
    + destruct (mul64 x (f64_of_Z n)); try reflexivity; discriminate C.
  - rewrite I2 in C. change (round radix2 _ _ (B2R x * IZR n)) with (rd64 (B2R x * IZR n)) in C. destruct (Rlt_bool _ _).
    + right. destruct C as (-> & _). apply rd64_abs_lower; [exact Fb|]. rewrite Rabs_mult, (Rabs_pos_eq (IZR n)) by (apply IZR_le; lia). apply Rmult_le_compat_r; [apply IZR_le; lia|exact Hx].
    + left. destruct (mul64 x (f64_of_Z n)); try reflexivity; discriminate C.
Qed.
Lemma beyond_div b x n : (1 <= n <= 100)%Z -> generic_format radix2 fexp64 b -> beyond (b * IZR n) x -> beyond b (div64 x (f64_of_Z n)).
Proof.
  intros Hn Fb Hx. destruct (int64_ok n ltac:(lia)) as (I1 & I2). assert (Pn : 0 < IZR n) by (apply IZR_lt; lia).
  pose proof (Bdiv_correct 53 1024 _ _ mode_NE x (f64_of_Z n) ltac:(rewrite I2; lra)) as C. fold (div64 x (f64_of_Z n)) in C. destruct Hx as [Hx|Hx].
  - left. destruct (Rlt_bool _ _).
    + destruct C as (_ & C & _). rewrite C. exact Hx.
    + destruct (div64 x (f64_of_Z n)); try reflexivity; discriminate C.
  - rewrite I2 in C. change (round radix2 _ _ (B2R x / IZR n)) with (rd64 (B2R x / IZR n)) in C. destruct (Rlt_bool _ _).
    + right. destruct C as (-> & _). apply rd64_abs_lower; [exact Fb|]. unfold Rdiv. rewrite Rabs_mult, (Rabs_pos_eq (/ IZR n)) by (apply Rlt_le, Rinv_0_lt_compat, Pn).
      apply Rmult_le_reg_r with (IZR n); [exact Pn|]. rewrite Rmult_assoc, Rinv_l, Rmult_1_r by lra. exact Hx.
    + left. destruct (div64 x (f64_of_Z n)); try reflexivity; discriminate C.
Qed.
(** What [trunc_int] does with large numbers. *)
Lemma trunc_far (x : f64) : is_finite x = false \/ IZR (2 ^ 31) <= Rabs (B2R x) -> trunc_int x = UB \/ trunc_int x = Ok (- 2 ^ 31)%Z /\ (Rabs (B2R x) < IZR (2 ^ 31 + 1))%R /\ is_finite x = true.
Proof.
  intros [H|H]; [left; destruct x as [s|s| |s m e Hm]; try discriminate H; [destruct s|]; reflexivity|].
  destruct x as [s|s| |s m e Hm]; try (left; reflexivity).
  - exfalso. cbn [B2R] in H. rewrite Rabs_R0 in H. apply (le_IZR (2 ^ 31) 0) in H. apply H. reflexivity.
  - unfold trunc_int. cbn [trunc_to_int64]. rewrite floor_parts by lia. cbn [B2R is_finite] in *. rewrite <- F2R_Zabs in H |- *.
    replace (Z.abs (cond_Zopp s (Z.pos m))) with (Z.pos m) in * by (destruct s; reflexivity). set (v := F2R (Float radix2 (Z.pos m) e)) in *. clearbody v.
    assert (Hf : (2 ^ 31 <= Zfloor v)%Z) by (apply Zfloor_lub; exact H). pose proof (Zfloor_ub v) as U. set (f := Zfloor v) in *. clearbody f.
    destruct (_ && _)%bool eqn:E1; [|left; reflexivity]. cbn [obind]. destruct ((- 2 ^ 31 <=? cond_Zopp s f) && (cond_Zopp s f <? 2 ^ 31))%Z%bool eqn:E; [|left; reflexivity].
    right. apply Bool.andb_true_iff in E as (A & B). apply Z.leb_le in A. apply Z.ltb_lt in B. destruct s; cbn [cond_Zopp] in *; [|lia].
    assert (f = 2 ^ 31)%Z as -> by lia. split; [reflexivity|]. split; [|reflexivity]. rewrite plus_IZR. exact U.
Qed.
(** A coordinate whose whole part is not an int (for declinations also the smallest int) is undefined behaviour; right ascensions are multiplied and divided by
    15 first. *)
Theorem C56_out_of_range_refuted (x : f64) : is_finite x = true ->
  (IZR (2 ^ 31) <= Rabs (B2R x) -> degrees x = UB) /\ (IZR (2 ^ 31 + 1) <= Rabs (B2R x) -> archours x = UB).
Proof.
  intros Hf. split; intros H.
  - unfold degrees, degrees_parts. destruct (trunc_far x (or_intror H)) as [->|(-> & _)]; reflexivity.
  - unfold archours, archours_parts. assert (F1 : generic_format radix2 fexp64 (IZR (2 ^ 31 + 1))).
    { destruct (f64_of_Z_ok (2 ^ 31 + 1) ltac:(lia)) as (<- & _). apply format64. }
    assert (F15 : generic_format radix2 fexp64 (IZR (2 ^ 31 + 1) * IZR 15)). { rewrite <- mult_IZR. destruct (f64_of_Z_ok ((2 ^ 31 + 1) * 15) ltac:(lia)) as (<- & _). apply format64. }
    pose proof (beyond_div _ _ 15 ltac:(lia) F1 (beyond_mul _ x 15 ltac:(lia) F15 (or_intror H))) as B.
    destruct (trunc_far (div64 (mul64 x (f64_of_Z 15)) (f64_of_Z 15))) as [->|(_ & L & Fd)]; [|reflexivity|].
    + destruct B as [B|B]; [left; exact B|right]. apply Rle_trans with (2 := B). apply IZR_le. lia.
    + exfalso. destruct B as [B|B]; [congruence|]. apply (Rlt_not_le _ _ L B).
Qed.
Print Assumptions C56_out_of_range_refuted.
Example C56_out_of_range_case : is_finite (f64_of_Z (2 ^ 40)) = true /\ B2R (f64_of_Z (2 ^ 40)) = IZR (2 ^ 40) /\ degrees (f64_of_Z (- 2 ^ 31)) = UB /\ archours (f64_of_Z (- 2 ^ 31)) = Ok "-2147483648h00m00.000s"%string.
Proof. split; [reflexivity|]. split; [apply (f64_of_Z_ok (2 ^ 40) ltac:(lia))|]. split; vm_compute; reflexivity. Qed.

(** Signs count: fields are filled up with zeros to two characters and are no longer than that unless the number is. *)
Theorem C56_field_widths (x : f64) text : archours x = Ok text -> exists H M S h m, text = (H ++ "h" ++ M ++ "m" ++ S ++ "s")%string /\
  read_integer H = Some h /\ read_integer M = Some m /\ String.length H = Nat.max 2 (String.length (integer h)) /\ String.length M = Nat.max 2 (String.length (integer m)).
Proof.
  unfold archours. destruct (archours_parts x) as [((h & m) & s)| |]; try discriminate. cbn [omap obind fst snd]. intros E. injection E as <-.
  exists (zero_padded 2 h), (zero_padded 2 m), (fixed 6 true 3 s), h, m. split; [reflexivity|]. split; [apply zero_padded_back|]. split; [apply zero_padded_back|].
  enough (G : forall z, String.length (zero_padded 2 z) = Nat.max 2 (String.length (integer z))) by (split; apply G).
  intros z. unfold zero_padded, integer, natural. rewrite !len_app, !digits_length. cbn [String.length]. destruct (z <? 0)%Z; cbn [minus String.length]; lia.
Qed.
Print Assumptions C56_field_widths.
Example C56_widths_case : archours (f64_of_Z (-5)) = Ok "-5h00m00.000s"%string. Proof. vm_compute. reflexivity. Qed.
