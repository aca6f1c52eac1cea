(** Property theorems C77: the local-maxima search on a GPU. *)
From Verif Require Import LmCudaProofs CcFloat.
From Coq Require Import ZifyBool ZifyNat.
Local Open Scope Z_scope.

(** A dense plane of [D] drifts and [N] channels with power [X], noise [W] per drift, within the kernel's int arithmetic. *)
Definition gpu_plane {F} (ls : layout) (spec noise : list F) (D N : Z) (X : coord -> F) (W : Z -> F) : Prop :=
  l_shape ls = [D; N] /\ (forall c, bin D N c -> znth spec (fst c * N + snd c) = Some (X c)) /\
  (forall d, 0 <= d < D -> znth noise d = Some (W d)) /\ 0 < D /\ 0 < N /\ D * N + 512 <= 2 ^ 31.

(** Every execution ends; if the peaks fit into numel / distance^2 slots it ends without error and the reports are exactly those of the
    peaks, in some order; otherwise no execution completes and some write goes past the end of the results. *)
Theorem C77_local_maxima_gpu : forall F snr gt lt (thr : F) ls spec noise D N L X W, gpu_plane ls spec noise D N X W -> L <> 0 -> L * L < 2 ^ 31 ->
  let S := fun c => snr (X c) (W (fst c)) in
  exists init found, lg_launch ls L = Ok (D, N, (D * N) / (L * L), init) /\
    let step := lg_step snr gt lt thr D N L spec noise ((D * N) / (L * L)) in
    (forall c, lm_peak gt thr D N L S c <-> In c (map ph_max found)) /\ NoDup (map ph_max found) /\ Forall (lm_report gt lt thr D N S X W) found /\
    always_ends step init /\
    (zlen found <= (D * N) / (L * L) -> forall o, msteps step init o -> exists c, o = Ok c /\ (halted step c -> Permutation (lg_export (fst c)) (map Some found))) /\
    ((D * N) / (L * L) < zlen found -> msteps step init UB /\ forall c, msteps step init (Ok c) -> ~ halted step c).
Proof.
  intros F snr gt lt thr ls spec noise D N L X W (Hs & HX & HW & HD & HN & Hz) HL HL2 S.
  assert (D <= D * N) by nia. assert (N <= D * N) by nia.
  eexists _, _. split.
  - unfold lg_launch. rewrite Hs. rewrite !to_int32_small by lia.
    replace ((L =? 0) || negb (L * L <? 2 ^ 31) || negb ((- 2 ^ 31 <=? D * N) && (D * N <? 2 ^ 31))) with false by lia.
    unfold numel. rewrite Hs. destruct (numel_2d D N) as [->|E]; try lia. rewrite Z.quot_div_nonneg by nia. reflexivity.
  - cbn zeta. assert (Hc : 0 <= D * N / (L * L)) by (apply Z.div_pos; nia).
    destruct (hits_spec snr gt lt thr D N L spec noise X W HX HW ltac:(lia) HN) as (H1 & H2 & H3).
    split; [exact H1|]. split; [exact H2|]. split; [exact H3|]. split; [apply ends with (W := W); auto; lia|].
    assert (EL : forall l : list (dhit F), zlen (map to_ph l) = zlen l) by (intros; unfold zlen; now rewrite map_length).
    rewrite EL. split; [apply lg_fits with (X := X) (W := W); auto; lia|apply lg_overflows with (X := X) (W := W); auto; lia].
Qed.
Print Assumptions C77_local_maxima_gpu.

(** A plane of equal significant values overflows: every bin away from the border is a peak. *)
Theorem C77_plateau_overflows_refuted : forall F snr gt lt (thr : F) ls spec noise D N L x w, gpu_plane ls spec noise D N (fun _ => x) (fun _ => w) ->
  1 <= L -> L * L < 2 ^ 31 -> gt (snr x w) thr = true -> gt (snr x w) (snr x w) = false -> 2 * L <= D -> 2 * L <= N ->
  (D * N) / (L * L) < (D - 2 * L + 1) * (N - 2 * L + 1) ->
  exists init, lg_launch ls L = Ok (D, N, (D * N) / (L * L), init) /\
    msteps (lg_step snr gt lt thr D N L spec noise ((D * N) / (L * L))) init UB.
Proof.
  intros F snr gt lt thr ls spec noise D N L x w HP HL HL2 Hg Hi HD HN Hc.
  destruct (C77_local_maxima_gpu F snr gt lt thr ls spec noise D N L _ _ HP ltac:(lia) HL2) as (init & found & El & H1 & H2 & _ & _ & _ & H3).
  exists init. split; [exact El|]. apply H3.
  set (rows := map (fun i => L + i) (zrange (D - 2 * L + 1))). set (cols := map (fun i => L + i) (zrange (N - 2 * L + 1))).
  assert (Hinj : forall a, NoDup (map (fun i => L + i) (zrange a))).
  { intros a. apply FinFun.Injective_map_NoDup; [intros i j Q; lia|apply zrange_nodup]. }
  assert (HN' : NoDup (list_prod rows cols)).
  { assert (G : forall l l' : list Z, NoDup l -> NoDup l' -> NoDup (list_prod l l')).
    { induction l as [|a l IH]; intros l' Hl Hl'; [constructor|]. inversion Hl; subst. cbn.
      assert (G2 : forall (u v : list (Z * Z)), NoDup u -> NoDup v -> (forall z, In z u -> ~ In z v) -> NoDup (u ++ v)).
      { clear. induction u as [|y u IHu]; intros v Hu Hv H; [exact Hv|]. inversion Hu; subst. cbn. constructor.
        - rewrite in_app_iff. intros [Q|Q]; [auto|]. eapply H; [now left|exact Q].
        - apply IHu; auto. intros z Hz. apply H. now right. }
      apply G2; [apply FinFun.Injective_map_NoDup; [intros i j Q; congruence|auto]|auto|].
      intros z Hz Hz'. apply in_map_iff in Hz as (b & <- & _). apply in_prod_iff in Hz' as (Q & _). auto. }
    apply G; apply Hinj. }
  assert (Hlen : (length (list_prod rows cols) <= length (map ph_max found))%nat).
  { apply NoDup_incl_length; [exact HN'|]. intros (d & f) Hc'. apply in_prod_iff in Hc' as (Hd & Hf).
    apply in_map_iff in Hd as (i & <- & Hi'), Hf as (j & <- & Hj). apply in_zrange in Hi', Hj. apply H1.
    split; [unfold bin; cbn; lia|]. split; [exact Hg|]. intros dr fo Q1 Q2. split; [unfold bin; cbn; lia|exact Hi]. }
  rewrite prod_length, map_length in Hlen. unfold rows, cols in Hlen. rewrite !map_length in Hlen.
  pose proof (zrange_length (D - 2 * L + 1)). pose proof (zrange_length (N - 2 * L + 1)). unfold zlen in *. nia.
Qed.
Print Assumptions C77_plateau_overflows_refuted.

(** A neighbour distance of zero divides by zero. *)
Lemma zero_distance : forall F ls, lg_launch (F := F) ls 0 = UB.
Proof. intros F ls. unfold lg_launch. destruct (l_shape ls) as [|a [|b [|c r]]]; reflexivity. Qed.

(** Non-trivial cases. *)
Definition ex_pw (d f : Z) : Z := if (d =? 4) && (f =? 5) then 90 else if (d =? 4) && (f =? 6) then 50 else 10.
Definition ex_spec : list Z := flat_map (fun d => map (ex_pw d) (zrange 12)) (zrange 8).
Example C77_case : gpu_plane (dense [8; 12]) ex_spec (map (fun _ => 1) (zrange 8)) 8 12 (fun c => ex_pw (fst c) (snd c)) (fun _ => 1) /\
  match lg_hit Z.sub Z.gtb Z.ltb 40 8 12 2 ex_spec (map (fun _ => 1) (zrange 8)) 53 with
  | Ok (Some h) => dh_max h = (4, 5) /\ dh_width h = 3 /\ dh_center h = (4, 5)
  | _ => False end.
Proof.
  split; [|vm_compute; auto]. split; [reflexivity|]. split.
  - intros (d & f) (Hd & Hf). cbn [fst snd] in *.
    assert (A : Forall (fun d => Forall (fun f => znth ex_spec (d * 12 + f) = Some (ex_pw d f)) (zrange 12)) (zrange 8)) by (vm_compute; repeat constructor).
    rewrite Forall_forall in A. specialize (A d ltac:(now apply in_zrange)). rewrite Forall_forall in A. apply A. now apply in_zrange.
  - split; [intros d Hd; now apply znth_zero|]. lia.
Qed.
Example C77_plateau_case : (9 * 9) / (2 * 2) < (9 - 2 * 2 + 1) * (9 - 2 * 2 + 1) /\
  gpu_plane (dense [9; 9]) (map (fun _ => 50) (zrange 81)) (map (fun _ => 1) (zrange 9)) 9 9 (fun _ => 50) (fun _ => 1).
Proof.
  split; [vm_compute; reflexivity|]. split; [reflexivity|]. split; [intros c (Hd & Hf); apply znth_zero; nia|]. split; [intros d Hd; now apply znth_zero|]. lia.
Qed.
