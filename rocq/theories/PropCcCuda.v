(** Property theorems C32-C33: the GPU component search under every schedule. *)
From Verif Require Import CcCudaProofs CcFloat.
From Coq Require Import ZifyBool ZifyNat Reals Lra Permutation.
Local Open Scope Z_scope.

(** ** A concrete plane: 8 drifts, 8 channels, two separate hills *)
Definition gx_plane : list Z :=
  [0;0;0;0;0;0;0;0;
   0;0;0;0;0;0;0;0;
   0;0;3;9;3;0;0;0;
   0;0;0;0;0;0;0;0;
   0;0;0;0;0;0;0;0;
   0;0;0;0;0;3;6;0;
   0;0;0;0;0;0;0;0;
   0;0;0;0;0;0;0;0].
Definition gx_noise : list Z := map (fun _ => 1) (zrange 8).
Definition gx_X (p : list Z) (N : Z) (c : coord) : Z := match znth p (fst c * N + snd c) with Some x => x | None => 0 end.
Definition gx_snr (x w : Z) : Z := x.

Lemma dense_holds D N (p : list Z) : zlen p = D * N -> 0 <= D -> 0 < N -> plane_holds (dense [D; N]) p D N (gx_X p N).
Proof.
  intros Hl HD HN. split; [reflexivity|]. intros c Hc. rewrite lin_dense. unfold gx_X.
  destruct (znth_some p (fst c * N + snd c)) as (x & E); [unfold bin in Hc; nia|]. now rewrite E.
Qed.
Lemma ordered_Z D N S : ordered Z.gtb D N S.
Proof. split; [intros; lia|]. split; [intros; lia|]. intros; lia. Qed.
(** A way to discharge the room hypothesis by counting. *)
Lemma room_count {F} (snr : F -> F -> F) gt (thr half : F) D N L spec noise X W :
  plane_holds (dense [D; N]) spec D N X -> (forall d, 0 <= d < D -> znth noise d = Some (W d)) -> 0 < N ->
  ordered gt D N (Sx snr X W) -> forall k,
  zlen (peaks D N (kind snr gt thr half D N L spec noise)) <= k ->
  forall ps, NoDup ps -> (forall c, In c ps -> peak gt thr half D N L (Sx snr X W) c) -> zlen ps <= k.
Proof.
  intros HX HW HN Hord k Hk ps Hnd Hps. eapply Z.le_trans; [|exact Hk].
  replace (zlen ps) with (zlen (map (index_of_coord N) ps)) by apply zlen_map. unfold zlen. apply inj_le, NoDup_incl_length.
  - apply nodup_map_in; [auto|]. intros a b Ha Hb E.
    rewrite <- (coord_ix D N a (peak_bin _ _ _ _ _ _ _ _ _ _ (Hps a Ha))), <- (coord_ix D N b (peak_bin _ _ _ _ _ _ _ _ _ _ (Hps b Hb))). congruence.
  - intros n Hn. apply in_map_iff in Hn as (c & <- & Hc). pose proof (Hps c Hc) as Hp. pose proof (peak_bin _ _ _ _ _ _ _ _ _ _ Hp) as Hb.
    apply filter_In. split; [apply in_zrange; now apply ix_range|]. unfold is_peak.
    rewrite (proj2 (kind_peak snr gt thr half D N L spec noise X W HX HW HN Hord _ (ix_range D N c Hb))); [reflexivity|]. now rewrite (coord_ix D N c Hb).
Qed.
Lemma gx_inputs : gpu_inputs gx_snr Z.gtb 4 2 8 8 2 gx_plane gx_noise (gx_X gx_plane 8) (fun _ => 1).
Proof.
  assert (HX : plane_holds (dense [8; 8]) gx_plane 8 8 (gx_X gx_plane 8)) by (apply dense_holds; [reflexivity|lia|lia]).
  assert (HW : forall d, 0 <= d < 8 -> znth gx_noise d = Some 1) by (intros d Hd; apply znth_const; rewrite zrange_length; lia).
  split; [exact HX|]. split; [exact HW|]. split; [lia|]. split; [lia|]. split; [lia|]. split; [apply ordered_Z|].
  intros ps Hnd Hps. assert (H : zlen ps <= 2); [|change (Z.quot (8 * 8) (2 * 2)) with 16; lia].
  eapply (room_count gx_snr Z.gtb 4 2 8 8 2 gx_plane gx_noise (gx_X gx_plane 8) (fun _ => 1)); eauto; [lia|apply ordered_Z|vm_compute; discriminate].
Qed.

(** ** C32 *)
(** Whatever the number of threads and their interleaving, the peaks of the reported protohits are the
    best peak of every group of touching peaks, each once. *)
Theorem C32_survivors : forall F snr gt (thr half : F) D N L spec noise X W G m,
  gpu_inputs snr gt thr half D N L spec noise X W -> 0 < G ->
  cuda_run snr gt thr half D N L spec noise G m ->
  exists ps, survivors m = map (fun p => Some (fst p * N + snd p)) ps /\ NoDup ps /\
    forall c, In c ps <-> winner gt thr half D N L (fun c => snr (X c) (W (fst c))) c.
Proof.
  intros F snr gt thr half D N L spec noise X W G m (H1 & H2 & H3 & H4 & H5 & H6 & H7) HG Hr.
  exact (run_reports snr gt thr half D N L spec noise X W H1 H2 H3 H4 H5 H6 H7 G HG m Hr).
Qed.
Print Assumptions C32_survivors.
Definition run3 (G : Z) (L thr half D N : Z) (plane noise : list Z) : option (outcome gmem) :=
  match table_size D N L with
  | Ok nmax =>
    match exec (init_step gx_snr Z.gtb thr half D N L plane noise nmax) 3000 (fresh_mem D N nmax, map IIdle (work D N G)) with
    | Some (Ok (m1, _)) =>
      match exec (resolve_step nmax) 3000 (g_labels m1, map RIdle (work D N G)) with
      | Some (Ok (lab, _)) =>
        match exec (merge_step gx_snr Z.gtb D N L plane noise lab (g_max m1)) 3000 (g_inv m1, map MIdle (work D N G)) with
        | Some (Ok (inv, _)) => Some (Ok (Gmem lab (g_claims m1) (g_max m1) inv))
        | Some UB => Some UB
        | _ => None
        end
      | Some UB => Some UB
      | _ => None
      end
    | Some UB => Some UB
    | _ => None
    end
  | UB => Some UB
  | _ => None
  end.
Lemma run3_ok G L thr half D N plane noise m : run3 G L thr half D N plane noise = Some (Ok m) ->
  cuda_run gx_snr Z.gtb thr half D N L plane noise G m.
Proof.
  unfold run3. destruct (table_size D N L) as [nmax| |] eqn:Et; try discriminate.
  destruct (exec _ _ _) as [[(m1 & ss1)| |]|] eqn:E1; try discriminate.
  destruct (exec (resolve_step nmax) _ _) as [[(lab & ss2)| |]|] eqn:E2; try discriminate.
  destruct (exec (merge_step _ _ _ _ _ _ _ _ _) _ _) as [[(inv & ss3)| |]|] eqn:E3; try discriminate.
  intros H. injection H as <-. apply exec_run in E1 as (R1 & H1). apply exec_run in E2 as (R2 & H2). apply exec_run in E3 as (R3 & H3).
  eapply Cuda_run; eauto.
Qed.
Lemma run3_ub G L thr half D N plane noise : run3 G L thr half D N plane noise = Some UB ->
  cuda_wrong gx_snr Z.gtb thr half D N L plane noise G.
Proof.
  unfold run3. destruct (table_size D N L) as [nmax| |] eqn:Et; try discriminate; [|intros; now apply Wrong_size].
  destruct (exec _ _ _) as [[(m1 & ss1)| |]|] eqn:E1; try discriminate; apply exec_run in E1 as (R1 & H1); [|intros; now apply Wrong_init with nmax].
  destruct (exec (resolve_step nmax) _ _) as [[(lab & ss2)| |]|] eqn:E2; try discriminate; apply exec_run in E2 as (R2 & H2);
    [|intros; now apply Wrong_resolve with nmax m1 ss1; auto].
  destruct (exec (merge_step _ _ _ _ _ _ _ _ _) _ _) as [[(inv & ss3)| |]|] eqn:E3; try discriminate; apply exec_run in E3 as (R3 & H3).
  intros _. eapply Wrong_merge; eauto.
Qed.
Definition ran {A} (f : gmem -> A) (o : option (outcome gmem)) : option A := match o with Some (Ok m) => Some (f m) | _ => None end.
Lemma ran_ok {A} (f : gmem -> A) o x : ran f o = Some x -> exists m, o = Some (Ok m) /\ f m = x.
Proof. destruct o as [[m| |]|]; try discriminate. intros H. injection H as <-. eauto. Qed.
Example C32_survivors_example : exists m, cuda_run gx_snr Z.gtb 4 2 8 8 2 gx_plane gx_noise 3 m /\ survivors m = [Some 19; Some 46].
Proof.
  destruct (ran_ok survivors (run3 3 2 4 2 8 8 gx_plane gx_noise) [Some 19; Some 46]) as (m & E & H); [vm_compute; reflexivity|].
  exists m. split; [exact (run3_ok _ _ _ _ _ _ _ _ _ E)|exact H].
Qed.

(** No schedule fails, none runs forever, and one completes. *)
Theorem C32_every_schedule_ends : forall F snr gt (thr half : F) D N L spec noise X W G,
  gpu_inputs snr gt thr half D N L spec noise X W -> 0 < G ->
  ~ cuda_wrong snr gt thr half D N L spec noise G /\
  (exists m, cuda_run snr gt thr half D N L spec noise G m) /\
  (forall nmax, table_size D N L = Ok nmax ->
     always_ends (init_step snr gt thr half D N L spec noise nmax) (fresh_mem D N nmax, map IIdle (work D N G)) /\
     forall m1 ss1, msteps (init_step snr gt thr half D N L spec noise nmax) (fresh_mem D N nmax, map IIdle (work D N G)) (Ok (m1, ss1)) ->
       halted (init_step snr gt thr half D N L spec noise nmax) (m1, ss1) ->
       always_ends (resolve_step nmax) (g_labels m1, map RIdle (work D N G)) /\
       forall lab ss2, msteps (resolve_step nmax) (g_labels m1, map RIdle (work D N G)) (Ok (lab, ss2)) -> halted (resolve_step nmax) (lab, ss2) ->
         always_ends (merge_step snr gt D N L spec noise lab (g_max m1)) (g_inv m1, map MIdle (work D N G))).
Proof.
  intros F snr gt thr half D N L spec noise X W G (H1 & H2 & H3 & H4 & H5 & H6 & H7) HG.
  split; [exact (never_wrong snr gt thr half D N L spec noise X W H1 H2 H3 H4 H5 H6 H7 G HG)|].
  split; [exact (run_exists snr gt thr half D N L spec noise X W H1 H2 H3 H4 H5 H6 H7 G HG)|].
  intros nm Et. assert (E := table D N L noise W H2 H5). rewrite E in Et. injection Et as <-.
  pose proof (init_part snr gt thr half D N L spec noise X W H1 H2 H3 H4 H6 H7 G HG) as (A1 & A2).
  split; [exact A1|]. intros m1 ss1 R1 Hh1. destruct (A2 _ R1) as (m' & ss' & E1 & Hm). injection E1 as <- <-. specialize (Hm Hh1).
  pose proof (resolve_part snr gt thr half D N L spec noise X W H1 H2 H3 H4 H5 H6 H7 G HG m1 Hm) as (B1 & B2).
  split; [exact B1|]. intros lab ss2 R2 Hh2. destruct (B2 _ R2) as (lab' & ss' & E2 & Hl). injection E2 as <- <-. destruct (Hl Hh2) as (Hl1 & Hl2).
  exact (proj1 (merged snr gt thr half D N L spec noise X W H1 H2 H3 H4 H5 H6 H7 m1 Hm lab Hl1 Hl2 _ (work_spread D N G HG))).
Qed.
Print Assumptions C32_every_schedule_ends.
Example C32_every_schedule_ends_example : gpu_inputs gx_snr Z.gtb 4 2 8 8 2 gx_plane gx_noise (gx_X gx_plane 8) (fun _ => 1).
Proof. exact gx_inputs. Qed.

(** Two runs with any two schedules and thread counts report the same peaks. *)
Theorem C32_schedule_independent : forall F snr gt (thr half : F) D N L spec noise X W G G' m m',
  gpu_inputs snr gt thr half D N L spec noise X W -> 0 < G -> 0 < G' ->
  cuda_run snr gt thr half D N L spec noise G m -> cuda_run snr gt thr half D N L spec noise G' m' ->
  Permutation (survivors m) (survivors m').
Proof.
  intros F snr gt thr half D N L spec noise X W G G' m m' Hin HG HG' R R'.
  destruct (C32_survivors F snr gt thr half D N L spec noise X W G m Hin HG R) as (ps & -> & Hn & Hi).
  destruct (C32_survivors F snr gt thr half D N L spec noise X W G' m' Hin HG' R') as (ps' & -> & Hn' & Hi').
  apply Permutation_map, NoDup_Permutation; auto. intros c. now rewrite Hi, Hi'.
Qed.
Print Assumptions C32_schedule_independent.
Example C32_schedule_independent_example : exists m m',
  cuda_run gx_snr Z.gtb 4 2 8 8 2 gx_plane gx_noise 1 m /\ cuda_run gx_snr Z.gtb 4 2 8 8 2 gx_plane gx_noise 5 m' /\ g_claims m <> g_claims m'.
Proof.
  destruct (ran_ok g_claims (run3 1 2 4 2 8 8 gx_plane gx_noise) [19; 46]) as (m & E & H); [vm_compute; reflexivity|].
  destruct (ran_ok g_claims (run3 5 2 4 2 8 8 gx_plane gx_noise) [46; 19]) as (m' & E' & H'); [vm_compute; reflexivity|].
  exists m, m'. split; [exact (run3_ok _ _ _ _ _ _ _ _ _ E)|]. split; [exact (run3_ok _ _ _ _ _ _ _ _ _ E')|]. rewrite H, H'. discriminate.
Qed.

(** binary32: planes without NaN ratios are ordered. *)
Theorem C32_survivors_float : forall floor (thr : f32) D N L spec noise X W G m,
  plane_holds (dense [D; N]) spec D N X -> (forall d, 0 <= d < D -> znth noise d = Some (W d)) ->
  0 <= D -> 0 < N -> 2 <= L -> 0 < G ->
  (forall c, bin D N c -> is_nan (f32snr floor (X c) (W (fst c))) = false) ->
  (forall ps, NoDup ps -> (forall c, In c ps -> peak f32gt thr (f32half thr) D N L (fun c => f32snr floor (X c) (W (fst c))) c) ->
     8 + zlen ps <= Z.quot (D * N) (L * L)) ->
  cuda_run (f32snr floor) f32gt thr (f32half thr) D N L spec noise G m ->
  exists ps, survivors m = map (fun p => Some (fst p * N + snd p)) ps /\ NoDup ps /\
    forall c, In c ps <-> winner f32gt thr (f32half thr) D N L (fun c => f32snr floor (X c) (W (fst c))) c.
Proof.
  intros floor thr D N L spec noise X W G m HX HW HD HN HL HG Hnan Hroom Hr.
  eapply C32_survivors; [|exact HG|exact Hr]. unfold gpu_inputs. repeat (split; [assumption|]). split; [|exact Hroom].
  split; [apply f32gt_irrefl|]. split; [intros x y z; apply f32gt_trans|].
  intros c d e Hc Hd He. rewrite !f32gt_val. intros (A & B & C).
  destruct (Rlt_le_dec (fval (f32snr floor (X e) (W (fst e)))) (fval (f32snr floor (X c) (W (fst c))))); [left|right]; repeat split; auto. lra.
Qed.
Print Assumptions C32_survivors_float.
Example C32_survivors_float_example : is_nan (f32snr (f32_of_Z 1) (f32_of_Z 10) (f32_of_Z 3)) = false.
Proof. vm_compute. reflexivity. Qed.

(** *** What the hypotheses exclude *)
(** More peaks than entries: every schedule writes past the protohit table, none completes. *)
Theorem C32_table_overflow_refuted : forall F snr gt (thr half : F) D N L spec noise X W G ps,
  plane_holds (dense [D; N]) spec D N X -> (forall d, 0 <= d < D -> znth noise d = Some (W d)) ->
  0 <= D -> 0 < N -> 1 <= L -> 0 < G -> ordered gt D N (fun c => snr (X c) (W (fst c))) ->
  NoDup ps -> ps <> [] -> (forall c, In c ps -> peak gt thr half D N L (fun c => snr (X c) (W (fst c))) c) ->
  Z.quot (D * N) (L * L) < 8 + zlen ps ->
  cuda_wrong snr gt thr half D N L spec noise G /\ forall m, ~ cuda_run snr gt thr half D N L spec noise G m.
Proof. intros F snr gt thr half D N L spec noise X W G ps. apply (overflow snr gt thr half D N L spec noise X W G ps). Qed.
Print Assumptions C32_table_overflow_refuted.
(** A single bright bin in a small plane is enough. *)
Example C32_table_overflow_example :
  let plane := [0;0;0;0;0;0; 0;0;0;0;0;0; 0;0;0;0;0;0; 0;0;9;0;0;0; 0;0;0;0;0;0; 0;0;0;0;0;0] in
  Z.quot (5 * 6) (2 * 2) = 7 /\
  cuda_wrong gx_snr Z.gtb 4 2 5 6 2 (firstn 30 plane) gx_noise 4.
Proof. split; [reflexivity|]. apply run3_ub. vm_compute. reflexivity. Qed.

(** A neighbourhood distance of 0 divides by zero. *)
Theorem C32_zero_distance_refuted : forall F snr gt (thr half : F) D N spec noise G,
  cuda_wrong snr gt thr half D N 0 spec noise G.
Proof. intros. apply Wrong_size. reflexivity. Qed.
Print Assumptions C32_zero_distance_refuted.

(** With distance 1 the pseudo-label of the first bin equals the size of the table, is not resolved, and
    the merge reads the entry after the last. *)
Theorem C32_distance_one_refuted : exists plane, zlen plane = 12 * 1 /\
  cuda_wrong gx_snr Z.gtb 9 4 12 1 1 plane (map (fun _ => 1) (zrange 12)) 1.
Proof.
  exists [8;7;0;0;0;0;0;0;0;0;0;0]. split; [reflexivity|]. apply run3_ub. vm_compute. reflexivity.
Qed.
Print Assumptions C32_distance_one_refuted.

(** Bins of the first [L] channels do not look at their neighbours when merging: two peaks in one
    neighbourhood are both reported. *)
Theorem C32_first_channels_refuted : exists plane p q m, zlen plane = 10 * 4 /\
  nb 2 p q /\ peak Z.gtb 4 2 10 4 2 (gx_X plane 4) p /\ peak Z.gtb 4 2 10 4 2 (gx_X plane 4) q /\ p <> q /\
  cuda_run gx_snr Z.gtb 4 2 10 4 2 plane (map (fun _ => 1) (zrange 10)) 1 m /\
  survivors m = [Some (fst q * 4 + snd q); Some (fst p * 4 + snd p)].
Proof.
  set (plane := [0;0;0;0; 0;0;0;0; 0;0;0;0; 0;9;0;0; 0;0;0;0; 0;9;0;0; 0;0;0;0; 0;0;0;0; 0;0;0;0; 0;0;0;0]).
  destruct (ran_ok survivors (run3 1 2 4 2 10 4 plane (map (fun _ => 1) (zrange 10))) [Some 13; Some 21]) as (m & E & H); [vm_compute; reflexivity|].
  assert (HX : plane_holds (dense [10; 4]) plane 10 4 (gx_X plane 4)) by (apply dense_holds; [reflexivity|lia|lia]).
  assert (HW : forall d, 0 <= d < 10 -> znth (map (fun _ => 1) (zrange 10)) d = Some 1) by (intros d Hd; apply znth_const; rewrite zrange_length; lia).
  assert (Hp : forall n, 0 <= n < 10 * 4 -> kind gx_snr Z.gtb 4 2 10 4 2 plane (map (fun _ => 1) (zrange 10)) n = Peak -> peak Z.gtb 4 2 10 4 2 (gx_X plane 4) (coord_of 4 n)).
  { intros n Hn Hk. apply (kind_peak gx_snr Z.gtb 4 2 10 4 2 plane _ (gx_X plane 4) (fun _ => 1) HX HW ltac:(lia) (ordered_Z _ _ _) n Hn). exact Hk. }
  exists plane, (5, 1), (3, 1), m. split; [reflexivity|]. split; [unfold nb; cbn; lia|].
  split; [apply (Hp 21); [lia|vm_compute; reflexivity]|]. split; [apply (Hp 13); [lia|vm_compute; reflexivity]|]. split; [discriminate|].
  split; [exact (run3_ok _ _ _ _ _ _ _ _ _ E)|exact H].
Qed.
Print Assumptions C32_first_channels_refuted.

(** ** C33 *)
(** Any labels whose chains end: every interleaving leaves every bin with the end of its chain. *)
Theorem C33_chain_ends : forall fnl D N G lab0, 8 <= fnl -> 0 < G -> zlen lab0 = D * N ->
  (forall n, 0 <= n < D * N -> exists r k, chain fnl lab0 n r k) ->
  always_ends (resolve_step fnl) (lab0, map RIdle (work D N G)) /\
  forall o, msteps (resolve_step fnl) (lab0, map RIdle (work D N G)) o ->
    exists lab ss, o = Ok (lab, ss) /\
      (halted (resolve_step fnl) (lab, ss) ->
       zlen lab = D * N /\ forall n r k, 0 <= n < D * N -> chain fnl lab0 n r k -> znth lab n = Some r).
Proof.
  intros fnl D N G lab0 Hf HG Hl Hch. rewrite <- Hl in Hch.
  destruct (resolve_chains fnl lab0 (work D N G) Hf Hch) as (A & B).
  { intros n. rewrite Hl, <- in_zrange. split; apply Permutation_in; [|symmetry]; now apply work_spread. }
  split; [exact A|]. intros o Ho. destruct (B o Ho) as (lab & ss & -> & H). exists lab, ss. split; [reflexivity|]. intros Hh.
  destruct (H Hh) as (H1 & H2). split; [lia|]. intros n r k Hn. apply H2. lia.
Qed.
Print Assumptions C33_chain_ends.
Example C33_chain_ends_example : forall n, 0 <= n < 2 * 2 -> exists r k, chain 10 [8; 13; 11; 9] n r k.
Proof.
  intros n Hn. assert (E : n = 0 \/ n = 1 \/ n = 2 \/ n = 3) by lia.
  assert (H3 : chain 10 [8; 13; 11; 9] 3 9 0) by (apply chain_end; [reflexivity|lia]).
  assert (H1 : chain 10 [8; 13; 11; 9] 1 9 1) by (apply chain_next with 13; [reflexivity|lia|exact H3]).
  destruct E as [->|[->|[->| ->]]]; [exists 8, O; apply chain_end; [reflexivity|lia]|eauto|exists 9, 2%nat; apply chain_next with 11; [reflexivity|lia|exact H1]|eauto].
Qed.

(** In a search: a bin ends with the table entry of the peak it climbs to through strongest
    neighbours, or with 0 when the climb ends elsewhere. *)
Theorem C33_labels_follow_climb : forall F snr gt (thr half : F) D N L spec noise X W G m,
  gpu_inputs snr gt thr half D N L spec noise X W -> 0 < G ->
  cuda_run snr gt thr half D N L spec noise G m ->
  forall c, bin D N c -> exists v, znth (g_labels m) (fst c * N + snd c) = Some v /\
    ((exists p, owned gt thr half D N L (fun c => snr (X c) (W (fst c))) c p /\ 8 <= v /\ znth (g_max m) v = Some (Some (fst p * N + snd p))) \/
     v = 0 /\ forall p, ~ owned gt thr half D N L (fun c => snr (X c) (W (fst c))) c p).
Proof.
  intros F snr gt thr half D N L spec noise X W G m (H1 & H2 & H3 & H4 & H5 & H6 & H7) HG Hr.
  exact (run_labels snr gt thr half D N L spec noise X W H1 H2 H3 H4 H5 H6 H7 G HG m Hr).
Qed.
Print Assumptions C33_labels_follow_climb.
Example C33_labels_follow_climb_example :
  ran (fun m => (znth (g_labels m) 18, znth (g_labels m) 19, znth (g_labels m) 45, znth (g_labels m) 0)) (run3 3 2 4 2 8 8 gx_plane gx_noise)
  = Some (Some 8, Some 8, Some 9, Some 0).
Proof. vm_compute. reflexivity. Qed.

(** A cycle of labels is never left: the hypothesis on chains is needed. *)
Theorem C33_cycle_refuted : exists lab0 c, zlen lab0 = 3 * 1 /\
  msteps (resolve_step 10) (lab0, map RIdle (work 3 1 1)) (Ok c) /\ mstep (resolve_step 10) c (Ok c).
Proof.
  exists [0; 11; 0]. exists ([0; 11; 0], [RClimb 1 11 [2]]). split; [reflexivity|]. split.
  - change (map RIdle (work 3 1 1)) with ([] ++ RIdle [0; 1; 2] :: []).
    eapply mss_step; [apply (ms_ok _ _ [] (RIdle [0; 1; 2]) []); reflexivity|].
    eapply mss_step; [apply (ms_ok _ _ [] (RIdle [1; 2]) []); reflexivity|].
    eapply mss_step; [apply (ms_ok _ _ [] (RTop 1 [2]) []); reflexivity|]. constructor.
  - apply (ms_ok _ _ [] (RClimb 1 11 [2]) []). reflexivity.
Qed.
Print Assumptions C33_cycle_refuted.
