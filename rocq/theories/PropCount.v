(** C80: counting on the GPU. *)
From Verif Require Import CountProofs RedProofs2.
From Coq Require Import ZifyBool Lia.
Local Open Scope Z_scope.

(** The view with the same shape and strides that begins at the start of the buffer. *)
Definition at_start (l : layout) : layout := Layout (l_shape l) (l_strides l) (map (fun _ => 0) (l_shape l)).

Lemma zsum_zeros {X} (xs : list X) : zsum (map (fun _ => 0) xs) = 0.
Proof. induction xs as [|x xs IH]; [reflexivity|]. cbn [map]. rewrite zsum_cons. lia. Qed.
Lemma at_start_wf l : wf l -> wf (at_start l).
Proof. intros (H1 & H2). split; [exact H1|]. cbn. unfold at_start. cbn. now rewrite map_length. Qed.
Lemma base_at_start l idx : wf l -> in_range (l_shape l) idx -> base l idx = cell (at_start l) idx.
Proof.
  intros Hw Hr. pose proof (in_range_length _ _ Hr) as Hl. unfold base. rewrite cell_lin by (auto; apply Hl).
  rewrite cell_lin by (try apply at_start_wf; auto). unfold at_start. cbn. rewrite zsum_zeros. lia.
Qed.
Lemma seen_reads {A} (m : mem A) l xs : wf l -> reads m (at_start l) (all_indices (l_shape l)) xs -> seen m l = xs.
Proof.
  intros Hw. unfold seen, reads.
  assert (H : forall i, In i (all_indices (l_shape l)) -> in_range (l_shape l) i) by (intros; now apply in_all_indices).
  revert xs H. induction (all_indices (l_shape l)) as [|i is IH]; intros xs H R; inversion R as [|? x ? ys Hx Hr]; subst; cbn; [reflexivity|].
  rewrite base_at_start by (auto; apply H; now left). unfold elt in Hx. rewrite Hx. cbn. f_equal. apply IH; [|assumption]. intros; apply H; now right.
Qed.

(** C80: every execution of the kernel ends with what the CPU counts in the view of this shape and these strides at the start of the buffer. *)
Theorem C80_gpu_count_start : forall A (truth : A -> bool) l (m : mem A) junk,
  wf l -> Forall (fun d => 0 <= d) (l_shape l) -> zprod (l_shape l) < 2 ^ 31 -> inside (at_start l) (zlen m) ->
  exists xs, reads m (at_start l) (all_indices (l_shape l)) xs /\
    count_true truth (at_start l) m = Ok (zlen (filter truth xs)) /\
    gpu_final caddr_eqb (@cadd A) (cmem0 m (count_blocks (zprod (l_shape l))) junk) (count_gpu truth l)
      (fun k => k CCount = Some (CN (zlen (filter truth xs)))).
Proof.
  intros A truth l m junk Hw H1 H2 Hi.
  destruct (count_correct truth (at_start l) m (at_start_wf l Hw) (conj H1 H2) Hi) as (xs & Hx & Hc).
  exists xs. split; [exact Hx|]. split; [exact Hc|].
  pose proof (count_gpu_correct truth m l junk Hw (conj H1 H2)) as G. unfold truths in G. rewrite (seen_reads m l xs Hw Hx) in G. apply G.
  intros idx Hr. rewrite base_at_start by auto. apply Hi, Hr.
Qed.
Print Assumptions C80_gpu_count_start.

(** C80: an unsliced array, in any memory order: the number of true elements, as on the CPU. *)
Theorem C80_gpu_count : forall A (truth : A -> bool) l (m : mem A) junk,
  wf l -> Forall (fun d => 0 <= d) (l_shape l) -> zprod (l_shape l) < 2 ^ 31 -> inside l (zlen m) -> zsum (l_offsets l) = 0 ->
  exists xs, reads m l (all_indices (l_shape l)) xs /\
    count_true truth l m = Ok (zlen (filter truth xs)) /\
    gpu_final caddr_eqb (@cadd A) (cmem0 m (count_blocks (zprod (l_shape l))) junk) (count_gpu truth l)
      (fun k => k CCount = Some (CN (zlen (filter truth xs)))).
Proof.
  intros A truth l m junk Hw H1 H2 Hi H0.
  assert (Hcell : forall idx, in_range (l_shape l) idx -> cell (at_start l) idx = cell l idx).
  { intros idx Hr. rewrite <- base_at_start by auto. unfold base. lia. }
  destruct (C80_gpu_count_start A truth l m junk Hw H1 H2) as (xs & R & _ & G).
  { intros idx Hr. rewrite Hcell by exact Hr. apply Hi, Hr. }
  destruct (count_correct truth l m Hw (conj H1 H2) Hi) as (ys & Ry & Ec).
  assert (xs = ys); [|subst; eauto].
  clear - Ry R Hcell. unfold reads in *. revert xs ys R Ry.
  assert (H : forall i, In i (all_indices (l_shape l)) -> in_range (l_shape l) i) by (intros; now apply in_all_indices).
  induction (all_indices (l_shape l)) as [|i is IH]; intros xs ys R Ry; inversion R as [|? x ? xs' Hx Rx]; inversion Ry as [|? y ? ys' Hy Ry']; subst; [reflexivity|].
  f_equal; [unfold elt in *; rewrite Hcell in Hx by (apply H; now left); congruence|]. apply IH; auto. intros; apply H; now right.
Qed.
Print Assumptions C80_gpu_count.

(** A transposed 300 by 2 array: three blocks of work. *)
Example C80_count_case : let l := Layout [2; 300] [1; 2] [0; 0] in
  wf l /\ inside l (zlen (zrange 600)) /\ zsum (l_offsets l) = 0 /\ count_true (fun x => 400 <=? x) l (zrange 600) = Ok 200 /\
  map (@length _) (count_gpu (fun x => 400 <=? x) l) = [256; 256; 256]%nat.
Proof.
  cbv zeta. split; [split; reflexivity|]. split.
  { intros idx H. inversion H as [|? i ? r Hi H']; subst. inversion H' as [|? j ? r' Hj H'']; subst. inversion H''; subst.
    rewrite zrange_length. unfold cell. cbn. lia. }
  split; [reflexivity|]. split; vm_compute; reflexivity.
Qed.

(** C80: a slice is not counted: its offset is ignored.  Here the view holds only true elements, and no execution counts any. *)
Theorem C80_sliced_count_refuted : exists (l : layout) (m : mem bool),
  wf l /\ inside l (zlen m) /\ count_true (fun b => b) l m = Ok 2 /\
  forall junk, gpu_final caddr_eqb (@cadd bool) (cmem0 m (count_blocks (zprod (l_shape l))) junk) (count_gpu (fun b => b) l)
    (fun k => k CCount = Some (CN 0)).
Proof.
  exists (Layout [2] [1] [2]), [false; false; true; true].
  assert (Hi : forall d, 0 <= d <= 2 -> inside (Layout [2] [1] [d]) 4).
  { intros d Hd idx H. inversion H as [|? i ? r Hi H']; subst. inversion H'; subst. unfold cell. cbn. lia. }
  split; [split; reflexivity|]. split; [apply Hi; lia|]. split; [reflexivity|]. intros junk.
  destruct (C80_gpu_count_start bool (fun b => b) (Layout [2] [1] [2]) [false; false; true; true] junk) as (xs & R & E & G).
  - split; reflexivity.
  - repeat constructor; lia.
  - reflexivity.
  - apply Hi. lia.
  - set (n := zlen (filter (fun b => b) xs)) in *.
    assert (E0 : count_true (fun b : bool => b) (at_start (Layout [2] [1] [2])) [false; false; true; true] = Ok 0) by reflexivity.
    rewrite E0 in E. injection E as <-. exact G.
Qed.
Print Assumptions C80_sliced_count_refuted.
