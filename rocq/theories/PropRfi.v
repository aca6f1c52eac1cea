(** C114: what flag_hot_pixels returns. *)
From Coq Require Import ZifyBool Lia Permutation Reals Lra Psatz.
From Flocq Require Import Core BinarySingleNaN.
From Verif Require Import RfiModel FlagProofs FsumProofs FsumProofs2 RedSpec RedProofs2 NdIndexFacts NdMemFacts NdProofs RedProofs3 PropTRed PropFsum PropFlag MagProofs PropMag DriftFloatProofs.
Local Open Scope Z_scope.

(** A grid of finite samples. *)
Definition grid_of (grid : arr f32) (sh : list Z) (d : list Z -> f32) : Prop :=
  arr_is grid sh d /\ posl sh /\ sh <> [] /\ zprod sh < 2 ^ 31 /\ forall i, in_range sh i -> is_finite (d i) = true /\ (Rabs (B2R (d i)) <= bpow radix2 120)%R.
Lemma reduced_one grid sh d (P : list f32 -> f32 -> Prop) r : grid_of grid sh d -> float_reduced (fst grid) (snd grid) [] all_used P r -> exists v, r = Ok (dense [1], [v]).
Proof.
  intros _ (vs & -> & L & _). change (zprod (out_shape [] (l_shape (fst grid)))) with 1 in L. destruct vs as [|v [|? ?]]; unfold zlen in L; cbn [length] in L; try lia. exists v. reflexivity.
Qed.
Lemma hot_is grid sh d junkf contents : grid_of grid sh d -> flag_hot_pixels junkf contents grid = Ok (dense sh, fresh contents sh).
Proof.
  intros H. pose proof H as ((W & S & I & E) & P & N & Zb & F).
  assert (A : float_array (fst grid) (snd grid) [] /\ moderate_where all_used (fst grid) (snd grid)).
  { split.
    - split; [|rewrite S; split; [exact P|exact Zb]]. split; [exact W|]. split; [rewrite S; eapply Forall_impl; [|exact P]; intros ? Q; cbn beta in Q |- *; lia|]. split; [split; constructor|]. split; [reflexivity|exact I].
    - intros idx x R _ Ex. rewrite S in R. rewrite (E idx R) in Ex. injection Ex as <-. destruct (F idx R) as (F1 & F2). split; [exact F1|]. eapply Rle_trans; [exact F2|]. apply bpow_le. lia. }
  destruct A as (A & M). destruct (reduced_one grid sh d _ _ H (C91_mean junkf _ _ _ A M)) as (a & Ea). destruct (reduced_one grid sh d _ _ H (C91_stddev junkf _ _ _ A M)) as (b & Eb).
  unfold flag_hot_pixels. rewrite Eb. cbn [obind]. rewrite Ea. cbn [obind]. rewrite S. reflexivity.
Qed.
(** C114: "flag_hot_pixels flags the pixels above a threshold" is false: it returns bytes of the grid's shape that are what the new memory held, for every grid. *)
Theorem C114_hot_pixels_refuted : forall junkf contents grid sh d, grid_of grid sh d ->
  exists r, flag_hot_pixels junkf contents grid = Ok r /\ fst r = dense sh /\ zlen (snd r) = zprod sh /\ forall c, 0 <= c < zprod sh -> znth (snd r) c = Some (contents c).
Proof.
  intros junkf contents grid sh d H. exists (dense sh, fresh contents sh). split; [now apply (hot_is grid sh d)|]. pose proof H as (_ & P & _). assert (Nn : Forall (fun d => 0 <= d) sh) by (eapply Forall_impl; [|exact P]; cbn; intros; lia).
  split; [reflexivity|]. split; [now apply fresh_length|]. intros c Hc. cbn [snd]. unfold fresh. rewrite alloc_elems_prod. now apply znth_map_zrange.
Qed.
Print Assumptions C114_hot_pixels_refuted.
(** C114: so whatever flags are wanted, and whatever samples are given, there are contents of memory for which the call returns those flags; and grids of one shape get the same flags. *)
Theorem C114_any_flags : forall junkf grid sh d (wanted : list Z -> Z), grid_of grid sh d ->
  (exists contents r, flag_hot_pixels junkf contents grid = Ok r /\ arr_is r sh wanted) /\
  (forall contents grid' d', grid_of grid' sh d' -> flag_hot_pixels junkf contents grid' = flag_hot_pixels junkf contents grid).
Proof.
  intros junkf grid sh d wanted H. split.
  - set (contents := fun c => match find (fun idx => cell (dense sh) idx =? c) (all_indices sh) with Some idx => wanted idx | None => 0 end).
    destruct (C114_hot_pixels_refuted junkf contents grid sh d H) as ((l & r) & E & D & L & V). cbn [fst snd] in *. subst l. exists contents, (dense sh, r). split; [exact E|].
    apply arr_is_dense; [exact L|]. intros idx R. unfold elt. rewrite V by now apply dense_inside. f_equal. unfold contents.
    destruct (find (fun i => cell (dense sh) i =? cell (dense sh) idx) (all_indices sh)) as [i|] eqn:Ef.
    + apply find_some in Ef as (Hi & Hc). apply in_all_indices in Hi. f_equal. apply (dense_separate sh); auto. lia.
    + exfalso. assert (Hn := find_none _ _ Ef idx (proj2 (in_all_indices sh idx) R)); cbn beta in Hn. lia.
  - intros contents grid' d' H'. rewrite (hot_is grid sh d junkf contents H). now apply (hot_is grid' sh d').
Qed.
Print Assumptions C114_any_flags.
(** A grid of 8 spectra of 16 channels with one bright pixel meets the hypotheses; it is more than five deviations above the mean (C101: more than ten). *)
Example C114_case : grid_of (dense [8; 16], spiked 127) [8; 16] spike /\ flag_hot_pixels (fun _ => f32_of_Z 0) (fun c => c) (dense [8; 16], spiked 127) = Ok (dense [8; 16], zrange 128).
Proof.
  destruct a_spike as ((A & _ & _ & P & N & Zb & F) & _). assert (H : grid_of (dense [8; 16], spiked 127) [8; 16] spike) by (split; [exact A|]; auto). split; [exact H|].
  rewrite (hot_is _ _ _ _ _ H). unfold fresh. now rewrite map_id.
Qed.
