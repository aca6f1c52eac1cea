(** Filterbank files: which shapes are accepted and what a read returns. *)
From Verif Require Import BaseFacts.
From Verif Require Export ScanModel.
Local Open Scope Z_scope.
Local Open Scope list_scope.

(** ** Specification: labelled axes, in file order *)
Fixpoint size_of (name : string) (axes : list (string * Z)) : option Z :=
  match axes with [] => None | (l, d) :: r => if String.eqb l name then Some d else size_of name r end.
(** The axes other than the first one of that name. *)
Fixpoint others (name : string) (axes : list (string * Z)) : list (string * Z) :=
  match axes with [] => [] | (l, d) :: r => if String.eqb l name then r else (l, d) :: others name r end.
Definition extra (axes : list (string * Z)) : list (string * Z) :=
  others "feed_id" (others "frequency" (others "time" axes)).

Definition pick (found : option Z) (name : string) axes := match found with Some d => Some d | None => size_of name axes end.
Definition left_over (found : option Z) (name : string) axes := match found with Some _ => axes | None => others name axes end.

Lemma others_neq n l d r : String.eqb l n = false -> others n ((l, d) :: r) = (l, d) :: others n r.
Proof. intros H. cbn. now rewrite H. Qed.

Lemma label_dims_spec dims : forall labels time freq feed r,
  label_dims dims labels time freq feed = Ok r <->
  (List.length dims <= List.length labels)%nat /\
  let axes := combine labels dims in
  r = (pick time "time" axes, pick freq "frequency" axes, pick feed "feed_id" axes) /\
  (feed = None -> forall d, size_of "feed_id" axes = Some d -> d = 1) /\
  Forall (fun a => snd a <> 1) (left_over feed "feed_id" (left_over freq "frequency" (left_over time "time" axes))).
Proof.
  induction dims as [|d dims IH]; intros labels time freq feed r.
  - cbn [label_dims]. destruct labels; cbn [combine]; destruct time, freq, feed; cbn;
      (split; [intros [= <-]; repeat split; try constructor; try lia; discriminate | intros (_ & -> & _); reflexivity]).
  - destruct labels as [|l labels]; [cbn; split; [discriminate|intros [H _]; lia]|].
    cbn [label_dims combine List.length].
    destruct (String.eqb l "time") eqn:Et.
    + apply String.eqb_eq in Et. subst l.
      destruct time as [t|].
      * cbn [String.eqb Ascii.eqb Bool.eqb]. 
        assert (N1 : String.eqb "time" "frequency" = false) by reflexivity.
        assert (N2 : String.eqb "time" "feed_id" = false) by reflexivity.
        assert (G : (match freq with Some _ => false | None => false end) = false) by (destruct freq; reflexivity).
        assert (G' : (match feed with Some _ => false | None => false end) = false) by (destruct feed; reflexivity).
        rewrite G, G'.
        destruct (Z.eqb_spec d 1) as [->|Hd].
        -- split; [discriminate|]. intros (_ & _ & _ & H). exfalso.
           destruct freq, feed; cbn in H; apply Forall_inv in H; cbn in H; congruence.
        -- rewrite IH. destruct freq, feed; cbn; split; intros (L & E & B & C);
             (split; [lia|]); (split; [exact E|]); (split; [first [exact B | intros; discriminate]|]);
             solve [now constructor | now apply Forall_inv_tail in C].
      * rewrite IH. destruct freq, feed; cbn; split; intros (L & E & B & C); repeat split; auto; lia.
    + destruct time as [t|]; [|];
      (destruct (String.eqb l "frequency") eqn:Ef;
       [ apply String.eqb_eq in Ef; subst l; destruct freq as [q|];
         [ assert (G' : (match feed with Some _ => false | None => String.eqb "frequency" "feed_id" end) = false) by (destruct feed; reflexivity);
           rewrite G'; destruct (Z.eqb_spec d 1) as [->|Hd];
           [ split; [discriminate|]; intros (_ & _ & _ & H); exfalso; destruct feed; cbn in H; apply Forall_inv in H; cbn in H; congruence
           | rewrite IH; destruct feed; cbn; split; intros (L & E & B & C);
             (split; [lia|]); (split; [exact E|]); (split; [first [exact B | intros; discriminate]|]);
             solve [now constructor | now apply Forall_inv_tail in C] ]
         | rewrite IH; destruct feed; cbn; split; intros (L & E & B & C); repeat split; auto; lia ]
       | destruct (String.eqb l "feed_id") eqn:Eb;
         [ apply String.eqb_eq in Eb; subst l; destruct feed as [b|];
           [ assert (G' : (match freq with Some _ => false | None => false end) = false) by (destruct freq; reflexivity);
             rewrite G'; destruct (Z.eqb_spec d 1) as [->|Hd];
             [ split; [discriminate|]; intros (_ & _ & _ & H); exfalso; destruct freq; cbn in H; apply Forall_inv in H; cbn in H; congruence
             | rewrite IH; destruct freq; cbn; split; intros (L & E & B & C);
               (split; [lia|]); (split; [exact E|]); (split; [first [exact B | intros; discriminate]|]);
               solve [now constructor | now apply Forall_inv_tail in C] ]
           | assert (G' : (match freq with Some _ => false | None => false end) = false) by (destruct freq; reflexivity);
             rewrite G'; destruct (Z.eqb_spec d 1) as [->|Hd];
             [ rewrite IH; destruct freq; cbn; split; intros (L & E & B & C);
               repeat split; auto; try lia; intros; congruence
             | split; [discriminate|]; intros (_ & _ & B & _); exfalso;
               apply Hd, (B eq_refl); cbn; reflexivity ] ]
         | assert (G' : (match freq with Some _ => false | None => false end) = false) by (destruct freq; reflexivity);
           assert (G'' : (match feed with Some _ => false | None => false end) = false) by (destruct feed; reflexivity);
           rewrite G', G''; destruct (Z.eqb_spec d 1) as [->|Hd];
           [ split; [discriminate|]; intros (_ & _ & _ & H); exfalso;
             destruct freq, feed; cbn in H; rewrite ?Et, ?Ef, ?Eb in H; cbn in H; rewrite ?Et, ?Ef, ?Eb in H; cbn in H; rewrite ?Et, ?Ef, ?Eb in H; apply Forall_inv in H; cbn in H; congruence
           | rewrite IH; destruct freq, feed; cbn; rewrite ?Et, ?Ef, ?Eb; cbn; rewrite ?Et, ?Ef, ?Eb; cbn; rewrite ?Et, ?Ef, ?Eb;
             split; intros (L & E & B & C);
             (split; [lia|]); (split; [exact E|]); (split; [first [exact B | intros; discriminate]|]);
             solve [now constructor | now apply Forall_inv_tail in C] ] ] ]).
Qed.

(** ** get_data_shape *)
(** [shape_of axes nchans]: the three sizes, with time and frequency exchanged when only the axis labelled
    time has nchans entries. *)
Definition shape_of (t b c n : Z) : list Z := if (t =? n) && negb (c =? n) then [c; b; t] else [t; b; c].

Lemma get_data_shape_ok f sh :
  get_data_shape f = Ok sh <->
  exists labels n t c, h_labels f = Some labels /\ h_nchans f = Some n /\
    (List.length (h_dims f) <= List.length labels)%nat /\
    let axes := combine labels (h_dims f) in
    size_of "time" axes = Some t /\ size_of "frequency" axes = Some c /\ size_of "feed_id" axes = Some 1 /\
    Forall (fun a => snd a <> 1) (extra axes) /\ sh = shape_of t 1 c n.
Proof.
  unfold get_data_shape. destruct (h_labels f) as [labels|] eqn:EL; cbn [required obind].
  2:{ split; [discriminate|]. intros (? & ? & ? & ? & H & _). discriminate. }
  split.
  - intros H.
    destruct (label_dims (h_dims f) labels None None None) as [r|e|] eqn:E; cbn [obind] in H; try discriminate.
    apply label_dims_spec in E. destruct E as (L & -> & B & X). cbn [pick] in H.
    set (axes := combine labels (h_dims f)) in *.
    destruct (size_of "time" axes) as [t|] eqn:Et; cbn [required obind] in H; try discriminate.
    destruct (size_of "feed_id" axes) as [b|] eqn:Eb; cbn [required obind] in H; try discriminate.
    destruct (size_of "frequency" axes) as [c|] eqn:Ec; cbn [required obind] in H; try discriminate.
    destruct (h_nchans f) as [n|] eqn:En; cbn [required obind] in H; try discriminate.
    pose proof (B eq_refl b eq_refl) as Hb. subst b.
    exists labels, n, t, c. repeat split; auto.
    unfold shape_of. destruct ((t =? n) && negb (c =? n)); injection H as <-; reflexivity.
  - intros (labels' & n & t & c & [= <-] & En & L & Et & Ec & Eb & X & ->).
    assert (E : label_dims (h_dims f) labels None None None = Ok (Some t, Some c, Some 1)).
    { apply label_dims_spec. cbn [pick left_over]. rewrite Et, Ec, Eb. repeat split; auto. intros; congruence. }
    rewrite E. cbn [obind required]. rewrite En. cbn [required obind]. unfold shape_of.
    destruct ((t =? n) && negb (c =? n)); reflexivity.
Qed.

(** Fewer labels than axes: never a shape. *)
Lemma get_data_shape_never_short f labels : h_labels f = Some labels ->
  (List.length labels < List.length (h_dims f))%nat -> forall sh, get_data_shape f <> Ok sh.
Proof.
  intros EL H sh E. apply get_data_shape_ok in E. destruct E as (l' & ? & ? & ? & E & _ & L & _).
  rewrite EL in E. injection E as <-. lia.
Qed.

(** ** read_data on a file with three axes *)
Lemma in_slab3 o0 o1 o2 c0 c1 c2 :
  slab [o0; o1; o2] [c0; c1; c2] =
  flat_map (fun i => flat_map (fun j => map (fun k => [o0 + i; o1 + j; o2 + k]) (zrange c2)) (zrange c1)) (zrange c0).
Proof.
  cbn [slab]. apply flat_map_ext. intros i.
  rewrite map_flat_map. apply flat_map_ext. intros j.
  rewrite map_flat_map, map_flat_map. cbn [map].
  now rewrite flat_map_single, <- flat_map_single.
Qed.

(** The rows [0..T) of a two-dimensional view, columns [o..o+n). *)
Definition rows (view : Z -> Z -> Z) (T o n : Z) : list Z :=
  flat_map (fun t => map (fun c => view t (o + c)) (zrange n)) (zrange T).

Lemma map_ext_zrange {A} (f g : Z -> A) n : (forall i, 0 <= i < n -> f i = g i) -> map f (zrange n) = map g (zrange n).
Proof. intros H. apply map_ext_in. intros i Hi. apply H. now apply in_zrange. Qed.

(** Reading rows of a data set with three axes [d0; 1; d2] in file order. *)
Lemma read_data_rows f d0 d2 o n rowsn sh : h_dims f = [d0; 1; d2] -> get_data_shape f = Ok sh -> 0 <= o ->
  read_data f [0; 0; o] [rowsn; 1; n] =
  if (rowsn <=? d0) && (o + n <=? d2) then Ok (rows (fun t c => h_cell f (t * d2 + c)) rowsn o n) else Throw OtherExn.
Proof.
  intros HD HS Ho. unfold read_data. rewrite HS. cbn [obind]. rewrite HD. cbn [List.length].
  assert (R : slab_fits [d0; 1; d2] [0; 0; o] [rowsn; 1; n] = (rowsn <=? d0) && (o + n <=? d2)).
  { cbn [slab_fits]. lia. }
  change ((3 <? 3)%nat || (3 <? 3)%nat) with false. cbv beta iota.
  rewrite R. destruct ((rowsn <=? d0) && (o + n <=? d2)); [|reflexivity].
  f_equal. rewrite in_slab3. unfold rows. rewrite map_flat_map. apply flat_map_ext. intros t.
  change (zrange 1) with [0]. cbn [flat_map]. rewrite app_nil_r, map_map.
  apply map_ext. intros c. f_equal. cbn [place]. unfold zprod. cbn [fold_right]. lia.
Qed.

Lemma rows_length view T o n : 0 <= T -> 0 <= n -> zlen (rows view T o n) = T * n.
Proof.
  intros HT Hn. unfold rows, zlen. rewrite flat_map_concat_map.
  assert (G : forall l, Z.of_nat (List.length (concat (map (fun t => map (fun c => view t (o + c)) (zrange n)) l))) = Z.of_nat (List.length l) * n).
  { induction l as [|t l IH]; [reflexivity|]. cbn [map concat List.length]. rewrite app_length, Nat2Z.inj_add, IH, map_length.
    pose proof (zrange_length n) as E. unfold zlen in E. rewrite E. lia. }
  rewrite G. pose proof (zrange_length T) as E. unfold zlen in E. rewrite E. lia.
Qed.
