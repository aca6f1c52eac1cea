(** Model of the protohit searches on the CPU: connected components and local maxima.  Paths are
    relative to /repo/bliss/drift_search.  Definitions only. *)
From Verif Require Export NdModel.
Local Open Scope Z_scope.

(** (drift_index, frequency_channel), core/include/core/protohit.hpp 12-15. *)
Definition coord := (Z * Z)%type.

(** A computation with a step budget: [None] means that the budget ran out, not a program outcome. *)
Definition run (A : Type) := option (outcome A).
Definition rbind {A B} (m : run A) (k : A -> run B) : run B :=
  match m with
  | None => None
  | Some (Ok a) => k a
  | Some (Throw e) => Some (Throw e)
  | Some UB => Some UB
  end.
Notation "'let?' x ':=' m 'in' k" := (rbind m (fun x => k)) (at level 61, x pattern, m at next level, right associativity).
Definition lift {A} (o : outcome A) : run A := Some o.

(** [coord.drift_index * strides[0] + coord.frequency_channel * strides[1]]: strides only, the view's
    offsets are not used. *)
Definition lin (l : layout) (c : coord) : Z :=
  fst c * nth 0 (l_strides l) 0 + snd c * nth 1 (l_strides l) 0.
Definition in_grid (D N : Z) (c : coord) : bool :=
  (0 <=? fst c) && (fst c <? D) && (0 <=? snd c) && (snd c <? N).
Definition move (c o : coord) : coord := (fst c + fst o, snd c + snd o).

(** ** The queue loop shared by the two component searches *)
Section Queue.
  Context {A : Type}.
  Variables (D N : Z) (lv : layout).
  Variables (taken : Z -> bool) (mark : Z -> Z).       (* test and update of a [visited]/mask cell *)
  Variable prune : bool.                               (* are taken neighbours left out of the queue? *)
  Variable offsets : list coord.                       (* neighbourhood, in push order *)
  Variables (test : coord -> outcome bool) (member : coord -> A -> outcome A).

  (** Neighbours pushed for [c]. *)
  Fixpoint pushes (vis : mem Z) (c : coord) (offs : list coord) : outcome (list coord) :=
    match offs with
    | [] => Ok []
    | o :: offs' =>
      let nb := move c o in
      if in_grid D N nb then
        if prune then
          let! v := load vis (lin lv nb) in
          let! rest := pushes vis c offs' in
          Ok (if taken v then rest else nb :: rest)
        else let! rest := pushes vis c offs' in Ok (nb :: rest)
      else pushes vis c offs'
    end.

  Fixpoint queue_loop (fuel : nat) (vis : mem Z) (queue : list coord) (acc : A) : run (mem Z * A) :=
    match queue with
    | [] => Some (Ok (vis, acc))
    | c :: queue' =>
      match fuel with
      | O => None
      | S fuel' =>
        let? v := lift (load vis (lin lv c)) in
        if taken v then queue_loop fuel' vis queue' acc
        else
          let? vis' := lift (store vis (lin lv c) (mark v)) in
          let? ok := lift (test c) in
          if ok then
            let? acc' := lift (member c acc) in
            let? new := lift (pushes vis' c offsets) in
            queue_loop fuel' vis' (queue' ++ new) acc'
          else queue_loop fuel' vis' queue' acc
      end
    end.
End Queue.

(** [if (++frequency_channel == shape[1]) { ++drift_index; frequency_channel = 0; }] *)
Definition next_coord (N : Z) (c : coord) : coord :=
  if snd c + 1 =? N then (fst c + 1, 0) else (fst c, snd c + 1).

(** The scan over all bins: [body] may produce one component. *)
Fixpoint scan {S} (body : coord -> S -> run S) (N : Z) (n : nat) (c : coord) (s : S) : run S :=
  match n with
  | O => Some (Ok s)
  | S n' => let? s' := body c s in scan body N n' (next_coord N c) s'
  end.

(** ** [find_components_in_binary_mask_cpu] kernels/connected_components_cpu.cpp 14-79.
    Components are their locations; the other protohit fields stay uninitialised there.
    [offsets]: the neighborhood argument as (drift, frequency) pairs. *)
Definition mask_taken (v : Z) : bool := negb (0 <? v).
Definition mask_components (fuel : nat) (junk : Z -> Z) (lm : layout) (mask : mem Z) (offsets : list coord)
  : run (list (list coord)) :=
  match l_shape lm with
  | [D; N] =>
    let lv := dense [D; N] in
    let? data := lift (assign_slice (fun x => x) lv lm (map junk (zrange (D * N))) mask) in
    let? r := scan (fun c (s : mem Z * list (list coord)) =>
        let (vis, comps) := s in
        let? v := lift (load vis (lin lv c)) in
        if 0 <? v then
          let? r := queue_loop D N lv mask_taken (fun _ => 0) false offsets
                      (fun _ => Ok true) (fun c acc => Ok (acc ++ [c])) fuel vis [c] [] in
          Some (Ok (fst r, comps ++ [snd r]))
        else Some (Ok (vis, comps)))
      N (Z.to_nat (numel lv)) (0, 0) (data, []) in
    Some (Ok (snd r))
  | _ => Some UB
  end.

(** ** [find_components_above_threshold_cpu] kernels/connected_components_cpu.cpp 81-221 *)

(** core/include/core/protohit.hpp 17-26.  [None]: uninitialised (noise) or absent (rfi map). *)
Record protohit (F : Type) := Protohit {
  ph_max : coord; ph_center : coord; ph_snr : F; ph_power : F; ph_noise : option F;
  ph_width : Z; ph_locs : list coord; ph_rfi : option (Z * Z * Z) }.
Arguments Protohit {F}. Arguments ph_max {F}. Arguments ph_center {F}. Arguments ph_snr {F}.
Arguments ph_power {F}. Arguments ph_noise {F}. Arguments ph_width {F}. Arguments ph_locs {F}.
Arguments ph_rfi {F}.

(** Offsets visited by the two neighbour loops (lines 165-166), as (drift, frequency) pairs. *)
Definition zspan (a b : Z) : list Z := map (fun i => a + i) (zrange (b - a)).
Definition l1_offsets (L : Z) : list coord :=
  flat_map (fun fo => map (fun dr => (dr, fo)) (zspan (- L + Z.abs fo) (L - Z.abs fo))) (zspan (- L) L).

Section Threshold.
  Context {F : Type}.
  Variable snr : F -> F -> F.             (* (value - noise_floor) / noise *)
  Variable gt : F -> F -> bool.           (* > on floats *)
  Variables (thr half : F).               (* snr_threshold, snr_threshold/2 *)
  Variables (fmin fzero : F).             (* std::numeric_limits<float>::min(), 0 *)

  Definition bin_snr (ls : layout) (spec noise : list F) (c : coord) : outcome (F * F * F) :=
    let! x := load spec (lin ls c) in
    let! w := zget noise (fst c) in
    Ok (x, w, snr x w).

  (** Lines 144-165: statistics of the cluster; the counters are read at the scan position [seed]. *)
  Definition cc_member (ls : layout) (spec noise : list F) (rfi : coord -> outcome (Z * Z * Z)) (seed : coord)
             (c : coord) (p : protohit F) : outcome (protohit F) :=
    let! xws := bin_snr ls spec noise c in
    let '(x, w, s) := xws in
    let! p' :=
      if gt s (ph_snr p) then
        let! r := rfi seed in
        Ok (Protohit c (ph_center p) s x (Some w) (ph_width p) (ph_locs p) (Some r))
      else Ok p in
    Ok (Protohit (ph_max p') (ph_center p') (ph_snr p') (ph_power p') (ph_noise p') (ph_width p')
                 (ph_locs p' ++ [c]) (ph_rfi p')).

  Definition cc_test (ls : layout) (spec noise : list F) (c : coord) : outcome bool :=
    let! xws := bin_snr ls spec noise c in
    Ok (gt (snd xws) half).

  (** Lines 191-208: extent along frequency at the peak drift. *)
  Definition freq_extent (peak : coord) (locs : list coord) : Z * Z :=
    fold_left (fun (lu : Z * Z) l =>
      if fst l =? fst peak then
        if snd lu <? snd l then (fst lu, snd l)
        else if snd l <? fst lu then (snd l, snd lu) else lu
      else lu) locs (snd peak, snd peak).
  Definition cc_finish (p : protohit F) : protohit F :=
    let '(lo, up) := freq_extent (ph_max p) (ph_locs p) in
    Protohit (ph_max p) (fst (ph_max p), Z.quot (up + lo) 2) (ph_snr p) (ph_power p) (ph_noise p)
             (to_int32 (up - lo)) (ph_locs p) (ph_rfi p).

  (** A new component: lines 124-126; index_max and index_center default to (0,0), binwidth is not
      initialised (0 here, overwritten by [cc_finish]). *)
  Definition cc_start : protohit F := Protohit (0, 0) (0, 0) fmin fzero None 0 [] None.

  (** Three counters as scalarized arrays. *)
  Definition rfi_at (low high roll : layout * mem Z) (c : coord) : outcome (Z * Z * Z) :=
    let! a := scalarize (snd low) (fst low) [fst c; snd c] in
    let! b := scalarize (snd high) (fst high) [fst c; snd c] in
    let! d := scalarize (snd roll) (fst roll) [fst c; snd c] in
    Ok (a, b, d).

  (** [visited] is a fresh array of the same shape filled with 0 (lines 98-99).
      neighbor_l1_dist + arithmetic is assumed not to overflow int. *)
  Definition cc_cpu (fuel : nat) (ls : layout) (spec noise : list F) (low high roll : layout * mem Z) (L : Z)
    : run (list (protohit F)) :=
    match l_shape ls with
    | [D; N] =>
      let lv := dense [D; N] in
      let? r := scan (fun c (s : mem Z * list (protohit F)) =>
          let (vis, comps) := s in
          let? v := lift (load vis (lin lv c)) in
          let? xws := lift (bin_snr ls spec noise c) in
          if (v =? 0) && gt (snd xws) thr then
            let? r := queue_loop D N lv (fun v => negb (v =? 0)) (fun v => to_uint8 (v + 1)) true (l1_offsets L)
                        (cc_test ls spec noise)
                        (cc_member ls spec noise (rfi_at low high roll) c)
                        fuel vis [c] cc_start in
            Some (Ok (fst r, comps ++ [cc_finish (snd r)]))
          else Some (Ok (vis, comps)))
        N (Z.to_nat (numel ls)) (0, 0) (map (fun _ => 0) (zrange (D * N)), []) in
      Some (Ok (snd r))
    | _ => Some UB
    end.

  (** ** [find_local_maxima_above_threshold_cpu] kernels/local_maxima_cpu.cpp 11-186 *)
  Variable lt : F -> F -> bool.           (* < on values *)
  Variable rtol : F -> F.                 (* rtol * x with rtol = 1.0f *)

  (** Inner neighbour loop (line 53) for one frequency offset; [break] leaves this loop only. *)
  Fixpoint lm_inner (D N : Z) (ls lv : layout) (spec noise : list F) (c : coord) (s : F) (fo : Z)
           (drifts : list Z) (vis : mem Z) (best : bool) : outcome (mem Z * bool) :=
    match drifts with
    | [] => Ok (vis, best)
    | dr :: drifts' =>
      let nb := move c (dr, fo) in
      if in_grid D N nb then
        let! xws := bin_snr ls spec noise nb in
        if gt s (rtol (snd xws)) then
          let! vis' := store vis (lin lv nb) 0 in
          lm_inner D N ls lv spec noise c s fo drifts' vis' best
        else Ok (vis, false)
      else Ok (vis, false)
    end.
  Fixpoint lm_outer (D N : Z) (ls lv : layout) (spec noise : list F) (L : Z) (c : coord) (s : F)
           (freqs : list Z) (vis : mem Z) (best : bool) : outcome (mem Z * bool) :=
    match freqs with
    | [] => Ok (vis, best)
    | fo :: freqs' =>
      let! r := lm_inner D N ls lv spec noise c s fo (zspan (- L + Z.abs fo) (L - Z.abs fo)) vis best in
      lm_outer D N ls lv spec noise L c s freqs' (fst r) (snd r)
    end.

  (** The two do-while loops, 113-142 and 144-171: walk over the channels [cand] until one is outside
      [0, N), below threshold or not decreasing; the channel reached is the edge.  The last candidate
      is outside, so the list never runs out. *)
  Fixpoint lm_edge (N : Z) (ls lv : layout) (spec : list F) (w : F) (d : Z) (edge : F) (cand : list Z)
           (vis : mem Z) : outcome (mem Z * Z) :=
    match cand with
    | [] => UB
    | f :: cand' =>
      if (0 <=? f) && (f <? N) then
        let! x := load spec (lin ls (d, f)) in
        if gt (snr x w) thr && lt x edge then
          let! vis' := store vis (lin lv (d, f)) 0 in
          lm_edge N ls lv spec w d x cand' vis'
        else Ok (vis, f)
      else Ok (vis, f)
    end.
  Definition down_from (f : Z) : list Z := map (fun i => f - 1 - i) (zrange (f + 1)).
  Definition up_from (N f : Z) : list Z := map (fun i => f + 1 + i) (zrange (N - f)).

  (** One scan position, lines 40-180. *)
  Definition lm_body (D N : Z) (ls lv : layout) (spec noise : list F) (low high roll : layout * mem Z) (L : Z)
             (c : coord) (st : mem Z * list (protohit F)) : outcome (mem Z * list (protohit F)) :=
    let (vis, found) := st in
    let! v := load vis (lin lv c) in
    if 0 <? v then
      let! vis1 := store vis (lin lv c) 0 in
      let! xws := bin_snr ls spec noise c in
      let '(x, w, s) := xws in
      if gt s thr then
        let! r := lm_outer D N ls lv spec noise L c s (zspan (- L) L) vis1 true in
        let (vis2, best) := r in
        if best then
          let! rf := rfi_at low high roll c in
          let! dn := lm_edge N ls lv spec w (fst c) x (down_from (snd c)) vis2 in
          let! up := lm_edge N ls lv spec w (fst c) x (up_from N (snd c)) (fst dn) in
          Ok (fst up, found ++ [Protohit c (fst c, Z.quot (snd up + snd dn) 2) s x (Some w)
                                         (to_int32 (snd up - snd dn)) [c] (Some rf)])
        else Ok (vis2, found)
      else Ok (vis1, found)
    else Ok (vis, found).

  Definition lm_cpu (ls : layout) (spec noise : list F) (low high roll : layout * mem Z) (L : Z)
    : run (list (protohit F)) :=
    match l_shape ls with
    | [D; N] =>
      let lv := dense [D; N] in
      let? r := scan (fun c s => lift (lm_body D N ls lv spec noise low high roll L c s))
        N (Z.to_nat (numel ls)) (0, 0) (map (fun _ => 1) (zrange (D * N)), []) in
      Some (Ok (snd r))
    | _ => Some UB
    end.
End Threshold.
