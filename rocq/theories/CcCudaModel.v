(** Model of the GPU component search: kernels/connected_components_cuda.cu of
    /repo/bliss/drift_search (the collecting kernel, lines 266-311, is in CcCollect.v).  Each kernel is a set of threads whose
    accesses to device words interleave arbitrarily (sequentially consistent words; word-sized
    accesses are taken to be atomic).  Reads of data that no thread of the same kernel writes are
    folded into the next step.  Definitions only. *)
From Verif Require Export CcModel DriftModel Machine.
Local Open Scope Z_scope.

(** Device memory.  [g_claims]: the bins that incremented *number_protohits, in order, so the counter
    is 8 plus their number (the host starts it at 8, line 360).  [g_max], [g_inv]: index_max (as a
    linear index) and invalidated_by of the protohit table; untouched entries have no index and
    invalidated_by = -1 (core/include/core/protohit.hpp 30-43). *)
Record gmem := Gmem { g_labels : list Z; g_claims : list Z; g_max : list (option Z); g_inv : list Z }.

Inductive cls := Skip | Peak | Under (j : Z).

Section Kernels.
  Context {F : Type}.
  Variables (snr : F -> F -> F) (gt : F -> F -> bool) (thr half : F).
  Variables (D N L : Z) (spec noise : list F).
  Notation ls := (dense [D; N]).
  (** [n / number_channels], [n % number_channels]. *)
  Definition coord_of (n : Z) : coord := (Z.quot n N, Z.rem n N).
  Definition index_of_coord (c : coord) : Z := fst c * N + snd c.

  (** ** initialize_components_kernel, lines 13-104 *)
  (** Lines 53-79: best neighbour so far; [None] is the jump to [done]. *)
  Fixpoint steepest (c : coord) (offs : list coord) (best : F) (bi : Z) (ismax : bool)
    : outcome (option (bool * Z)) :=
    match offs with
    | [] => Ok (Some (ismax, bi))
    | o :: offs' =>
      let nb := move c o in
      if in_grid D N nb then
        let! xws := bin_snr snr ls spec noise nb in
        if gt (snd xws) best then steepest c offs' (snd xws) (index_of_coord nb) false
        else steepest c offs' best bi ismax
      else Ok None
    end.
  Definition classify (n : Z) : outcome cls :=
    let c := coord_of n in
    let! xws := bin_snr snr ls spec noise c in
    let s := snd xws in
    if gt s half then
      let! r := steepest c (l1_offsets L) s (index_of_coord c) true in
      match r with
      | None => Ok Skip
      | Some (true, _) => Ok (if gt s thr then Peak else Skip)
      | Some (false, j) => Ok (Under j)
      end
    else Ok Skip.

  (** [todo]: remaining bins of the grid-stride loop. *)
  Inductive istate := IIdle (todo : list Z) | IFill (n id : Z) (todo : list Z) | ILabel (n id : Z) (todo : list Z).
  (** [nmax]: n_max_protohits, also the size of the protohit table. *)
  Definition init_step (nmax : Z) (m : gmem) (s : istate) : option (outcome (gmem * istate)) :=
    match s with
    | IIdle [] => None
    | IIdle (n :: t) =>
      Some (let! c := classify n in
            match c with
            | Skip => Ok (m, IIdle t)
            | Under j => let! l := store (g_labels m) n (nmax + j) in
                         Ok (Gmem l (g_claims m) (g_max m) (g_inv m), IIdle t)
            | Peak => Ok (Gmem (g_labels m) (g_claims m ++ [n]) (g_max m) (g_inv m), IFill n (8 + zlen (g_claims m)) t)
            end)
    | IFill n id t =>
      Some (let! a := store (g_max m) id (Some n) in
            let! b := store (g_inv m) id 0 in
            Ok (Gmem (g_labels m) (g_claims m) a b, ILabel n id t))
    | ILabel n id t =>
      Some (let! l := store (g_labels m) n id in
            Ok (Gmem l (g_claims m) (g_max m) (g_inv m), IIdle t))
    end.

  (** ** resolve_labels and find_root, lines 106-153; [fnl]: first_nonroot_label *)
  Inductive rstate := RIdle (todo : list Z) | RTop (n : Z) (todo : list Z) | RClimb (n comp : Z) (todo : list Z).
  Definition resolve_step (fnl : Z) (lab : list Z) (s : rstate) : option (outcome (list Z * rstate)) :=
    match s with
    | RIdle [] => None
    | RIdle (n :: t) =>
      Some (let! v := load lab n in
            Ok (lab, if (8 <=? v) && (fnl <? v) then RTop n t else RIdle t))
    | RTop n t => Some (let! v := load lab n in Ok (lab, RClimb n v t))
    | RClimb n comp t =>
      Some (if fnl <? comp then let! v := load lab (comp - fnl) in Ok (lab, RClimb n v t)
            else let! lab' := store lab n (if comp <? fnl then comp else 0) in Ok (lab', RIdle t))
    end.

  (** ** merge_labels, lines 155-264 *)
  (** Lines 185-201: neighbours looked at; both loops are left at the first one outside. *)
  Fixpoint seen_drifts (c : coord) (fo : Z) (drs : list Z) : list coord :=
    match drs with
    | [] => []
    | dr :: drs' => if (0 <=? fst c + dr) && (fst c + dr <? D) then move c (dr, fo) :: seen_drifts c fo drs' else []
    end.
  Fixpoint seen (c : coord) (fos : list Z) : list coord :=
    match fos with
    | [] => []
    | fo :: fos' =>
      if (0 <=? snd c + fo) && (snd c + fo <? N)
      then seen_drifts c fo (zspan (- L + Z.abs fo) (L - Z.abs fo)) ++ seen c fos' else []
    end.
  Definition neighbours (n : Z) : list Z := map index_of_coord (seen (coord_of n) (zspan (- L) L)).

  Fixpoint load_all (lab : list Z) (ns : list Z) : outcome (list Z) :=
    match ns with
    | [] => Ok []
    | n :: ns' => let! v := load lab n in let! vs := load_all lab ns' in Ok (v :: vs)
    end.

  (** Signal-to-noise ratio and linear index of a table entry. *)
  Definition entry (mx : list (option Z)) (id : Z) : outcome (F * Z) :=
    let! o := zget mx id in
    match o with
    | None => UB                       (* snr was never written *)
    | Some n => let! xws := bin_snr snr ls spec noise (coord_of n) in Ok (snd xws, index_of_coord (coord_of n))
    end.
  (** Lines 223-245: (to_invalidate, merged_root). *)
  Definition pick (mx : list (option Z)) (p q : Z) : outcome (Z * Z) :=
    let! a := entry mx p in
    let! b := entry mx q in
    Ok (if gt (fst a) (fst b) then (q, p)
        else if gt (fst b) (fst a) then (p, q)
        else if snd b <? snd a then (p, q) else (q, p)).

  Inductive mstate :=
  | MIdle (todo : list Z)
  | MFirst (p : Z) (ids todo : list Z)       (* lines 178-181 *)
  | MNext (p : Z) (ids todo : list Z)
  | MPix (p q : Z) (ids todo : list Z)       (* lines 213-215 *)
  | MNbr (p q : Z) (ids todo : list Z)       (* lines 216-221 *)
  | MCas (p q : Z) (ids todo : list Z).      (* lines 223-256 *)
  Definition merge_step (lab : list Z) (mx : list (option Z)) (inv : list Z) (s : mstate)
    : option (outcome (list Z * mstate)) :=
    match s with
    | MIdle [] => None
    | MIdle (n :: t) =>
      Some (let! v := load lab n in
            if 8 <=? v then
              let! vs := load_all lab (neighbours n) in
              Ok (inv, MFirst v (filter (Z.leb 8) vs) t)
            else Ok (inv, MIdle t))
    | MFirst p ids t =>
      Some (let! v := load inv p in Ok (inv, if v =? 0 then MNext p ids t else MFirst v ids t))
    | MNext p [] t => Some (Ok (inv, MIdle t))
    | MNext p (q :: ids) t => Some (Ok (inv, MPix p q ids t))
    | MPix p q ids t =>
      Some (let! v := load inv p in Ok (inv, if v =? 0 then MNbr p q ids t else MPix v q ids t))
    | MNbr p q ids t =>
      Some (let! v := load inv q in
            Ok (inv, if v =? 0 then (if p =? q then MNext p ids t else MCas p q ids t) else MNbr p v ids t))
    | MCas p q ids t =>
      Some (let! r := pick mx p q in
            let! v := load inv (fst r) in
            if v =? 0 then let! inv' := store inv (fst r) (snd r) in Ok (inv', MNext p ids t)
            else Ok (inv, MPix p q ids t))
    end.

  (** ** The host function, lines 335-494 *)
  (** Grid-stride loops of [G] threads. *)
  Definition work (G : Z) : list (list Z) := map (fun tid => grid_stride (Z.to_nat (D * N)) tid G (D * N)) (zrange G).
  (** Number of table entries, line 354. *)
  Definition table_size : outcome Z := if L * L =? 0 then UB else Ok (Z.quot (D * N) (L * L)).
  Definition fresh_mem (nmax : Z) : gmem :=
    Gmem (map (fun _ => 0) (zrange (D * N))) [] (map (fun _ => None) (zrange nmax)) (map (fun _ => -1) (zrange nmax)).

  (** One run of the three kernels with [G] threads each: [cuda_run G m] when some schedule ends with
      memory [m]. *)
  Inductive cuda_run (G : Z) : gmem -> Prop :=
  | Cuda_run nmax m1 ss1 lab ss2 inv ss3 :
      table_size = Ok nmax ->
      msteps (init_step nmax) (fresh_mem nmax, map IIdle (work G)) (Ok (m1, ss1)) -> halted (init_step nmax) (m1, ss1) ->
      msteps (resolve_step nmax) (g_labels m1, map RIdle (work G)) (Ok (lab, ss2)) -> halted (resolve_step nmax) (lab, ss2) ->
      msteps (merge_step lab (g_max m1)) (g_inv m1, map MIdle (work G)) (Ok (inv, ss3)) -> halted (merge_step lab (g_max m1)) (inv, ss3) ->
      cuda_run G (Gmem lab (g_claims m1) (g_max m1) inv).
  (** Some schedule goes wrong. *)
  Inductive cuda_wrong (G : Z) : Prop :=
  | Wrong_size : table_size = UB -> cuda_wrong G
  | Wrong_init nmax : table_size = Ok nmax ->
      msteps (init_step nmax) (fresh_mem nmax, map IIdle (work G)) UB -> cuda_wrong G
  | Wrong_resolve nmax m1 ss1 : table_size = Ok nmax ->
      msteps (init_step nmax) (fresh_mem nmax, map IIdle (work G)) (Ok (m1, ss1)) -> halted (init_step nmax) (m1, ss1) ->
      msteps (resolve_step nmax) (g_labels m1, map RIdle (work G)) UB -> cuda_wrong G
  | Wrong_merge nmax m1 ss1 lab ss2 : table_size = Ok nmax ->
      msteps (init_step nmax) (fresh_mem nmax, map IIdle (work G)) (Ok (m1, ss1)) -> halted (init_step nmax) (m1, ss1) ->
      msteps (resolve_step nmax) (g_labels m1, map RIdle (work G)) (Ok (lab, ss2)) -> halted (resolve_step nmax) (lab, ss2) ->
      msteps (merge_step lab (g_max m1)) (g_inv m1, map MIdle (work G)) UB -> cuda_wrong G.

  (** Exported protohits (lines 453-491): entries 8 .. counter-1 with invalidated_by == 0; their peaks. *)
  Definition survivors (m : gmem) : list (option Z) :=
    map (fun id => match znth (g_max m) id with Some o => o | None => None end)
        (filter (fun id => match znth (g_inv m) id with Some v => v =? 0 | None => false end)
                (map (fun i => 8 + i) (zrange (zlen (g_claims m))))).
End Kernels.
