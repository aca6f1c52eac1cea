(** Model of the local-maxima search on a GPU, /repo/bliss/drift_search/kernels/local_maxima_cuda.cu 13-196.  Definitions only. *)
From Verif Require Export CcModel Machine.
Local Open Scope Z_scope.

(** A slot of the result vector ([device_protohit], core/include/core/protohit.hpp 30-43) as far as the kernel writes it;
    [None]: not written. *)
Record dslot (F : Type) := Slot {
  sl_max : option coord; sl_snr : option F; sl_power : option F; sl_noise : option F; sl_width : option Z; sl_center : option coord }.
Arguments Slot {F}. Arguments sl_max {F}. Arguments sl_snr {F}. Arguments sl_power {F}. Arguments sl_noise {F}.
Arguments sl_width {F}. Arguments sl_center {F}.
Definition blank {F} : dslot F := Slot None None None None None None.

Section LmCuda.
  Context {F : Type}.
  Variable snr : F -> F -> F.             (* (value - noise_floor) / noise *)
  Variables (gt lt : F -> F -> bool) (thr : F).
  Variables (D N L : Z) (spec noise : list F).

  (** 33-39: the plane is indexed as if dense. *)
  Definition lg_at (c : coord) : outcome (F * F * F) :=
    let! x := load spec (fst c * N + snd c) in
    let! w := zget noise (fst c) in
    Ok (x, w, snr x w).
  (** 42-68: no neighbour is outside the grid or stronger; [goto] leaves both loops. *)
  Fixpoint lg_near (c : coord) (s : F) (offs : list coord) : outcome bool :=
    match offs with
    | [] => Ok true
    | o :: offs' =>
      if in_grid D N (move c o) then
        let! xws := lg_at (move c o) in
        if gt (snd xws) s then Ok false else lg_near c s offs'
      else Ok false
    end.
  (** 80-127: the channel at which each do-while loop stops; the last candidate is outside the plane. *)
  Fixpoint lg_edge (w : F) (d : Z) (edge : F) (cand : list Z) : outcome Z :=
    match cand with
    | [] => UB
    | f :: cand' =>
      if (0 <=? f) && (f <? N) then
        let! x := load spec (d * N + f) in
        if gt (snr x w) thr && lt x edge then lg_edge w d x cand' else Ok f
      else Ok f
    end.

  (** The writes of one protohit, in program order: 73-76, 129-131. *)
  Record dhit := DHit { dh_max : coord; dh_snr : F; dh_power : F; dh_noise : F; dh_width : Z; dh_center : coord }.
  Definition fields (h : dhit) : list (dslot F -> dslot F) :=
    [ (fun s => Slot (Some (dh_max h)) (sl_snr s) (sl_power s) (sl_noise s) (sl_width s) (sl_center s));
      (fun s => Slot (sl_max s) (Some (dh_snr h)) (sl_power s) (sl_noise s) (sl_width s) (sl_center s));
      (fun s => Slot (sl_max s) (sl_snr s) (Some (dh_power h)) (sl_noise s) (sl_width s) (sl_center s));
      (fun s => Slot (sl_max s) (sl_snr s) (sl_power s) (Some (dh_noise h)) (sl_width s) (sl_center s));
      (fun s => Slot (sl_max s) (sl_snr s) (sl_power s) (sl_noise s) (Some (dh_width h)) (sl_center s));
      (fun s => Slot (sl_max s) (sl_snr s) (sl_power s) (sl_noise s) (sl_width s) (Some (dh_center h))) ].

  (** What the iteration for bin [n] stores, if anything, 28-131.  The plane and the noise are only read, so the reads of an
      iteration are taken together. *)
  Definition lg_hit (n : Z) : outcome (option dhit) :=
    let c := (n / N, n mod N) in
    let! xws := lg_at c in
    let '(x, w, s) := xws in
    if gt s thr then
      let! best := lg_near c s (l1_offsets L) in
      if best then
        let! lo := lg_edge w (fst c) x (down_from (snd c)) in
        let! hi := lg_edge w (fst c) x (up_from N (snd c)) in
        Ok (Some (DHit c s x w (hi - lo) (fst c, Z.quot (hi + lo) 2)))
      else Ok None
    else Ok None.

  (** A thread: about to look at bin [n], or storing the remaining fields of the hit of bin [n] in slot [k]. *)
  Inductive lgst := LgAt (n : Z) | LgFill (n k : Z) (ws : list (dslot F -> dslot F)).
  Definition lgmem := (Z * (Z -> dslot F))%type.      (* *number_protohits, protohits *)
  (** 512 blocks of one thread (162-165: the launch parameters are swapped): the step of the loop is 512; int overflow. *)
  Definition lg_next (n : Z) : outcome Z := if n + 512 <? 2 ^ 31 then Ok (n + 512) else UB.
  Definition lg_step (cap : Z) (m : lgmem) (s : lgst) : option (outcome (lgmem * lgst)) :=
    match s with
    | LgAt n =>
      if n <? D * N then Some (
        let! h := lg_hit n in
        match h with
        | None => let! n' := lg_next n in Ok (m, LgAt n')
        | Some h => Ok ((fst m + 1, snd m), LgFill n (fst m) (fields h))       (* atomicAdd *)
        end)
      else None
    | LgFill n k [] => Some (let! n' := lg_next n in Ok (m, LgAt n'))
    | LgFill n k (w :: ws) => Some (
        if (0 <=? k) && (k <? cap) then Ok ((fst m, fun i => if i =? k then w (snd m i) else snd m i), LgFill n k ws) else UB)
    end.

  (** 177-193: the first [*dev_num_maxima] slots; the counters of flagged bins are not filled in. *)
  Definition export_slot (s : dslot F) : option (protohit F) :=
    match s with
    | Slot (Some mx) (Some sn) (Some p) (Some w) (Some wd) (Some ce) => Some (Protohit mx ce sn p (Some w) wd [] None)
    | _ => None
    end.
  Definition lg_export (m : lgmem) : list (option (protohit F)) := map (fun k => export_slot (snd m k)) (zrange (fst m)).
End LmCuda.
Arguments dhit : clear implicits.
Arguments DHit {F}. Arguments dh_max {F}. Arguments dh_snr {F}. Arguments dh_power {F}. Arguments dh_noise {F}.
Arguments dh_width {F}. Arguments dh_center {F}.
Arguments lgst : clear implicits. Arguments lgmem : clear implicits.

(** [find_local_maxima_above_threshold_cuda] 136-196: the shape is narrowed to int32_t, the bins are counted in int, the vector has
    room for numel / (distance * distance) hits. *)
Definition lg_threads {F} : list (lgst F) := map LgAt (zrange 512).
Definition lg_launch {F} (ls : layout) (L : Z) : outcome (Z * Z * Z * (lgmem F * list (lgst F))) :=
  match l_shape ls with
  | [sd; sn] =>
    let D := to_int32 sd in let N := to_int32 sn in
    if (L =? 0) || negb (L * L <? 2 ^ 31) || negb ((- 2 ^ 31 <=? D * N) && (D * N <? 2 ^ 31)) then UB
    else Ok (D, N, Z.quot (numel ls) (L * L), ((0, fun _ => blank), lg_threads))
  | _ => UB
  end.
