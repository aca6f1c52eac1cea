(** Model of the GPU reductions, /repo/bland/bland/ops/cuda/statistical_cuda.cu and count.cuh.  Definitions only. *)
From Verif Require Export GpuModel RedModel.
Local Open Scope Z_scope.

(** ** Index arithmetic of the kernels *)
(** Adds [inc] to a multi-index over the listed axes, fastest first, and returns what is left in [increment_size]:
    statistical_cuda.cu 152-170 (first element of a thread), 209-226 (next element), 282-291 (next output), 293-314 (next
    fibre), and the same text in the other kernels.  Shapes of zero, where the code divides by zero, are excluded by the
    theorems.  The 32-bit [increment_size] cannot wrap: it starts at most at 1024 and never grows. *)
Fixpoint bump (shape raxes : list Z) (inc : Z) (idx : list Z) : list Z * Z :=
  match raxes with
  | [] => (idx, inc)
  | d :: rest =>
    let i := getz idx d + inc in
    if i <? getz shape d then (setz idx d i, inc)
    else bump shape rest (Z.quot i (getz shape d)) (setz idx d (Z.rem i (getz shape d)))
  end.
(** 124-141: a work item number as a multi-index over the listed axes. *)
Fixpoint unflat (shape raxes : list Z) (w : Z) (idx : list Z) : list Z :=
  match raxes with
  | [] => idx
  | d :: rest => unflat shape rest (Z.quot w (getz shape d)) (setz idx d (Z.rem w (getz shape d)))
  end.
(** 175-178: linear index; the array's offsets are not an argument of the kernels. *)
Fixpoint lin (idx strides : list Z) : Z :=
  match idx, strides with i :: idx', s :: strides' => i * s + lin idx' strides' | _, _ => 0 end.
(** The axes from the last to the first that are reduced, or not (127-141, 154-170). *)
Definition red_rev (n : Z) (axes : list Z) : list Z := rev (filter (fun d => existsb (Z.eqb d) axes) (zrange n)).
Definition keep_rev (n : Z) (axes : list Z) : list Z := rev (kept_axes n axes).
(** Iterations of [for (j = start; j < stop; j += step)]. *)
Definition iterations (start stop step : Z) : nat := Z.to_nat (Z.quot (stop - start + step - 1) step).

(** ** Launch parameters *)
(** 1201-1211: the largest power of two not above the number of reduced elements, at most 512. *)
Definition block_size (n : Z) : Z :=
  if n <? 512 then
    let b := Z.lor n (Z.shiftr n 1) in
    let b := Z.lor b (Z.shiftr b 2) in
    let b := Z.lor b (Z.shiftr b 4) in
    let b := Z.lor b (Z.shiftr b 8) in
    let b := Z.lor b (Z.shiftr b 16) in
    b - Z.shiftr b 1
  else 512.
(** 1214. *)
Definition num_blocks (out_numel : Z) : Z := Z.min 1024 out_numel.

(** ** Memory of a reduction: input, mask, output arrays, and a shared array per block.  The shared arrays sdata, s2data and
    scount are one array of accumulators [S]: thread t touches entry t of all of them between the same barriers.  [GBad] is
    never allocated. *)
Inductive gaddr := GIn (i : Z) | GMask (i : Z) | GOut (k i : Z) | GSh (b t : Z) | GBad.
Definition gaddr_eqb (x y : gaddr) : bool :=
  match x, y with
  | GIn i, GIn j | GMask i, GMask j => i =? j
  | GOut k i, GOut l j | GSh k i, GSh l j => (k =? l) && (i =? j)
  | GBad, GBad => true
  | _, _ => false
  end.

Section Kernel.
  Context {X S C Y : Type}.
  Inductive gval := VX (x : X) | VM (b : Z) | VS (s : S) | VY (y : Y).
  Definition gprog := bprog gaddr gval.
  Definition stuck : gprog := BRd GBad (fun _ => BRet).

  (** What differs between the kernels: the reset value of an accumulator, the initial compensation, one accumulation (with
      the mask, counting included), the division before the tree, the tree's addition, and what thread 0 stores. *)
  Record kernel := Kernel {
    k_masked : bool; k_zero : S; k_comp : C; k_upd : S -> C -> X -> S * C; k_norm : S -> S; k_comb : S -> S -> S;
    k_outs : list (S -> Y); k_chained : bool }.
  Variable K : kernel.
  Variables (osh ost ash ast mst axes : list Z) (rf B G : Z).
  Notation nd := (zlen ash).

  (** 173-227, for thread t of block b: n elements from multi-index idx on, compensation c. *)
  Fixpoint acc_loop (b t : Z) (n : nat) (idx : list Z) (c : C) (k : C -> gprog) : gprog :=
    match n with
    | O => k c
    | Datatypes.S n' =>
      let next := fst (bump ash (red_rev nd axes) B idx) in
      let body :=
        BRd (GIn (lin idx ast)) (fun v => match v with
        | VX x => BRd (GSh b t) (fun u => match u with
                  | VS s => let sc := k_upd K s c x in BWr (GSh b t) (VS (fst sc)) (acc_loop b t n' next (snd sc) k)
                  | _ => stuck end)
        | _ => stuck end) in
      if k_masked K then
        BRd (GMask (lin idx mst)) (fun v => match v with
        | VM m => if m =? 0 then body else acc_loop b t n' next c k
        | _ => stuck end)
      else body
    end.

  (** 243-254. *)
  Fixpoint tree_loop (b t : Z) (fuel : nat) (s : Z) (k : gprog) : gprog :=
    match fuel with
    | O => k
    | Datatypes.S f =>
      if 0 <? s then
        let rest := BBar (tree_loop b t f (Z.quot s 2) k) in
        if t <? s then
          BRd (GSh b t) (fun u => BRd (GSh b (t + s)) (fun v => match u, v with
            | VS x, VS y => BWr (GSh b t) (VS (k_comb K x y)) rest
            | _, _ => stuck end))
        else rest
      else k
    end.

  (** 256-278: thread 0 stores to each output array. *)
  Fixpoint store_outs (k : Z) (fs : list (S -> Y)) (oidx : list (list Z)) (s : S) (p : gprog) : gprog :=
    match fs, oidx with
    | f :: fs', o :: oidx' => BWr (GOut k (lin o ost)) (VY (f s)) (store_outs (k + 1) fs' oidx' s p)
    | _, _ => p
    end.
  Definition write_out (b t : Z) (oidx : list (list Z)) (p : gprog) : gprog :=
    if t =? 0 then BRd (GSh b 0) (fun u => match u with VS s => store_outs 0 (k_outs K) oidx s p | _ => stuck end) else p.

  (** 280-291; in the unmasked mean_stddev (490-511) the second index is advanced by what the first left. *)
  Fixpoint next_outs (inc : Z) (oidx : list (list Z)) : list (list Z) :=
    match oidx with
    | [] => []
    | o :: rest =>
      let ol := bump osh (rev (zrange (zlen osh))) inc o in
      fst ol :: next_outs (if k_chained K then snd ol else inc) rest
    end.

  (** The loop over the outputs of a block, 144-315. *)
  Fixpoint out_loop (b t : Z) (n : nat) (oidx : list (list Z)) (iidx : list Z) (c : C) : gprog :=
    match n with
    | O => BRet
    | Datatypes.S n' =>
      BWr (GSh b t) (VS (k_zero K))
        (acc_loop b t (iterations t rf B) (fst (bump ash (red_rev nd axes) t iidx)) c (fun c' =>
          BRd (GSh b t) (fun u => match u with
          | VS s => BWr (GSh b t) (VS (k_norm K s)) (BBar
              (tree_loop b t (Z.to_nat B) (Z.quot B 2)
                (write_out b t oidx
                  (out_loop b t n' (next_outs G oidx) (fst (bump ash (keep_rev nd axes) G iidx)) c'))))
          | _ => stuck end)))
    end.

  Definition onumel := zprod osh.
  Definition thread (b t : Z) : gprog :=
    out_loop b t (iterations b onumel G)
      (map (fun _ => unflat osh (rev (zrange (zlen osh))) b (map (fun _ => 0) osh)) (k_outs K))
      (unflat ash (keep_rev nd axes) b (map (fun _ => 0) ash)) (k_comp K).
  Definition blocks : list (list gprog) := map (fun b => map (thread b) (zrange B)) (zrange G).

  (** Before the launch. *)
  Definition gmem0 (x : mem X) (mask : mem Z) (junkS : Z -> Z -> S) (junkY : Z -> Z -> Y) : gpumem (A := gaddr) (V := gval) :=
    fun a => match a with
    | GIn i => option_map VX (znth x i)
    | GMask i => option_map VM (znth mask i)
    | GOut k i => if (0 <=? k) && (k <? zlen (k_outs K)) && (0 <=? i) && (i <? onumel) then Some (VY (junkY k i)) else None
    | GSh b t => if (0 <=? b) && (b <? G) && (0 <=? t) && (t <? B) then Some (VS (junkS b t)) else None
    | GBad => None
    end.
End Kernel.
Arguments gval : clear implicits.
Arguments gprog : clear implicits.
Arguments kernel : clear implicits.

(** [statistical_launch_wrapper::call] 1173-1240, [mean_stddev_wrapper] and the comparison wrapper: the grid for arrays [l]
    (input), [lm] (mask) with a fresh output.  Index arrays hold four dimensions (MAX_NDIM, 51): more is undefined
    behaviour.  Offsets are read (1177, 1187) but not used. *)
Definition launch {X S C Y} (K : kernel X S C Y) (l lm : layout) (axes : list Z) : outcome (list (list (gprog X S Y))) :=
  let axes' := match axes with [] => zrange (ndim l) | _ => axes end in
  let osh := reduced_shape (l_shape l) axes in
  let rf := zprod (map (getz (l_shape l)) axes') in
  if (4 <? ndim l) || (4 <? zlen osh) then UB else
  Ok (blocks K osh (l_strides (dense osh)) (l_shape l) (l_strides l) (l_strides lm) axes' rf (block_size rf) (num_blocks (zprod osh))).
