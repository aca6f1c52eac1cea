(** Model of the drift integration kernels.  Paths are relative to /repo/bliss/drift_search unless
    they start with bland/ or core/.  Definitions only. *)
From Verif Require Export NdModel.
Local Open Scope Z_scope.

(** What the kernels read of a [drift_rate] (core/include/core/frequency_drift_plane.hpp): the sign
    test [m >= 0], the rounded offset [round(m * t)] as a function of t, drift_channels_span and
    desmeared_bins.  The float computation of the first two is modelled in DriftFloat.v. *)
Record rate := Rate { r_nonneg : bool; r_off : Z -> Z; r_span : Z; r_desmear : Z }.

(** flag_values used by the counters: core/include/core/flag_values.hpp. *)
Definition flag_rolloff : Z := 1.
Definition flag_low_sk : Z := 2.
Definition flag_high_sk : Z := 4.

(** [if (rfi & flag) counter += 1] on uint8_t. *)
Definition bump (flag mask counter : Z) : Z :=
  if Z.land mask flag =? 0 then counter else to_uint8 (counter + 1).

(** ** CPU kernel, kernels/drift_integration_cpu.cpp 15-161 *)

(** Slice starts and number of channels for one (t, desmear_channel): lines 62-75 (m >= 0) and
    103-122 (m < 0).  Result: (drift_freq_slice_start, spectrum_freq_slice_start, number_channels). *)
Definition cpu_window (N : Z) (r : rate) (t k : Z) : Z * Z * Z :=
  if r_nonneg r then
    let channel_offset := r_off r t + k in
    (0, channel_offset, (N - channel_offset) - 0)
  else
    let channel_offset := r_off r t - k in
    let ps := - r_span r in
    let ss := - r_span r + channel_offset in
    let '(ps', ss') := if ss <? 0 then (ps - ss, ss - ss) else (ps, ss) in
    (ps', ss', N - ps').

(** The inner loop compares a size_t with the int64_t count: a negative count is converted. *)
Definition as_size_t (z : Z) : Z := z mod 2 ^ 64.

(** One iteration of the inner loop: cells of the plane (and of the three counter arrays, which have
    the same shape and so the same strides and running index), of the spectrum and of the mask. *)
Record access := Access { a_des : Z; a_plane : Z; a_spec : Z; a_mask : Z }.

(** Lines 76-99 and 123-146.  Strides are used, offsets of the input arrays are not: data_ptr is the
    start of the buffer (bland/bland/include/bland/ndarray.hpp, [data_ptr]). *)
Definition stride (l : layout) (axis : nat) : Z := nth axis (l_strides l) 0.
Definition cpu_inner (N : Z) (ls lm : layout) (d : Z) (r : rate) (t k : Z) : list access :=
  let '(ps, ss, n) := cpu_window N r t k in
  map (fun j => Access (r_desmear r)
                       (d * N + ps * 1 + j * 1)
                       (t * stride ls 0 + ss * stride ls 1 + j * stride ls 1)
                       (t * stride lm 0 + ss * stride lm 1 + j * stride lm 1))
      (zrange (as_size_t n)).

(** The three outer loops, 49-59. *)
Definition cpu_trace (N T : Z) (ls lm : layout) (rates : list rate) : list access :=
  flat_map (fun '(d, r) =>
    flat_map (fun t =>
      flat_map (fun k => cpu_inner N ls lm d r t k) (zrange (r_desmear r))) (zrange T))
    (combine (zrange (zlen rates)) rates).

(** Plane and counters. *)
Record planes (F : Type) := Planes { p_sum : mem F; p_low : mem Z; p_high : mem Z; p_roll : mem Z }.
Arguments Planes {F}. Arguments p_sum {F}. Arguments p_low {F}. Arguments p_high {F}. Arguments p_roll {F}.

Section Kernels.
  Context {F : Type}.
  Variables (fzero : F) (fadd : F -> F -> F) (fdivz : F -> Z -> F).

  (** Body of the inner loop; the reads and writes happen in this order. *)
  Definition cpu_visit (spec : mem F) (mask : mem Z) (st : planes F) (a : access) : outcome (planes F) :=
    let! p := load (p_sum st) (a_plane a) in
    let! s := load spec (a_spec a) in
    let! sum' := store (p_sum st) (a_plane a) (fadd p (fdivz s (a_des a))) in
    let! b := load mask (a_mask a) in
    let! l := load (p_low st) (a_plane a) in
    let! low' := store (p_low st) (a_plane a) (bump flag_low_sk b l) in
    let! h := load (p_high st) (a_plane a) in
    let! high' := store (p_high st) (a_plane a) (bump flag_high_sk b h) in
    let! o := load (p_roll st) (a_plane a) in
    let! roll' := store (p_roll st) (a_plane a) (bump flag_rolloff b o) in
    Ok (Planes sum' low' high' roll').

  Fixpoint cpu_run (spec : mem F) (mask : mem Z) (st : planes F) (l : list access) : outcome (planes F) :=
    match l with
    | [] => Ok st
    | a :: l' => let! st' := cpu_visit spec mask st a in cpu_run spec mask st' l'
    end.

  (** Plane filled with zero (line 41) and counters constructed with value 0
      (core/include/core/frequency_drift_plane.hpp [integrated_flags]). *)
  Definition zero_planes (cells : Z) : planes F :=
    Planes (map (fun _ => fzero) (zrange cells)) (map (fun _ => 0) (zrange cells))
           (map (fun _ => 0) (zrange cells)) (map (fun _ => 0) (zrange cells)).

  (** [drift_plane / time_steps], line 159: the element-wise scalar division of NdModel (verified
      there), written here as a map over the dense plane. *)
  Definition normalise (T : Z) (st : planes F) : planes F :=
    Planes (map (fun x => fdivz x T) (p_sum st)) (p_low st) (p_high st) (p_roll st).

  (** [integrate_linear_rounded_bins_cpu].  T and N are the sizes of the spectrum. *)
  Definition integrate_cpu (ls lm : layout) (spec : mem F) (mask : mem Z) (rates : list rate)
    : outcome (planes F) :=
    match l_shape ls with
    | [T; N] =>
      let! st := cpu_run spec mask (zero_planes (zlen rates * N)) (cpu_trace N T ls lm rates) in
      Ok (normalise T st)
    | _ => UB
    end.

  (** ** Generic kernel, kernels/drift_integration_bland.cpp 28-221, all through array slices. *)

  (** [bland::slice(a, {0,i,i+1}, {1,start,stop})]. *)
  Definition row_slice (l : layout) (i start stop : Z) : outcome layout :=
    slice_many l [SliceSpec 0 i (i + 1) 1; SliceSpec 1 start stop 1].

  (** [counter_slice = counter_slice + (mask_slice & flag) / flag], lines 73-92: three temporary
      arrays and a copy into the view.  uint8_t arithmetic. *)
  Definition bland_count (junk : Z -> Z) (flag : Z) (lc lm : layout) (mc mm : mem Z) : outcome (mem Z) :=
    let! la := array_scalar_op Z.land junk lm mm flag in
    let! lq := array_scalar_op Z.quot junk (fst la) (snd la) flag in
    let! lp := expand_op (fun x y => to_uint8 (x + y)) junk lc (fst lq) mc (snd lq) in
    assign_slice (fun x => x) lc (fst lp) mc (snd lp).

  (** One (t, desmear_channel): lines 55-112 (m >= 0), 113-208 (m < 0).  [lp] is the dense layout of
      the plane and the counters. *)
  Definition bland_step (junkF : Z -> F) (junkZ : Z -> Z) (N : Z) (lp ls lm : layout)
             (spec : mem F) (mask : mem Z) (d : Z) (r : rate) (t k : Z) (st : planes F)
    : outcome (planes F) :=
    let '(ps, pe, ss, se) :=
      if r_nonneg r then
        let channel_offset := r_off r t + k in
        (0, N - channel_offset, channel_offset, N)
      else
        let channel_offset := r_off r t - k in
        let ss := - r_span r + channel_offset in
        if ss <? 0 then (- r_span r - ss, N, ss - ss, N + channel_offset)
        else (- r_span r, N, ss, N + channel_offset) in
    let! ld := row_slice lp d ps pe in
    let! lsp := row_slice ls t ss se in
    let! lms := row_slice lm t ss se in
    let! roll' := bland_count junkZ flag_rolloff ld lms (p_roll st) mask in
    let! low' := bland_count junkZ flag_low_sk ld lms (p_low st) mask in
    let! high' := bland_count junkZ flag_high_sk ld lms (p_high st) mask in
    let! q := array_scalar_op fdivz junkF lsp spec (r_desmear r) in
    let! a := expand_op fadd junkF ld (fst q) (p_sum st) (snd q) in
    let! sum' := assign_slice (fun x => x) ld (fst a) (p_sum st) (snd a) in
    Ok (Planes sum' low' high' roll').

  Fixpoint ofor {A S} (f : A -> S -> outcome S) (l : list A) (s : S) : outcome S :=
    match l with
    | [] => Ok s
    | x :: l' => let! s' := f x s in ofor f l' s'
    end.

  Definition integrate_bland (junkF : Z -> F) (junkZ : Z -> Z) (ls lm : layout) (spec : mem F)
             (mask : mem Z) (rates : list rate) : outcome (planes F) :=
    match l_shape ls with
    | [T; N] =>
      let lp := dense [zlen rates; N] in
      let! st :=
        ofor (fun dr =>
          ofor (fun t =>
            ofor (fun k => bland_step junkF junkZ N lp ls lm spec mask (fst dr) (snd dr) t k)
                 (zrange (r_desmear (snd dr)))) (zrange T))
          (combine (zrange (zlen rates)) rates) (zero_planes (zlen rates * N)) in
      Ok (normalise T st)
    | _ => UB
    end.
End Kernels.

(** ** GPU threads: straight-line access to a shared memory, any interleaving.
    A thread is a resumable program; [None] in the memory is an address outside every buffer. *)
Inductive prog (A V : Type) :=
| Ret
| Rd (a : A) (k : V -> prog A V)
| Wr (a : A) (v : V) (p : prog A V).
Arguments Ret {A V}. Arguments Rd {A V}. Arguments Wr {A V}.

Section Threads.
  Context {A V : Type} (eqA : A -> A -> bool).
  Definition smem := A -> option V.
  Definition sset (m : smem) (a : A) (v : V) : smem := fun b => if eqA a b then Some v else m b.

  (** One memory operation of one thread. *)
  Inductive tstep : smem * prog A V -> outcome (smem * prog A V) -> Prop :=
  | st_rd m a k v : m a = Some v -> tstep (m, Rd a k) (Ok (m, k v))
  | st_rd_ub m a k : m a = None -> tstep (m, Rd a k) UB
  | st_wr m a v p : m a <> None -> tstep (m, Wr a v p) (Ok (sset m a v, p))
  | st_wr_ub m a v p : m a = None -> tstep (m, Wr a v p) UB.

  (** Any thread may move next. *)
  Inductive gstep : smem * list (prog A V) -> outcome (smem * list (prog A V)) -> Prop :=
  | gs_ok m ps1 p ps2 m' p' :
      tstep (m, p) (Ok (m', p')) -> gstep (m, ps1 ++ p :: ps2) (Ok (m', ps1 ++ p' :: ps2))
  | gs_ub m ps1 p ps2 :
      tstep (m, p) UB -> gstep (m, ps1 ++ p :: ps2) UB.

  (** Reachable configurations, undefined behaviour included. *)
  Inductive gsteps : smem * list (prog A V) -> outcome (smem * list (prog A V)) -> Prop :=
  | gss_refl c : gsteps c (Ok c)
  | gss_step c c' o : gstep c (Ok c') -> gsteps c' o -> gsteps c o
  | gss_ub c : gstep c UB -> gsteps c UB.

  Definition finished (ps : list (prog A V)) : Prop := Forall (fun p => p = Ret) ps.
End Threads.

(** ** CUDA kernel, kernels/drift_integration_cuda.cu 29-98 *)

(** The device buffers. *)
Inductive buf := BSpec | BMask | BPlane | BLow | BHigh | BRoll.
Definition addr := (buf * Z)%type.
Definition buf_eqb (a b : buf) : bool :=
  match a, b with
  | BSpec, BSpec | BMask, BMask | BPlane, BPlane | BLow, BLow | BHigh, BHigh | BRoll, BRoll => true
  | _, _ => false
  end.
Definition addr_eqb (x y : addr) : bool := buf_eqb (fst x) (fst y) && (snd x =? snd y).

Section Cuda.
  Context {F : Type}.
  Variables (fzero : F) (fadd : F -> F -> F) (fdivz : F -> Z -> F).

  (** Cells hold floats or bytes. *)
  Inductive cellv := CF (x : F) | CB (b : Z).
  Definition as_f (c : cellv) : F := match c with CF x => x | CB _ => fzero end.
  Definition as_b (c : cellv) : Z := match c with CF _ => 0 | CB b => b end.

  (** Per-thread accumulators, lines 57-62. *)
  Record accs := Accs { c_sum : F; c_bins : Z; c_low : Z; c_high : Z; c_roll : Z }.

  (** Lines 67-87 for the list of (t, channel_offset) pairs still to do. *)
  Fixpoint cuda_bins (N f : Z) (offs : list (Z * Z)) (acc : accs) (k : accs -> prog addr cellv)
    : prog addr cellv :=
    match offs with
    | [] => k acc
    | (t, off) :: offs' =>
      let c := f + off in
      if (0 <=? c) && (c <? N) then
        Rd (BSpec, t * N + c) (fun s =>
        Rd (BMask, t * N + c) (fun b =>
        cuda_bins N f offs'
          (Accs (fadd (c_sum acc) (as_f s)) (c_bins acc + 1)
                (bump flag_low_sk (as_b b) (c_low acc))
                (bump flag_high_sk (as_b b) (c_high acc))
                (bump flag_rolloff (as_b b) (c_roll acc))) k))
      else cuda_bins N f offs' acc k
    end.

  (** Loop headers 64-68: (t, channel_offset) in execution order. *)
  Definition cuda_offsets (T : Z) (r : rate) : list (Z * Z) :=
    flat_map (fun t =>
      map (fun k => (t, if r_nonneg r then r_off r t + k else r_off r t - k))
          (zrange (r_desmear r))) (zrange T).

  (** One (freq_channel, drift_index): lines 51-96. *)
  Definition cuda_bin (N T f d : Z) (r : rate) (rest : prog addr cellv) : prog addr cellv :=
    cuda_bins N f (cuda_offsets T r) (Accs fzero 0 0 0 0) (fun acc =>
      let i := d * N + f in
      if c_bins acc =? 0 then Wr (BPlane, i) (CF fzero) rest
      else Wr (BPlane, i) (CF (fdivz (c_sum acc) (c_bins acc)))
          (Wr (BLow, i) (CB (c_low acc))
          (Wr (BHigh, i) (CB (c_high acc))
          (Wr (BRoll, i) (CB (c_roll acc)) rest)))).

  (** Loop over the drifts, line 50. *)
  Definition cuda_channel (N T f : Z) (rates : list rate) (rest : prog addr cellv) : prog addr cellv :=
    fold_right (fun dr rest => cuda_bin N T f (fst dr) (snd dr) rest) rest
               (combine (zrange (zlen rates)) rates).

  (** Grid-stride loop, line 49.  [fuel] bounds the iterations; N of them suffice. *)
  Fixpoint grid_stride (fuel : nat) (f G N : Z) : list Z :=
    match fuel with
    | O => []
    | S fuel' => if f <? N then f :: grid_stride fuel' (f + G) G N else []
    end.
  Definition cuda_thread (N T G tid : Z) (rates : list rate) : prog addr cellv :=
    fold_right (fun f rest => cuda_channel N T f rates rest) Ret
               (grid_stride (Z.to_nat N) tid G N).

  (** Launch with [blocks] blocks of [bdim] threads; tid = blockIdx * blockDim + threadIdx. *)
  Definition cuda_threads (N T blocks bdim : Z) (rates : list rate) : list (prog addr cellv) :=
    flat_map (fun b => map (fun x => cuda_thread N T (blocks * bdim) (b * bdim + x) rates)
                           (zrange bdim)) (zrange blocks).

  (** Device memory at launch: dense inputs, zeroed counters, any plane contents. *)
  Definition cuda_init (spec : mem F) (mask : mem Z) (junk : Z -> F) (cells : Z) : smem (A := addr) :=
    fun a => let '(b, i) := a in
    match b with
    | BSpec => option_map CF (znth spec i)
    | BMask => option_map CB (znth mask i)
    | BPlane => option_map (fun j => CF (junk j)) (znth (zrange cells) i)
    | _ => option_map (fun _ => CB 0) (znth (zrange cells) i)
    end.
End Cuda.
Arguments CF {F}. Arguments CB {F}.
