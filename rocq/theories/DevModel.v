(** Arrays on devices: moving them and choosing a kernel; arrays borrowed from other frameworks.  Paths are relative to /repo/bland/bland.
    Definitions only. *)
From Verif Require Export NdModel.
Local Open Scope Z_scope.

(** DLDevice (dlpack.h), ndarray::dev ndarray.hpp 48-76; the device types this library never allocates on are one constructor. *)
Inductive dtype := Cpu | Cuda | CudaHost | CudaManaged | OtherType.
Record dev := Dev { d_type : dtype; d_id : Z }.
Definition dtype_eqb (a b : dtype) : bool :=
  match a, b with Cpu, Cpu | Cuda, Cuda | CudaHost, CudaHost | CudaManaged, CudaManaged | OtherType, OtherType => true | _, _ => false end.
(** dev::operator== ndarray.cpp 82-88. *)
Definition dev_eqb (a b : dev) : bool := dtype_eqb (d_type a) (d_type b) && (d_id a =? d_id b).
Definition on_gpu (t : dtype) : bool := match t with Cuda | CudaManaged => true | _ => false end.
Definition is_cuda (t : dtype) : bool := match t with Cuda | CudaManaged | CudaHost => true | _ => false end.

(** memcpy / cudaMemcpy of [count] elements from element [start] of the source buffer; the size is converted to an unsigned type. *)
Definition copy_cells {V} (m : mem V) (start count : Z) : outcome (list V) :=
  if count =? 0 then Ok [] else
  if (count <? 0) || (start <? 0) || (zlen m <? start + count) then UB
  else Ok (firstn (Z.to_nat count) (skipn (Z.to_nat start) m)).
(** A new buffer of [n] elements whose first ones were written; the others are uninitialised ([None]). *)
Definition filled {V} (n : Z) (l : list V) : list (option V) :=
  map Some l ++ map (fun _ => None) (zrange (n - zlen l)).

Section To.
  (** [cuda]: built with BLAND_CUDA.  [valid]: config::check_is_valid_cuda_device (config.cpp 64-74), the devices whose architecture was compiled for.
      [room]: whether the allocation succeeds. *)
  Variables (cuda : bool) (valid : Z -> bool) (room : dev -> bool).

  (** The constructor of the destination, bland_tensor_internals.cpp 77-141: which devices it can allocate on. *)
  Definition alloc_ok (d : dev) : bool :=
    match d_type d with Cpu => room d | Cuda | CudaHost | CudaManaged => cuda && room d | OtherType => false end.

  (** [bland::to] ops/ops.cpp 62-159: the destination is a new dense array; lines 71-75 read offsets and strides, only the copy from a GPU to the
      host uses the offsets (133-135), none uses the strides.  Nothing is copied to a plain CUDA device from another one (the chain at 124-155 has
      no branch for it and no else). *)
  Definition to_device {V} (src : dev) (l : layout) (m : mem V) (dst : dev) : outcome (layout * list (option V)) :=
    let start := fold_left Z.add (l_offsets l) 0 in
    let copied from := let! c := copy_cells m from (numel l) in Ok (dense (l_shape l), filled (alloc_elems (l_shape l)) c) in
    if negb (alloc_ok dst) then Throw RuntimeError else
    if negb cuda && (is_cuda (d_type src) || is_cuda (d_type dst)) then Throw RuntimeError else
    match d_type src with
    | Cpu =>
      match d_type dst with
      | Cuda | CudaManaged => if valid (d_id dst) then copied 0 else Throw RuntimeError
      | CudaHost => copied 0
      | Cpu => if d_id src =? d_id dst then Throw RuntimeError else copied 0
      | OtherType => Throw RuntimeError
      end
    | Cuda | CudaManaged =>
      match d_type dst with
      | Cpu | CudaHost => copied start
      | CudaManaged =>
        if d_id dst =? d_id src then Throw RuntimeError
        else if valid (d_id dst) then copied 0 else Throw RuntimeError
      | _ => Ok (dense (l_shape l), filled (alloc_elems (l_shape l)) [])
      end
    | _ => Throw RuntimeError
    end.
  (** An array: device, layout, buffer ([None]: uninitialised). *)
  Record array (V : Type) := Array { a_dev : dev; a_lay : layout; a_mem : list (option V) }.
  Arguments Array {V}. Arguments a_dev {V}. Arguments a_lay {V}. Arguments a_mem {V}.
  (** The early return of lines 64-67 and the copy. *)
  Definition to {V} (a : array V) (dst : dev) : outcome (array V) :=
    if dev_eqb (a_dev a) dst then Ok a else
    let! r := to_device (a_dev a) (a_lay a) (a_mem a) dst in
    Ok (Array dst (fst r) (map (fun o => match o with Some v => v | None => None end) (snd r))).

  (** [ndarray::scalarize()] ndarray.cpp 216-225: the first cell of the buffer of the copy on the CPU. *)
  Definition scalarize0 {V} (a : array V) : outcome (option V) :=
    if 1 <? numel (a_lay a) then Throw RuntimeError else
    let! c := to a (Dev Cpu 0) in
    load (a_mem c) 0.

  (** [device_dispatch] ops/device_dispatch.hpp 14-45 for two arrays. *)
  Inductive kernel := OnCpu | OnGpu.
  Definition dispatch (cuda_code : bool) (a b : dev) : outcome kernel :=
    if dev_eqb a b then
      match d_type b with
      | Cpu | CudaHost => Ok OnCpu
      | Cuda | CudaManaged => if cuda_code then Ok OnGpu else Throw RuntimeError
      | OtherType => Throw RuntimeError
      end
    else Throw RuntimeError.
  (** [square(a)], [sqrt(a)], [copy(a)] ops/ops.cpp 47-60, 290-323: the result is allocated on the device of [a]. *)
  Definition dispatch_unary (cuda_code : bool) (a : dev) : outcome kernel :=
    if negb (alloc_ok a) then Throw RuntimeError else dispatch cuda_code a a.
  (** [abs(a)] ops/ops.cpp 333-336 calls the CPU kernel without looking at the device. *)
  Definition dispatch_abs (a : dev) : outcome kernel :=
    if negb (alloc_ok a) then Throw RuntimeError else Ok OnCpu.
End To.
Arguments Array {V}. Arguments a_dev {V}. Arguments a_lay {V}. Arguments a_mem {V}.

(** ** Handles: bland_tensor_internals.cpp 25-47 (import), 143-168 (copy construction), 170-192 (assignment) *)

(** Where the shape and strides pointers of a tensor point: its own vectors, or those of the imported tensor (lines 43-44 override 30 and 33). *)
Inductive where_ := OwnVec | ForeignVec (f : nat).
(** A buffer: allocated here, or the data of an imported tensor. *)
Inductive block := Local (b : nat) | Foreign (f : nat).
Record tensor := Tensor { t_data : option block; t_own : option nat; t_vec : layout; t_ptr : where_ }.

(** An imported tensor: its layout, its byte_offset (in elements) and its cells, which begin at data. *)
Record foreign (V : Type) := ForeignT { f_lay : layout; f_byte : Z; f_cells : list V }.
Arguments ForeignT {V}. Arguments f_lay {V}. Arguments f_byte {V}. Arguments f_cells {V}.

(** Programs over variables: [Make v l c] allocates; [Import v f] borrows; [Copy v w] copy-constructs the new variable v from w (to_dlpack, lines
    194-231, does the same for the context it hands out); [Assign v w] is v = w for two existing arrays; [Drop v] ends the lifetime (and is what the
    deleter of an exported tensor does, lines 224-229); [Release f] is the other framework freeing its tensor. *)
Inductive hop V := Make (v : nat) (l : layout) (c : list V) | Import (v f : nat) | Copy (v w : nat) | Assign (v w : nat) | Drop (v : nat) | Release (f : nat).
Arguments Make {V}. Arguments Import {V}. Arguments Copy {V}. Arguments Assign {V}. Arguments Drop {V}. Arguments Release {V}.

Section Handles.
  Context {V : Type}.
  Variable foreigns : nat -> foreign V.
  (** [s_refs b] is the count of the shared_ptr control block of local buffer b; the buffer is freed when it reaches zero. *)
  Record hstate := HState { s_vars : nat -> option tensor; s_blocks : list (list V); s_refs : nat -> nat; s_gone : nat -> bool }.
  Definition hstart : hstate := HState (fun _ => None) [] (fun _ => O) (fun _ => false).
  Definition put {A} (f : nat -> A) (v : nat) (x : A) : nat -> A := fun w => if Nat.eqb w v then x else f w.

  (** shared_ptr: copying the owner increments, destroying it decrements; decrementing a dead control block is undefined. *)
  Definition incr (o : option nat) (r : nat -> nat) : nat -> nat := match o with None => r | Some b => put r b (S (r b)) end.
  Definition decr (o : option nat) (r : nat -> nat) : outcome (nat -> nat) :=
    match o with None => Ok r | Some b => match r b with O => UB | S k => Ok (put r b k) end end.

  (** Reading vectors of a released foreign tensor is undefined.  An imported tensor has zero offsets (line 36), as [to_dlpack] gives. *)
  Definition vectors (s : hstate) (t : tensor) : outcome layout :=
    match t_ptr t with
    | OwnVec => Ok (t_vec t)
    | ForeignVec f => if s_gone s f then UB else Ok (to_dlpack (f_lay (foreigns f)))
    end.
  (** Constructing over a live variable, or using one that is not alive, is not a C++ program: UB. *)
  Definition hstep (s : hstate) (o : hop V) : outcome hstate :=
    match o with
    | Make v l c =>
      let b := length (s_blocks s) in
      match s_vars s v with
      | Some _ => UB
      | None => Ok (HState (put (s_vars s) v (Some (Tensor (Some (Local b)) (Some b) l OwnVec))) (s_blocks s ++ [c]) (put (s_refs s) b 1%nat) (s_gone s))
      end
    | Import v f =>
      match s_vars s v with
      | Some _ => UB
      | None =>
        if s_gone s f then UB else
        Ok (HState (put (s_vars s) v (Some (Tensor (Some (Foreign f)) None (to_dlpack (f_lay (foreigns f))) (ForeignVec f)))) (s_blocks s) (s_refs s) (s_gone s))
      end
    | Copy v w =>
      match s_vars s v, s_vars s w with
      | None, Some t => Ok (HState (put (s_vars s) v (Some (Tensor (t_data t) (t_own t) (t_vec t) OwnVec))) (s_blocks s) (incr (t_own t) (s_refs s)) (s_gone s))
      | _, _ => UB
      end
    | Assign v w =>
      match s_vars s v, s_vars s w with
      | Some old, Some t =>
        if Nat.eqb v w then Ok s else
        let! r := decr (t_own old) (incr (t_own t) (s_refs s)) in
        Ok (HState (put (s_vars s) v (Some (Tensor (option_map Local (t_own t)) (t_own t) (t_vec t) OwnVec))) (s_blocks s) r (s_gone s))
      | _, _ => UB
      end
    | Drop v =>
      match s_vars s v with
      | None => UB
      | Some old => let! r := decr (t_own old) (s_refs s) in Ok (HState (put (s_vars s) v None) (s_blocks s) r (s_gone s))
      end
    | Release f => Ok (HState (s_vars s) (s_blocks s) (s_refs s) (fun g => if Nat.eqb g f then true else s_gone s g))
    end.
  Fixpoint hrun (s : hstate) (p : list (hop V)) : outcome hstate :=
    match p with [] => Ok s | o :: p' => let! s' := hstep s o in hrun s' p' end.
  (** Reading element [idx] of variable [v] (ndarray::scalarize and every kernel): data_ptr()[cell]; byte_offset plays no part.  A freed buffer
      must not be read. *)
  Definition hread (s : hstate) (v : nat) (idx : list Z) : outcome V :=
    match s_vars s v with
    | None => UB
    | Some t =>
      let! l := vectors s t in
      match t_data t with
      | None => UB
      | Some (Local b) => match s_refs s b, nth_error (s_blocks s) b with S _, Some c => load c (cell l idx) | _, _ => UB end
      | Some (Foreign f) => if s_gone s f then UB else load (f_cells (foreigns f)) (cell l idx)
      end
    end.
End Handles.
