(** Model of counting on the GPU: /repo/bland/bland/ops/cuda/count.cuh.  Definitions only. *)
From Verif Require Export GelModel.
Local Open Scope Z_scope.

(** The elements, the shared sums of the blocks and the counter. *)
Inductive caddr := CData (i : Z) | CSh (b t : Z) | CCount | CBad.
Definition caddr_eqb (x y : caddr) : bool :=
  match x, y with
  | CData i, CData j => i =? j
  | CSh b t, CSh c u => (b =? c) && (t =? u)
  | CCount, CCount | CBad, CBad => true
  | _, _ => false
  end.

Section Count.
  Context {A : Type}.
  Variable truth : A -> bool.
  Inductive cvalue := CA (x : A) | CN (n : Z).
  Definition cprog := bprog caddr cvalue.
  Definition cstuck : cprog := BRd CBad (fun _ => BRet).
  (** atomicAdd on uint32_t. *)
  Definition cadd (x y : cvalue) : cvalue := match x, y with CN a, CN b => CN (to_uint32 (a + b)) | _, _ => x end.

  (** 26-43: int64_t indices; every thread has its own nd_index, in its own part of shared memory, so that it is not modelled as memory.
      The pointer is the buffer's: offsets are not added (66-69). *)
  Fixpoint count_loop (sh st : list Z) (n : nat) (w grid c : Z) (k : Z -> cprog) : cprog :=
    match n with
    | O => k c
    | S n' => BRd (CData (lin (unflat sh (rev (zrange (zlen sh))) w (map (fun _ => 0) sh)) st)) (fun v =>
        match v with
        | CA x => count_loop sh st n' (w + grid) grid (if truth x then to_uint32 (c + 1) else c) k
        | CN _ => cstuck
        end)
    end.
  (** 49-54. *)
  Fixpoint count_tree (b t : Z) (fuel : nat) (s : Z) (k : cprog) : cprog :=
    match fuel with
    | O => k
    | S f =>
      if 0 <? s then
        let rest := BBar (count_tree b t f (Z.quot s 2) k) in
        if t <? s then
          BRd (CSh b t) (fun u => BRd (CSh b (t + s)) (fun v => match u, v with
            | CN x, CN y => BWr (CSh b t) (CN (to_uint32 (x + y))) rest
            | _, _ => cstuck end))
        else rest
      else k
    end.
  (** 56-58. *)
  Definition count_end (b t : Z) : cprog :=
    if t =? 0 then BRd (CSh b 0) (fun v => match v with CN n => BAdd CCount (CN n) BRet | _ => cstuck end) else BRet.
  (** 256 threads, at most 256 blocks (78-81). *)
  Definition count_blocks (numel : Z) : Z := Z.min 256 (Z.quot (numel + 255) 256).
  Definition count_thread (sh st : list Z) (numel b t : Z) : cprog :=
    let grid := count_blocks numel * 256 in let w := b * 256 + t in
    count_loop sh st (iterations w numel grid) w grid 0 (fun c =>
      BWr (CSh b t) (CN c) (BBar (count_tree b t 9 128 (count_end b t)))).
  Definition count_gpu (l : layout) : list (list cprog) :=
    map (fun b => map (count_thread (l_shape l) (l_strides l) (numel l) b) (zrange 256)) (zrange (count_blocks (numel l))).
  Definition cmem0 (m : mem A) (blocks : Z) (junk : Z -> Z -> Z) : gpumem (A := caddr) (V := cvalue) :=
    fun a => match a with
    | CData i => option_map CA (znth m i)
    | CSh b t => if (0 <=? b) && (b <? blocks) && (0 <=? t) && (t <? 256) then Some (CN (junk b t)) else None
    | CCount => Some (CN 0)
    | CBad => None
    end.
End Count.
Arguments cvalue : clear implicits.
Arguments cprog : clear implicits.
