(** Element-wise operations when the words behind a vector can be read.  compute_broadcast_shape reads past the end of an operand's shape once all its axes
    have matched (/repo/bland/bland/internal/include/internal/shape_helpers.cpp 58-72); elsewhere (NdModel) that is undefined behaviour, here it gives whatever
    words the memory holds.  Everything else is as in NdModel, FlagModel and GelModel.  Definitions only. *)
From Verif Require Export NdModel FlagModel KurtModel.
Local Open Scope Z_scope.

(** [beyond] i: the i-th word behind the shape. *)
Fixpoint bcast_shape_lax (beyond : Z -> Z) (shape out_shape : list Z) : list Z :=
  match out_shape with
  | [] => []
  | o :: out' =>
    match shape with
    | s :: shape' => if (s =? o) || (s =? 1) then o :: bcast_shape_lax beyond shape' out' else 1 :: bcast_shape_lax beyond shape out'
    | [] => if (beyond 0 =? o) || (beyond 0 =? 1) then o :: bcast_shape_lax (fun i => beyond (i + 1)) [] out' else 1 :: bcast_shape_lax beyond [] out'
    end
  end.
Section Lax.
  (** Behind the shapes of the two operands, which the function receives as copies (58). *)
  Variables xa xb : Z -> Z.
  (** elementwise_binary_op.hpp 117-137, 21-111 (cf. [NdModel.binary_op]). *)
  Definition binary_op_lax {A B V} (op : A -> B -> V) (lo la lb : layout) (mo : mem V) (ma : mem A) (mb : mem B) : outcome (mem V) :=
    if (ndim la =? ndim lb) && negb (compat_same_rank (l_shape la) (l_shape lb)) then Throw RuntimeError else
    let! ast := bcast_strides (l_shape la) (l_strides la) (l_shape lo) in
    let! bst := bcast_strides (l_shape lb) (l_strides lb) (l_shape lo) in
    let ash := bcast_shape_lax xa (l_shape la) (l_shape lo) in
    let bsh := bcast_shape_lax xb (l_shape lb) (l_shape lo) in
    match l_shape lo with
    | [] => UB
    | _ :: _ =>
      match bin_loop (Z.to_nat (numel lo)) 0 (numel lo) (rev (l_shape lo)) (rev ash) (rev bsh) (rev ast) (rev bst) (rev (l_strides lo))
                     (rev (map (fun _ => 0) (l_shape lo))) (zsum (l_offsets la)) (zsum (l_offsets lb)) (zsum (l_offsets lo)) with
      | None => UB
      | Some trace => run3 op ma mb mo trace
      end
    end.
  (** arithmetic_cpu.cpp 22-27, 57-62. *)
  Definition expand_op_lax {A B V} (op : A -> B -> V) (junk : Z -> V) (la lb : layout) (ma : mem A) (mb : mem B) : outcome (layout * mem V) :=
    let! sh := expand_shapes (l_shape la) (l_shape lb) in
    let! m := binary_op_lax op (dense sh) la lb (fresh junk sh) ma mb in
    Ok (dense sh, m).
  (** normalize.cpp 15-21, the first step of bliss_find_hits (bliss_find_hits.cpp 118). *)
  Definition normalize_lax {F} (O : numops F) lowest junk (data : arr F) : outcome (arr F) :=
    let! mx := nd_max lowest (fun a b => o_lt O b a) junk (fst data) (snd data) [] in
    expand_op_lax (o_div O) junk (fst data) (fst mx) (snd data) (snd mx).
  (** passband_static_equalize.cpp 117-123: the deferred array. *)
  Definition equalize_lax {F} (O : numops F) junk (data h : arr F) : outcome (arr F) :=
    expand_op_lax (o_div O) junk (fst data) (fst h) (snd data) (snd h).
End Lax.
