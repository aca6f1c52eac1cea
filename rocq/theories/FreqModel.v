(** Models of spectra: /repo/bland/bland/ops/frequency.cpp, ops/cpu/frequency_cpu_impl.cpp, ops/cuda/frequency_cuda.cu, and of
    gen_coarse_channel_response in /repo/bliss/preprocess/passband_static_equalize.cpp.  Definitions only. *)
From Verif Require Export RedModel GpuModel CountModel HitModel.
From Flocq Require Import BinarySingleNaN.
Local Open Scope Z_scope.

(** ** Sizes *)
(** ceil of a float, as an int. *)
Definition ceil_f32 (x : f32) : Z :=
  match x with
  | B754_finite s m e _ => let z := if s then - Z.pos m else Z.pos m in if 0 <=? e then z * 2 ^ e else - ((- z) / 2 ^ (- e))
  | _ => 0
  end.
(** [int dc_index = ceil((N-1)/2.0f)]: the int is converted to float first (cpu 33, cuda 24). *)
Definition dc_index (N : Z) : Z := ceil_f32 (div32 (f32_of_Z (N - 1)) (f32_of_Z 2)).
(** floor(N/2) + 1, an int division. *)
Definition half_bins (N : Z) : Z := Z.quot N 2 + 1.

Inductive dtype := Float32 | OtherType.

Section Freq.
  Context {F : Type}.
  Variables (zero : F) (add mul : F -> F -> F) (neg : F -> F).
  (** The external real transform (FFTW, cuFFT): n inputs, n/2+1 complex outputs. *)
  Variable rfft : list F -> list (F * F).

  Definition mag2 (c : F * F) : F := add (mul (fst c) (fst c)) (mul (snd c) (snd c)).

  (** The first n floats of the buffer: offsets and strides are not looked at. *)
  Definition first_cells (m : mem F) (n : Z) : outcome (list F) := if n <=? zlen m then Ok (firstn (Z.to_nat n) m) else UB.

  (** cpu 35-46. *)
  Definition put_bin (dc : Z) (bins : list (F * F)) (mo : mem F) (i : Z) : outcome (mem F) :=
    let! c := zget bins i in
    let! mo1 := store mo (dc + i) (mag2 c) in
    if i =? 0 then Ok mo1 else store mo1 (dc - i) (mag2 c).
  Fixpoint put_bins (dc : Z) (bins : list (F * F)) (mo : mem F) (is : list Z) : outcome (mem F) :=
    match is with
    | [] => Ok mo
    | i :: is' => let! mo1 := put_bin dc bins mo i in put_bins dc bins mo1 is'
    end.
  (** frequency.cpp 23-46 and cpu 20-52.  [slack]: cells the allocator happens to own behind the result; the language gives none.  FFTW has no
      plan for fewer than one point, and executing no plan is undefined. *)
  Definition fft_shift_cpu (slack : Z) (junk : Z -> F) (ty : dtype) (l : layout) (m : mem F) : outcome (layout * mem F) :=
    match ty with
    | OtherType => Throw RuntimeError
    | Float32 =>
      let! d := zget (l_shape l) 0 in
      let N := to_int32 d in
      if N <=? 0 then UB else
      let! xs := first_cells m N in
      let mo := map junk (zrange (alloc_elems (l_shape l) + slack)) in
      let! mo' := put_bins (dc_index N) (rfft xs) mo (zrange (half_bins N)) in
      Ok (dense (l_shape l), mo')
    end.

  (** frequency.cpp 48-71 with cpu 15-18: nothing is computed. *)
  Definition fft_cpu (junk : Z -> F * F) (ty : dtype) (l : layout) (m : mem F) : outcome (layout * mem (F * F)) :=
    match ty with
    | OtherType => Throw RuntimeError
    | Float32 => Ok (dense (l_shape l), map junk (zrange (alloc_elems (l_shape l))))
    end.

  (** cuda 95-98. *)
  Fixpoint conj_loop (half : Z) (mo : mem (F * F)) (js : list Z) : outcome (mem (F * F)) :=
    match js with
    | [] => Ok mo
    | j :: js' => let! c := zget mo (half - 2 - j) in let! mo1 := store mo (half + j) (fst c, neg (snd c)) in conj_loop half mo1 js'
    end.
  (** cuda 74-103: cuFFT writes the half spectrum, then the elements half-2 .. 1 are conjugated to positions half, half+1, ...
      For one point the reversed range has negative length: undefined. *)
  Definition fft_cuda (junk : Z -> F * F) (ty : dtype) (l : layout) (m : mem F) : outcome (layout * mem (F * F)) :=
    match ty with
    | OtherType => Throw RuntimeError
    | Float32 =>
      let! d := zget (l_shape l) 0 in
      let N := to_int32 d in
      if N <=? 1 then UB else
      let! xs := first_cells m N in
      let half := half_bins N in
      let bins := rfft xs in
      let mo := bins ++ skipn (length bins) (map junk (zrange (alloc_elems (l_shape l)))) in
      let! mo' := conj_loop half mo (zrange (half - 2)) in
      Ok (dense (l_shape l), mo')
    end.

  (** ** The CUDA kernel, cuda 19-40, launched as one block of 512 threads: tid = threadIdx.x * blockIdx.x * blockDim.x is 0 in block 0. *)
  Inductive faddr := FBin (i : Z) | FOut (i : Z).
  Definition faddr_eqb (x y : faddr) : bool :=
    match x, y with FBin i, FBin j => i =? j | FOut i, FOut j => i =? j | _, _ => false end.
  Inductive fvalue := FC (c : F * F) | FV (v : F).
  Definition fprog := bprog faddr fvalue.
  Fixpoint shift_loop (dc : Z) (fuel : nat) (n : Z) : fprog :=
    match fuel with
    | O => BRet
    | S f => BRd (FBin n) (fun v =>
        match v with
        | FC c => BWr (FOut (dc + n)) (FV (mag2 c))
                   (if n =? 0 then shift_loop dc f (n + 1) else BWr (FOut (dc - n)) (FV (mag2 c)) (shift_loop dc f (n + 1)))
        | FV _ => BRd (FOut (-1)) (fun _ => BRet)
        end)
    end.
  Definition shift_thread (N t b dim : Z) : fprog := let tid := t * b * dim in shift_loop (dc_index N) (Z.to_nat (Z.quot N 2 - tid)) tid.
  Definition shift_gpu (N : Z) : list (list fprog) := [map (fun t => shift_thread N t 0 512) (zrange 512)].
  Definition fmem0 (bins : list (F * F)) (mo : mem F) : gpumem (A := faddr) (V := fvalue) :=
    fun a => match a with FBin i => option_map FC (znth bins i) | FOut i => option_map FV (znth mo i) end.
End Freq.
Arguments fvalue : clear implicits.
Arguments fprog : clear implicits.

(** ** gen_coarse_channel_response, passband_static_equalize.cpp 66-107 *)
Definition int_mul (x y : Z) : outcome Z := if (- 2 ^ 31 <=? x * y) && (x * y <? 2 ^ 31) then Ok (x * y) else UB.
Section Response.
  Context {F : Type}.
  Variables (zero lowest : F) (add mul div : F -> F -> F) (gt : F -> F -> bool) (rfft : list F -> list (F * F)).
  (** The taps that firdes returns for a number of taps and of channels (52-64; C70 is about their values). *)
  Variable firdes : Z -> Z -> list F.

  (** [h.size(0)] is the number of taps; a negative number makes reserve throw length_error.  An array of no elements has no transform, one of
      negative size no memory.  The window and device arguments are not used. *)
  Definition gen_response (slack : Z) (junk : Z -> F) (fine C taps : Z) : outcome (layout * mem F) :=
    let! num_taps := int_mul taps C in
    if num_taps <? 0 then Throw LogicError else
    let h := firdes num_taps C in
    let! total := int_mul C fine in
    if total <=? 0 then UB else
    let padded := map (fun _ => zero) (zrange total) in
    let! lv := slice1 (dense [total]) 0 0 num_taps 1 in
    let! padded := assign_slice (fun x => x) lv (dense [num_taps]) padded h in
    let! H := fft_shift_cpu add mul rfft slack junk Float32 (dense [total]) padded in
    let contributing := Z.quot total fine - 1 in
    let! ls := slice1 (fst H) 0 (Z.quot fine 2) (total - Z.quot fine 2) 1 in
    let! lr := reshape ls [contributing; fine] in
    let! s := nd_sum zero add junk lr (snd H) [0] in
    let! mx := nd_max lowest gt junk (fst s) (snd s) [] in
    expand_op div junk (fst s) (fst mx) (snd s) (snd mx).
End Response.
