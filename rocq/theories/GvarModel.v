(** Variances and deviations of bland/bland/ops/cuda/statistical_cuda.cu in single precision, with the two places where a compiler
    may contract a product and a difference into one fused operation (nvcc does so unless told otherwise). Apart from that these
    are the kernels of GredKernels.v over [ops32] ([uncontracted], GvarProofs.v). *)
From Verif Require Import PropGred GredReal GredExact GredKernels.
From Flocq Require Import Core BinarySingleNaN.
Local Open Scope Z_scope.

(** [max((in_datatype)0, diff)] 262, 272: CUDA's max returns the other operand when one is NaN. *)
Definition relu32 (d : f32) : f32 := if f32lt (f32_of_Z 0) d then d else f32_of_Z 0.
Definition root32 (d : f32) : f32 := Bsqrt mode_NE d.
Section Contracted.
  (** Whether [in_val * in_val - s2data_c] and [s2data[0] - sdata[0]*sdata[0]] are contracted. *)
  Variables cx cd : bool.
  (** 194-196. *)
  Definition square_less (x c : f32) : f32 := if cx then Bfma mode_NE x x (Bopp c) else Bminus mode_NE (Bmult mode_NE x x) c.
  Definition kahan_square (s c x : f32) : f32 * f32 :=
    let y := square_less x c in
    let t := Bplus mode_NE s y in
    (t, Bminus mode_NE (Bminus mode_NE t s) y).
  (** 184-201. *)
  Definition kahan2v (s c : f32 * f32) (x : f32) : (f32 * f32) * (f32 * f32) :=
    let a := kahan ops32 (fst s) (fst c) x in
    let b := kahan_square (snd s) (snd c) x in
    ((fst a, fst b), (snd a, snd b)).
  (** 261-262, 271-272. *)
  Definition less_square (m2 m : f32) : f32 := if cd then Bfma mode_NE (Bopp m) m m2 else Bminus mode_NE m2 (Bmult mode_NE m m).
  Definition varv (s : f32 * f32) : f32 := relu32 (less_square (snd s) (fst s)).
  Definition stdv (s : f32 * f32) : f32 := root32 (varv s).
  Notation zero := (f32_of_Z 0).
  (** [reduction_impl] 100-317 and [mean_stddev_impl] 322-534. *)
  Definition gv_var (rf : Z) : kernel f32 (f32 * f32) (f32 * f32) f32 := Kernel false (zero, zero) (zero, zero) kahan2v (norm2 ops32 rf) (add2 ops32) [varv] false.
  Definition gv_stddev (rf : Z) : kernel f32 (f32 * f32) (f32 * f32) f32 := Kernel false (zero, zero) (zero, zero) kahan2v (norm2 ops32 rf) (add2 ops32) [stdv] false.
  Definition gv_mean_stddev (rf : Z) : kernel f32 (f32 * f32) (f32 * f32) f32 := Kernel false (zero, zero) (zero, zero) kahan2v (norm2 ops32 rf) (add2 ops32) [fst; stdv] true.
  (** Masked: 539-768 and 782-989; the count is kept beside the sums and divides them after the tree. *)
  Definition mkahan2v (s : (f32 * f32) * Z) (c : f32 * f32) (x : f32) : ((f32 * f32) * Z) * (f32 * f32) :=
    let a := kahan2v (fst s) c x in ((fst a, cnt (snd s + 1)), snd a).
  Definition mvarv (s : (f32 * f32) * Z) : f32 := varv (norm2 ops32 (snd s) (fst s)).
  Definition mstdv (s : (f32 * f32) * Z) : f32 := root32 (mvarv s).
  Definition gv_mvar : kernel f32 ((f32 * f32) * Z) (f32 * f32) f32 := Kernel true ((zero, zero), 0) (zero, zero) mkahan2v (fun s => s) (madd2 ops32) [mvarv] false.
  Definition gv_mstddev : kernel f32 ((f32 * f32) * Z) (f32 * f32) f32 := Kernel true ((zero, zero), 0) (zero, zero) mkahan2v (fun s => s) (madd2 ops32) [mstdv] false.
  Definition gv_mmean_stddev : kernel f32 ((f32 * f32) * Z) (f32 * f32) f32 :=
    Kernel true ((zero, zero), 0) (zero, zero) mkahan2v (fun s => s) (madd2 ops32) [fun s => fst (norm2 ops32 (snd s) (fst s)); mstdv] false.
End Contracted.
