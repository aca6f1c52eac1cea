(** The GPU reduction kernels of /repo/bland/bland/ops/cuda/statistical_cuda.cu as instances of [kernel].  Definitions only. *)
From Verif Require Export GredModel ScanModel.
Local Open Scope Z_scope.

Section Kernels.
  (** Arithmetic of the element type, its square root, and [max((in_datatype)0, diff)]. *)
  Context {F : Type} (O : numops F) (sqrtF relu : F -> F).
  Notation zero := (o_of O 0).
  (** [kahan] 76-81 as used at 184-187: the new sum and compensation. *)
  Definition kahan (s c x : F) : F * F :=
    let y := o_sub O x c in
    let t := o_add O s y in
    (t, o_sub O (o_sub O t s) y).
  (** The accumulators of stddev and var, 192-201. *)
  Definition kahan2 (s c : F * F) (x : F) : (F * F) * (F * F) :=
    let a := kahan (fst s) (fst c) x in
    let b := kahan (snd s) (snd c) (o_mul O x x) in
    ((fst a, fst b), (snd a, snd b)).
  Definition add2 (s s' : F * F) : F * F := (o_add O (fst s) (fst s'), o_add O (snd s) (snd s')).
  Definition norm2 (rf : Z) (s : F * F) : F * F := (o_div O (fst s) (o_of O rf), o_div O (snd s) (o_of O rf)).
  (** 258-274. *)
  Definition fin_var (s : F * F) : F := relu (o_sub O (snd s) (o_mul O (fst s) (fst s))).
  Definition fin_std (s : F * F) : F := sqrtF (fin_var s).

  (** [reduction_impl] 100-317; [rf] is reduction_factor. *)
  Definition gk_sum : kernel F F F F := Kernel false zero zero kahan (fun s => s) (o_add O) [fun s => s] false.
  Definition gk_mean (rf : Z) : kernel F F F F := Kernel false zero zero kahan (fun s => o_div O s (o_of O rf)) (o_add O) [fun s => s] false.
  Definition gk_stddev (rf : Z) : kernel F (F * F) (F * F) F := Kernel false (zero, zero) (zero, zero) kahan2 (norm2 rf) add2 [fin_std] false.
  Definition gk_var (rf : Z) : kernel F (F * F) (F * F) F := Kernel false (zero, zero) (zero, zero) kahan2 (norm2 rf) add2 [fin_var] false.
  (** [mean_stddev_impl] 322-534. *)
  Definition gk_mean_stddev (rf : Z) : kernel F (F * F) (F * F) F :=
    Kernel false (zero, zero) (zero, zero) kahan2 (norm2 rf) add2 [fst; fin_std] true.

  (** The masked kernels count what they use (uint32_t, wraps) and divide after the tree: [reduction_impl] 539-768,
      [mean_stddev_impl] 782-989. *)
  Definition cnt (n : Z) : Z := n mod 2 ^ 32.
  Definition mkahan (s : F * Z) (c x : F) : (F * Z) * F := let a := kahan (fst s) c x in ((fst a, cnt (snd s + 1)), snd a).
  Definition mkahan2 (s : (F * F) * Z) (c : F * F) (x : F) : ((F * F) * Z) * (F * F) :=
    let a := kahan2 (fst s) c x in ((fst a, cnt (snd s + 1)), snd a).
  Definition madd (s s' : F * Z) : F * Z := (o_add O (fst s) (fst s'), cnt (snd s + snd s')).
  Definition madd2 (s s' : (F * F) * Z) : (F * F) * Z := (add2 (fst s) (fst s'), cnt (snd s + snd s')).
  Definition gk_msum : kernel F (F * Z) F F := Kernel true (zero, 0) zero mkahan (fun s => s) madd [fst] false.
  Definition gk_mmean : kernel F (F * Z) F F := Kernel true (zero, 0) zero mkahan (fun s => s) madd [fun s => o_div O (fst s) (o_of O (snd s))] false.
  Definition fin_mvar (s : (F * F) * Z) : F := fin_var (norm2 (snd s) (fst s)).
  Definition fin_mstd (s : (F * F) * Z) : F := sqrtF (fin_mvar s).
  Definition gk_mstddev : kernel F ((F * F) * Z) (F * F) F := Kernel true ((zero, zero), 0) (zero, zero) mkahan2 (fun s => s) madd2 [fin_mstd] false.
  Definition gk_mvar : kernel F ((F * F) * Z) (F * F) F := Kernel true ((zero, zero), 0) (zero, zero) mkahan2 (fun s => s) madd2 [fin_mvar] false.
  Definition gk_mmean_stddev : kernel F ((F * F) * Z) (F * F) F :=
    Kernel true ((zero, zero), 0) (zero, zero) mkahan2 (fun s => s) madd2 [fun s => fst (norm2 (snd s) (fst s)); fin_mstd] false.
End Kernels.

(** [comparison_reduction_impl] 994-1167 for max: [gt] is operator>. *)
Definition gk_max {F} (gt : F -> F -> bool) (lowest : F) : kernel F F unit F :=
  Kernel false lowest tt (fun s c x => (if gt x s then x else s, c)) (fun s => s) (fun s s' => if gt s' s then s' else s) [fun s => s] false.

(** The number of elements reduced into one output: 1197-1200. *)
Definition red_factor (l : layout) (axes : list Z) : Z :=
  zprod (map (getz (l_shape l)) (match axes with [] => zrange (ndim l) | _ => axes end)).
