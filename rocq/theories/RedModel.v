(** Model of the reductions, of median, of the array creators, of device and datatype strings and of
    deferred arrays.  Paths are relative to /repo/bland/bland.  Definitions only. *)
From Verif Require Export NdModel.
From Coq Require Export Ascii String Permutation.
From Coq Require Export List.
Local Open Scope list_scope.
Local Open Scope Z_scope.

(** ** Reductions, ops/cpu/statistical_cpu.cpp *)

Definition getz (idx : list Z) (d : Z) : Z := nth (Z.to_nat d) idx 0.
Definition setz (idx : list Z) (d v : Z) : list Z := upd idx (Z.to_nat d) (fun _ => v).

(** Increment of a multi-index over a list of axes, fastest axis first: 67-76 (reduced axes from the
    last listed one), 85-94 (all output axes from the last one) and 95-110 (the axes of the input
    that are not reduced, from the last one) are this function with different axis lists. *)
Fixpoint advance (shape : list Z) (raxes : list Z) (idx : list Z) : list Z :=
  match raxes with
  | [] => idx
  | d :: rest =>
    let i := getz idx d + 1 in
    if negb (i =? getz shape d) then setz idx d i
    else advance shape rest (setz idx d 0)
  end.

(** [input_linear_index], 61-65. *)
Fixpoint rcell_loop (offs idx shape strides : list Z) : Z :=
  match offs, idx, shape, strides with
  | o :: offs', i :: idx', n :: shape', s :: strides' =>
    (o + Z.rem i n * s) + rcell_loop offs' idx' shape' strides'
  | _, _, _, _ => 0
  end.
Definition rcell (l : layout) (idx : list Z) : Z := rcell_loop (l_offsets l) idx (l_shape l) (l_strides l).

(** [std::find(reduced_axes, axis) == end] over all axes. *)
Definition kept_axes (n : Z) (axes : list Z) : list Z :=
  filter (fun ax => negb (existsb (Z.eqb ax) axes)) (zrange n).

(** The inner loop 58-77.  [step] is the loop body applied to the linear index.  The counter is an
    [int]: the model does not wrap it, so it covers reductions of less than 2^31 elements. *)
Fixpoint reduce_inner {S} (n : nat) (step : S -> Z -> outcome S) (l : layout) (raxes : list Z) (s : S) (idx : list Z)
  : outcome S :=
  match n with
  | O => Ok s
  | Datatypes.S n' =>
    let! s' := step s (rcell l idx) in
    reduce_inner n' step l raxes s' (advance (l_shape l) raxes idx)
  end.

(** The outer loop 53-112: per output element, [start] is the initialisation of the accumulators
    (it may read other arrays at the output index), [finish] computes the stored value. *)
Fixpoint reduce_outer {S V} (n : nat) (start : list Z -> outcome S) (step : S -> Z -> outcome S) (finish : S -> outcome V)
         (lo l : layout) (raxes kaxes : list Z) (count : nat) (mo : mem V) (oidx iidx : list Z) : outcome (mem V) :=
  match n with
  | O => Ok mo
  | Datatypes.S n' =>
    let! s0 := start oidx in
    let! s := reduce_inner count step l raxes s0 iidx in
    let! v := finish s in
    let! mo' := store mo (cell lo oidx) v in
    reduce_outer n' start step finish lo l raxes kaxes count mo'
      (advance (l_shape lo) (rev (zrange (ndim lo))) oidx)
      (advance (l_shape l) kaxes iidx)
  end.

(** The whole kernel: mean 25-120, masked_mean 122-239, stddev 250-353, masked_stddev 359-488,
    mean_stddev 494-606, masked_mean_stddev 608-744, standardized_moment 756-883, sum 919-1010,
    max 1064-1158 share this loop structure.  An axis outside the shape reads past the shape
    vector. *)
Definition reduce_kernel {S V} (start : list Z -> outcome S) (step : S -> Z -> outcome S) (finish : S -> outcome V)
           (lo l : layout) (axes : list Z) (mo : mem V) : outcome (mem V) :=
  let axes' := match axes with [] => zrange (ndim l) | _ => axes end in
  if negb (forallb (fun d => (0 <=? d) && (d <? ndim l)) axes') then UB else
  reduce_outer (Z.to_nat (numel lo)) start step finish lo l (rev axes') (rev (kept_axes (ndim l) axes'))
    (Z.to_nat (zprod (map (getz (l_shape l)) axes'))) mo
    (map (fun _ => 0) (l_shape lo)) (map (fun _ => 0) (l_shape l)).

(** Output shape, ops/statistical.cpp 24-38 (max), 87-102 (mean), and the same text for the others. *)
Definition reduced_shape (shape axes : list Z) : list Z :=
  let kept := match axes with
              | [] => []
              | _ => map (getz shape) (kept_axes (zlen shape) axes)
              end in
  match kept with [] => [1] | _ => kept end.

Definition reduce {S V} (start : list Z -> outcome S) (step : S -> Z -> outcome S) (finish : S -> outcome V)
           (junk : Z -> V) (l : layout) (axes : list Z) : outcome (layout * mem V) :=
  let sh := reduced_shape (l_shape l) axes in
  let! m := reduce_kernel start step finish (dense sh) l axes (fresh junk sh) in
  Ok (dense sh, m).

(** [sum] 919-1010: accumulator of the input type starting at 0. *)
Definition sum_step {A} (add : A -> A -> A) (m : mem A) (s : A) (c : Z) : outcome A :=
  let! x := load m c in Ok (add s x).
Definition nd_sum {A} (zero : A) (add : A -> A -> A) junk (l : layout) (m : mem A) axes :=
  reduce (fun _ => Ok zero) (sum_step add m) (fun s => Ok s) junk l axes.

(** [mean] 25-120: [add] adds an element to the (double) accumulator, [fin] divides by the number
    of reduced elements and casts. *)
Definition mean_step {A D} (add : D -> A -> D) (m : mem A) (s : D) (c : Z) : outcome D :=
  let! x := load m c in Ok (add s x).
Definition nd_mean {A D V} (zero : D) (add : D -> A -> D) (fin : D -> Z -> V) junk (l : layout) (m : mem A) axes :=
  let axes' := match axes with [] => zrange (ndim l) | _ => axes end in
  reduce (fun _ => Ok zero) (mean_step add m) (fun s => Ok (fin s (zprod (map (getz (l_shape l)) axes')))) junk l axes.

(** [max] 1064-1158: starts from numeric_limits::lowest(). *)
Definition max_step {A} (gt : A -> A -> bool) (m : mem A) (s : A) (c : Z) : outcome A :=
  let! x := load m c in Ok (if gt x s then x else s).
Definition nd_max {A} (lowest : A) (gt : A -> A -> bool) junk (l : layout) (m : mem A) axes :=
  reduce (fun _ => Ok lowest) (max_step gt m) (fun s => Ok s) junk l axes.

(** [stddev] 250-353: accumulators of x*scale and x*x*scale; [fin] is sqrt(max(0, x2 - x*x)). *)
Definition stddev_step {A D} (acc1 acc2 : D -> A -> D) (m : mem A) (s : D * D) (c : Z) : outcome (D * D) :=
  let! x := load m c in Ok (acc1 (fst s) x, acc2 (snd s) x).
Definition nd_stddev {A D V} (zero : D) (acc1 acc2 : D -> A -> D) (fin : D -> D -> V) junk (l : layout) (m : mem A) axes :=
  reduce (fun _ => Ok (zero, zero)) (stddev_step acc1 acc2 m) (fun s => Ok (fin (fst s) (snd s))) junk l axes.

(** [masked_mean] 122-239: the mask is read at the linear index of [a] (line 180), only elements
    with mask 0 are read and counted; none at all raises runtime_error. *)
Definition masked_step {A D} (add : D -> A -> D) (mask : mem Z) (m : mem A) (s : D * Z) (c : Z) : outcome (D * Z) :=
  let! b := load mask c in
  if b =? 0 then let! x := load m c in Ok (add (fst s) x, snd s + 1) else Ok s.
Definition masked_fin {D V} (fin : D -> Z -> V) (s : D * Z) : outcome V :=
  if snd s =? 0 then Throw RuntimeError else Ok (fin (fst s) (snd s)).
(** [masked_mean], [masked_stddev] 359-488 and [masked_mean_stddev] 608-744 differ in the
    accumulator (a sum, or the pair of sums of x and x*x) and in [fin].  The shape comparison is
    145-155 (mask dtype check omitted: the mask is uint8 here). *)
Definition nd_masked {A D V} (zero : D) (add : D -> A -> D) (fin : D -> Z -> V) junk
           (l : layout) (m : mem A) (lm : layout) (mask : mem Z) axes : outcome (layout * mem V) :=
  if negb (ndim l =? ndim lm) then Throw RuntimeError else
  if negb (forallb (fun p => fst p =? snd p) (combine (l_shape l) (l_shape lm))) then Throw RuntimeError else
  reduce (fun _ => Ok (zero, 0)) (masked_step add mask m) (masked_fin fin) junk l axes.

(** [standardized_moment] 756-883: first the means array, then deviations from the mean stored for
    the same output index. *)
Definition moment_step {A D} (dev : A -> A -> A) (acc1 acc2 : D -> A -> D) (m : mem A) (s : A * (D * D)) (c : Z)
  : outcome (A * (D * D)) :=
  let! x := load m c in
  let d := dev x (fst s) in Ok (fst s, (acc1 (fst (snd s)) d, acc2 (snd (snd s)) d)).
Definition nd_moment {A D} (zero : D) (add : D -> A -> D) (fin : D -> Z -> A)
           (dev : A -> A -> A) (acc1 acc2 : D -> A -> D) (fin2 : D -> D -> A) junk (l : layout) (m : mem A) axes :=
  let! means := nd_mean zero add fin junk l m axes in
  reduce (fun oidx => let! mu := load (snd means) (cell (fst means) oidx) in Ok (mu, (zero, zero)))
         (moment_step dev acc1 acc2 m) (fun s => Ok (fin2 (fst (snd s)) (snd (snd s)))) junk l axes.

(** [count_true] 1017-1057: walks the view with the same counter as fill; [truth] is the conversion
    of an element to bool. *)
Definition count_true {A} (truth : A -> bool) (l : layout) (m : mem A) : outcome Z :=
  let! vs := run_read m (view_trace l) in
  Ok (zlen (filter truth vs)).

(** ** median, ops/cpu/statistical_cpu.cpp 891-913 *)

(** Contract of std::nth_element at position [n] (C++ [alg.nth.element]): a permutation in which
    nothing before [n] is greater and nothing after [n] is smaller than the element at [n]. *)
Definition nth_element_post {A} (lt : A -> A -> bool) (l : list A) (n : nat) (l' : list A) : Prop :=
  Permutation l l' /\
  exists pre x post, l' = pre ++ x :: post /\ length pre = n /\
    Forall (fun y => lt x y = false) pre /\ Forall (fun y => lt y x = false) post.

(** The value returned given the two rearranged arrays; [half_sum x y] is (x + y) / 2. *)
Definition median_value {A} (half_sum : A -> A -> A) (l1 l2 : list A) : outcome A :=
  let n := length l1 in
  match nth_error l1 (Nat.div n 2) with
  | None => UB
  | Some mid =>
    if Nat.even n then
      match nth_error l2 (Nat.div n 2 - 1) with
      | Some y => Ok (half_sum mid y)
      | None => UB
      end
    else Ok mid
  end.

(** All possible results of median on the values [l] (any implementation of nth_element). *)
Inductive median_run {A} (lt : A -> A -> bool) (half_sum : A -> A -> A) (l : list A) : outcome A -> Prop :=
| median_empty : l = [] -> median_run lt half_sum l UB
| median_some l1 l2 :
    l <> [] ->
    nth_element_post lt l (Nat.div (length l) 2) l1 ->
    (if Nat.even (length l) then nth_element_post lt l1 (Nat.div (length l) 2 - 1) l2 else l2 = l1) ->
    median_run lt half_sum l (median_value half_sum l1 l2).

(** ** Creators, ops/creators.cpp *)

(** [arange] 13-103 on an integer type, without overflow of that type: the element count is the
    truncated quotient, element ii is start + step*ii.  A negative count is passed to the array
    constructor as a dimension (size computation overflows): UB. *)
Definition arange (start stop step : Z) : outcome (list Z) :=
  if step =? 0 then UB else
  let n := Z.quot (stop - start) step in
  if n <? 0 then UB else Ok (map (fun ii => start + step * ii) (zrange n)).

(** [linspace] for a signed 32-bit start and end: [number_steps] is a size_t, so the difference is
    converted to 64-bit unsigned before the division and all further arithmetic is modulo 2^64; the
    stored value is truncated to 32 bits. *)
Definition linspace_int32 (start stop : Z) (n : Z) : outcome (list Z) :=
  if n =? 0 then UB else
  let step := ((stop - start) mod 2 ^ 64) / n in
  Ok (map (fun ii => to_int32 ((start mod 2 ^ 64 + step * ii) mod 2 ^ 64)) (zrange n)).

(** [linspace] 222-310 for a floating-point type: step = (end - start) / n, element ii =
    start + step*ii, with the arithmetic of the type. *)
Definition linspace {D} (sub div mul add : D -> D -> D) (ofz : Z -> D) (start stop : D) (n : Z) : list D :=
  let step := div (sub stop start) (ofz n) in
  map (fun ii => add start (mul step (ofz ii))) (zrange n).

(** ** Device strings, ndarray.cpp 99-124 *)

Definition is_space (c : ascii) : bool :=
  let n := nat_of_ascii c in (Nat.eqb n 32 || (Nat.leb 9 n && Nat.leb n 13))%bool.
Definition digit_of (c : ascii) : option Z :=
  let n := nat_of_ascii c in
  if (Nat.leb 48 n && Nat.leb n 57)%bool then Some (Z.of_nat n - 48) else None.

Fixpoint skip_spaces (s : string) : string :=
  match s with
  | EmptyString => EmptyString
  | String c r => if is_space c then skip_spaces r else s
  end.
Fixpoint scan_digits (s : string) (acc : Z) : Z :=
  match s with
  | EmptyString => acc
  | String c r => match digit_of c with Some d => scan_digits r (acc * 10 + d) | None => acc end
  end.
Definition starts_with_digit (s : string) : bool :=
  match s with String c _ => match digit_of c with Some _ => true | None => false end | EmptyString => false end.

(** std::stoi base 10: optional spaces, optional sign, at least one digit, trailing text ignored. *)
Definition stoi (s : string) : outcome Z :=
  let s1 := skip_spaces s in
  let '(sign, s2) := match s1 with
                     | String "-"%char r => (-1, r)
                     | String "+"%char r => (1, r)
                     | _ => (1, s1)
                     end in
  if starts_with_digit s2 then
    let v := sign * scan_digits s2 0 in
    if (v <? - 2 ^ 31) || (2 ^ 31 - 1 <? v) then Throw OutOfRange else Ok v
  else Throw InvalidArgument.

Inductive dev_type := DevCPU | DevCUDA | DevCUDAManaged | DevCUDAHost.
Record dev := Dev { dev_ty : dev_type; dev_id : Z }.

(** The id part: [if (size > n && str[n] == ':') id = stoi(str.substr(n+1))]. *)
Definition dev_suffix (ty : dev_type) (rest : string) : outcome dev :=
  match rest with
  | String ":"%char r => let! i := stoi r in Ok (Dev ty i)
  | _ => Ok (Dev ty 0)
  end.

(** [substr(0, n) == p], returning what follows the prefix. *)
Fixpoint strip (p s : string) : option string :=
  match p, s with
  | EmptyString, _ => Some s
  | String a p', String b s' => if Ascii.eqb a b then strip p' s' else None
  | String _ _, EmptyString => None
  end.

Definition parse_dev (s : string) : outcome dev :=
  if String.eqb s "cpu"%string then Ok (Dev DevCPU 0) else
  match strip "cuda"%string s with
  | Some r => dev_suffix DevCUDA r
  | None =>
    match strip "cudamanaged"%string s with
    | Some r => dev_suffix DevCUDAManaged r
    | None =>
      match strip "cudahost"%string s with
      | Some r => dev_suffix DevCUDAHost r
      | None => Throw RuntimeError
      end
    end
  end.

(** ** Deferred arrays, ndarray_deferred.cpp 9-57 *)

Inductive eval_policy := Memoize | Lazy | Eager.

(** The shared variant: an array, or the callable (identified by a number). *)
Inductive dvariant (A : Type) := DData (a : A) | DCall (g : nat).
Arguments DData {A} a.
Arguments DCall {A} g.

(** Where a handle came from; not part of the code, only used to state what a read must return. *)
Inductive origin (A : Type) := FromGen (g : nat) | FromArray (a : A) | FromNothing.
Arguments FromGen {A} g.
Arguments FromArray {A} a.
Arguments FromNothing {A}.

(** A handle (one ndarray_deferred object): its shared variant (None: default constructed, a null
    pointer), its device and its policy. *)
Record handle (A : Type) := Handle { h_ptr : option nat; h_dev : option dev; h_policy : eval_policy; h_origin : origin A }.
Arguments Handle {A} _ _ _ _.
Arguments h_ptr {A} _.
Arguments h_dev {A} _.
Arguments h_policy {A} _.
Arguments h_origin {A} _.

(** World: the shared variants, the handles, the policies the callables were registered with and
    the sequence of callable runs so far. *)
Record dworld (A : Type) :=
  DWorld { w_heap : list (dvariant A); w_handles : list (handle A); w_pols : list eval_policy; w_runs : list nat }.
Arguments DWorld {A} _ _ _ _.
Arguments w_heap {A} _.
Arguments w_handles {A} _.
Arguments w_pols {A} _.
Arguments w_runs {A} _.

Inductive dop (A : Type) :=
| DNewCallable (p : eval_policy)   (* constructor with a callable and a policy, 9-16 *)
| DNewDefault                      (* the same with the default argument, ndarray_deferred.hpp 37 *)
| DNewArray (a : A)                (* constructor with an array, 18-20 *)
| DNewEmpty                        (* default constructor, ndarray_deferred.hpp 32 *)
| DCopy (h : nat)                  (* copying a handle shares the variant *)
| DTo (h : nat) (d : dev)          (* to(device), 22-30 *)
| DToStr (h : nat) (d : dev)       (* to(string), 32-36, after parsing *)
| DRead (h : nat).                 (* operator ndarray, 38-57 *)
Arguments DNewCallable {A} p.
Arguments DNewDefault {A}.
Arguments DNewArray {A} a.
Arguments DNewEmpty {A}.
Arguments DCopy {A} h.
Arguments DTo {A} h d.
Arguments DToStr {A} h d.
Arguments DRead {A} h.

Section Deferred.
(** [gen g k] is what callable [g] returns on its k-th run; [move] is ndarray::to(device). *)
Context {A : Type} (gen : nat -> nat -> A) (move : A -> dev -> A).

Definition run_gen (w : dworld A) (g : nat) : A := gen g (count_occ Nat.eq_dec (w_runs w) g).

Definition add_handle (w : dworld A) (h : handle A) : dworld A :=
  DWorld (w_heap w) (w_handles w ++ [h]) (w_pols w) (w_runs w).
Definition set_handle (w : dworld A) (i : nat) (h : handle A) : dworld A :=
  DWorld (w_heap w) (upd (w_handles w) i (fun _ => h)) (w_pols w) (w_runs w).

Definition new_callable (w : dworld A) (p : eval_policy) : dworld A :=
  let g := length (w_pols w) in
  let h := Handle (Some (length (w_heap w))) None p (FromGen g) in
  match p with
  | Eager => DWorld (w_heap w ++ [DData (run_gen w g)]) (w_handles w ++ [h]) (w_pols w ++ [p]) (w_runs w ++ [g])
  | _ => DWorld (w_heap w ++ [DCall g]) (w_handles w ++ [h]) (w_pols w ++ [p]) (w_runs w)
  end.

(** Reading through a null pointer is undefined behaviour. *)
Definition dread (w : dworld A) (h : handle A) : outcome (dworld A * A) :=
  match h_ptr h with
  | None => UB
  | Some p =>
    match nth_error (w_heap w) p with
    | None => UB
    | Some v =>
      let raw := match v with DCall g => run_gen w g | DData a => a end in
      let runs := match v with DCall g => w_runs w ++ [g] | DData _ => w_runs w end in
      let actual := match h_dev h with Some d => move raw d | None => raw end in
      let heap := match h_policy h with
                  | Memoize => upd (w_heap w) p (fun _ => DData actual)
                  | _ => w_heap w
                  end in
      Ok (DWorld heap (w_handles w) (w_pols w) runs, actual)
    end
  end.

(** A step; a read also yields the handle it went through and the array. *)
Definition dstep (w : dworld A) (o : dop A) : outcome (dworld A * option (handle A * A)) :=
  match o with
  | DNewCallable p => Ok (new_callable w p, None)
  | DNewDefault => Ok (new_callable w Lazy, None)
  | DNewArray a =>
    Ok (DWorld (w_heap w ++ [DData a]) (w_handles w ++ [Handle (Some (length (w_heap w))) None Memoize (FromArray a)])
               (w_pols w) (w_runs w), None)
  | DNewEmpty => Ok (add_handle w (Handle None None Memoize FromNothing), None)
  | DCopy i =>
    match nth_error (w_handles w) i with
    | None => UB
    | Some h => Ok (add_handle w h, None)
    end
  | DTo i d =>
    match nth_error (w_handles w) i with
    | None => UB
    | Some h =>
      match h_ptr h with
      | None => UB
      | Some p =>
        match nth_error (w_heap w) p with
        | None => UB
        | Some (DCall _) => Ok (set_handle w i (Handle (Some p) (Some d) (h_policy h) (h_origin h)), None)
        | Some (DData a) =>
          Ok (set_handle (DWorld (w_heap w ++ [DData (move a d)]) (w_handles w) (w_pols w) (w_runs w)) i
                (Handle (Some (length (w_heap w))) (Some d) (h_policy h) (h_origin h)), None)
        end
      end
    end
  | DToStr i d =>
    match nth_error (w_handles w) i with
    | None => UB
    | Some h => Ok (set_handle w i (Handle (h_ptr h) (Some d) (h_policy h) (h_origin h)), None)
    end
  | DRead i =>
    match nth_error (w_handles w) i with
    | None => UB
    | Some h => let! r := dread w h in Ok (fst r, Some (h, snd r))
    end
  end.

Fixpoint drun (w : dworld A) (ops : list (dop A)) : outcome (dworld A * list (handle A * A)) :=
  match ops with
  | [] => Ok (w, [])
  | o :: rest =>
    let! r := dstep w o in
    let! r2 := drun (fst r) rest in
    Ok (fst r2, match snd r with Some x => x :: snd r2 | None => snd r2 end)
  end.
End Deferred.
Definition dempty {A} : dworld A := DWorld [] [] [] [].
