(** What a coarse channel holds and hands out: data, mask, noise, drift plane and hits of channels that are copied, moved between devices and
    read in any order.  Paths are relative to /repo/bliss.  Definitions only. *)
From Verif Require Export DevModel.

(** The variant shared by deferred arrays, /repo/bland/bland/include/bland/ndarray_deferred.hpp 53: an array, or a callable (a number). *)
Inductive cell A := Held (a : A) | Call (g : nat).
Arguments Held {A}. Arguments Call {A}.
(** One ndarray_deferred: its shared variant (none: null), its device, and whether its policy is memoize; the policy is lazy for a deferred
    array made from a callable with the default argument, memoize for one made from an array (ndarray_deferred.hpp 37-55). *)
Record hdl := Hdl { h_ptr : option nat; h_dev : option dev; h_memo : bool }.
Definition null : hdl := Hdl None None true.
(** frequency_drift_plane, core/include/core/frequency_drift_plane.hpp 43-58, with the flag arrays of integrated_flags
    (core/include/core/integrate_drifts_options.hpp 27-33) as a list; [p_info]: the steps and drift rates. *)
Record plane A I := Plane { p_drifts : hdl; p_flags : list A; p_info : I; p_dev : dev }.
Arguments Plane {A I}. Arguments p_drifts {A I}. Arguments p_flags {A I}. Arguments p_info {A I}. Arguments p_dev {A I}.
Inductive pvariant A I := PVal (p : plane A I) | PGen (g : nat).
Arguments PVal {A I}. Arguments PGen {A I}.
Inductive hvariant H := HVal (h : H) | HGen (g : nat).
Arguments HVal {H}. Arguments HGen {H}.
(** coarse_channel, core/include/core/coarse_channel.hpp 207-218; the drift plane and the hits are shared pointers. *)
Record chan N := Chan { c_data : hdl; c_mask : hdl; c_noise : option N; c_plane : option nat; c_hits : option nat; c_dev : dev }.
Arguments Chan {N}. Arguments c_data {N}. Arguments c_mask {N}. Arguments c_noise {N}. Arguments c_plane {N}. Arguments c_hits {N}. Arguments c_dev {N}.

Inductive field := Data | Mask.
(** Programs.  Channels are numbered in the order of their creation.  A source is an array or a callable. *)
Inductive src A := Arr (a : A) | Gen (g : nat).
Arguments Arr {A}. Arguments Gen {A}.
Inductive cop A N I H :=
| New                                                  (* a constructor without data, coarse_channel.cpp 12-79 *)
| CopyC (i : nat)                                      (* copy construction *)
| AssignC (i j : nat)                                  (* assignment of one channel to another *)
| SetF (f : field) (i : nat) (s : src A)               (* set_data, set_mask and the constructors with data, 115-230 *)
| SetNoise (i : nat) (n : N)                           (* 241-243 *)
| SetPlane (i : nat) (s : src A) (fl : list A) (x : I) (* 432-436 with a plane made from these *)
| SetPlaneGen (i : nat) (g : nat)                      (* 438-443 *)
| SetHits (i : nat) (h : H)                            (* 264-266 *)
| SetHitsGen (i : nat) (g : nat)                       (* 268-270 *)
| SetDev (i : nat) (d : dev)                           (* 276-292 *)
| Push (i : nat)                                       (* push_device 294-302 *)
| GetF (f : field) (i : nat)                           (* data, mask, converted to arrays *)
| GetNoise (i : nat)                                   (* noise_estimate *)
| GetPlane (i : nat)                                   (* integrated_drift_plane, then the arrays of the plane it returns *)
| GetHits (i : nat)                                    (* hits *)
| HasHits (i : nat).                                   (* has_hits *)
Arguments New {A N I H}. Arguments CopyC {A N I H}. Arguments AssignC {A N I H}. Arguments SetF {A N I H}. Arguments SetNoise {A N I H}.
Arguments SetPlane {A N I H}. Arguments SetPlaneGen {A N I H}. Arguments SetHits {A N I H}. Arguments SetHitsGen {A N I H}. Arguments SetDev {A N I H}.
Arguments Push {A N I H}. Arguments GetF {A N I H}. Arguments GetNoise {A N I H}. Arguments GetPlane {A N I H}. Arguments GetHits {A N I H}. Arguments HasHits {A N I H}.
Inductive obs A N I H := ODone | OArr (a : A) | ONoise (n : N) | OPlane (a : A) (fl : list A) (x : I) | OHits (h : H) | OBool (b : bool).
Arguments ODone {A N I H}. Arguments OArr {A N I H}. Arguments ONoise {A N I H}. Arguments OPlane {A N I H}. Arguments OHits {A N I H}. Arguments OBool {A N I H}.

Section Chan.
  Context {A N I H : Type}.
  (** [move]: bland::to; [gen g k], [pgen g k], [hgen g k]: what the k-th run of a callable returns, for arrays, planes and hits;
      [valid]: config::check_is_valid_cuda_device. *)
  Variables (move : A -> dev -> outcome A) (gen : nat -> nat -> outcome A) (pgen : nat -> nat -> outcome (A * list A * I)) (hgen : nat -> nat -> outcome H) (valid : Z -> bool).

  Record cstate := CState { s_cells : list (cell A); s_planes : list (pvariant A I); s_hits : list (hvariant H); s_chans : list (chan N);
    s_runs : list nat; s_pruns : list nat; s_hruns : list nat }.
  Definition cstart : cstate := CState [] [] [] [] [] [] [].
  Definition with_cells (s : cstate) c r := CState c (s_planes s) (s_hits s) (s_chans s) r (s_pruns s) (s_hruns s).
  Definition with_chan (s : cstate) i c := CState (s_cells s) (s_planes s) (s_hits s) (upd (s_chans s) i (fun _ => c)) (s_runs s) (s_pruns s) (s_hruns s).
  Definition with_plane (s : cstate) p v := CState (s_cells s) (upd (s_planes s) p (fun _ => v)) (s_hits s) (s_chans s) (s_runs s) (s_pruns s) (s_hruns s).
  Definition times (runs : list nat) (g : nat) : nat := count_occ Nat.eq_dec runs g.

  (** [ndarray_deferred::to(dev)] ndarray_deferred.cpp 22-30: the device is recorded first, then the array is moved into a new variant. *)
  Definition def_to (cs : list (cell A)) (h : hdl) (d : dev) : list (cell A) * hdl * outcome unit :=
    let h' := Hdl (h_ptr h) (Some d) (h_memo h) in
    match h_ptr h with
    | None => (cs, h', UB)
    | Some p =>
      match nth_error cs p with
      | None => (cs, h', UB)
      | Some (Call _) => (cs, h', Ok tt)
      | Some (Held a) =>
        match move a d with
        | Ok b => (cs ++ [Held b], Hdl (Some (length cs)) (Some d) (h_memo h), Ok tt)
        | Throw e => (cs, h', Throw e)
        | UB => (cs, h', UB)
        end
      end
    end.
  (** [ndarray_deferred::operator ndarray] ndarray_deferred.cpp 38-57. *)
  Definition def_read (cs : list (cell A)) (runs : list nat) (h : hdl) : list (cell A) * list nat * outcome A :=
    match h_ptr h with
    | None => (cs, runs, UB)
    | Some p =>
      match nth_error cs p with
      | None => (cs, runs, UB)
      | Some v =>
        let raw := match v with Held a => Ok a | Call g => gen g (times runs g) end in
        let runs' := match v with Held _ => runs | Call g => runs ++ [g] end in
        let got := let! a := raw in match h_dev h with Some d => move a d | None => Ok a end in
        match got with
        | Ok a => (if h_memo h then upd cs p (fun _ => Held a) else cs, runs', Ok a)
        | e => (cs, runs', e)
        end
      end
    end.
  (** A deferred array made from a source. *)
  Definition defer (cs : list (cell A)) (s : src A) : list (cell A) * hdl :=
    match s with
    | Arr a => (cs ++ [Held a], Hdl (Some (length cs)) None true)
    | Gen g => (cs ++ [Call g], Hdl (Some (length cs)) None false)
    end.

  (** [integrated_flags::push_device] integrate_drifts_options.hpp 51-57: the arrays moved before an exception stay moved. *)
  Fixpoint move_all (l : list A) (d : dev) : list A * outcome unit :=
    match l with
    | [] => ([], Ok tt)
    | a :: r =>
      match move a d with
      | Ok b => let (r', x) := move_all r d in (b :: r', x)
      | Throw e => (a :: r, Throw e)
      | UB => (a :: r, UB)
      end
    end.
  (** [frequency_drift_plane::push_device] core/frequency_drift_plane.cpp 41-45. *)
  Definition push_plane (cs : list (cell A)) (p : plane A I) : list (cell A) * plane A I * outcome unit :=
    let (fl, x) := move_all (p_flags p) (p_dev p) in
    match x with
    | Ok _ => let '(cs', h, y) := def_to cs (p_drifts p) (p_dev p) in (cs', Plane h fl (p_info p) (p_dev p), y)
    | e => (cs, Plane (p_drifts p) fl (p_info p) (p_dev p), e)
    end.

  (** [coarse_channel::data], [mask] core/coarse_channel.cpp 203-207 and 217-221: the moved deferred array is returned by value and converted. *)
  Definition get_field (f : field) (s : cstate) (i : nat) (c : chan N) : cstate * outcome A :=
    let h := match f with Data => c_data c | Mask => c_mask c end in
    let '(cs, h', x) := def_to (s_cells s) h (c_dev c) in
    let c' := match f with
              | Data => Chan h' (c_mask c) (c_noise c) (c_plane c) (c_hits c) (c_dev c)
              | Mask => Chan (c_data c) h' (c_noise c) (c_plane c) (c_hits c) (c_dev c)
              end in
    let s' := with_chan (with_cells s cs (s_runs s)) i c' in
    match x with
    | Ok _ => let '(cs2, runs2, y) := def_read (s_cells s') (s_runs s') h' in (with_cells s' cs2 runs2, y)
    | Throw e => (s', Throw e)
    | UB => (s', UB)
    end.
  (** frequency_drift_plane.cpp 21-29 on the plane [p] that was returned by value: both arrays and the information that belongs to them. *)
  Definition read_plane (s : cstate) (p : plane A I) : cstate * outcome (obs A N I H) :=
    let '(cs, h, x) := def_to (s_cells s) (p_drifts p) (p_dev p) in
    match x with
    | Ok _ =>
      let '(cs2, runs2, y) := def_read cs (s_runs s) h in
      (with_cells s cs2 runs2,
       let! a := y in
       let (fl, z) := move_all (p_flags p) (p_dev p) in
       let! _ := z in Ok (OPlane a fl (p_info p)))
    | Throw e => (with_cells s cs (s_runs s), Throw e)
    | UB => (with_cells s cs (s_runs s), UB)
    end.
  (** [coarse_channel::integrated_drift_plane] 414-431. *)
  Definition get_plane (s : cstate) (c : chan N) : cstate * outcome (obs A N I H) :=
    match c_plane c with
    | None => (s, Throw RuntimeError)
    | Some q =>
      match nth_error (s_planes s) q with
      | None => (s, UB)
      | Some (PGen g) =>
        let r := pgen g (times (s_pruns s) g) in
        let s1 := CState (s_cells s) (s_planes s) (s_hits s) (s_chans s) (s_runs s) (s_pruns s ++ [g]) (s_hruns s) in
        match r with
        | Ok (a, fl, x) => let (cs, h) := defer (s_cells s1) (Arr a) in read_plane (with_cells s1 cs (s_runs s1)) (Plane h fl x (c_dev c))
        | Throw e => (s1, Throw e)
        | UB => (s1, UB)
        end
      | Some (PVal p) =>
        let p' := Plane (p_drifts p) (p_flags p) (p_info p) (c_dev c) in
        read_plane (with_plane s q (PVal p')) p'
      end
    end.
  (** [coarse_channel::push_device] 292-300: the mask, the data, then the plane if there is one. *)
  Definition push (s : cstate) (i : nat) (c : chan N) : cstate * outcome unit :=
    let '(cs1, hm, x1) := def_to (s_cells s) (c_mask c) (c_dev c) in
    let c1 := Chan (c_data c) hm (c_noise c) (c_plane c) (c_hits c) (c_dev c) in
    let s1 := with_chan (with_cells s cs1 (s_runs s)) i c1 in
    match x1 with
    | Ok _ =>
      let '(cs2, hd, x2) := def_to (s_cells s1) (c_data c) (c_dev c) in
      let c2 := Chan hd hm (c_noise c) (c_plane c) (c_hits c) (c_dev c) in
      let s2 := with_chan (with_cells s1 cs2 (s_runs s1)) i c2 in
      match x2 with
      | Ok _ =>
        match c_plane c with
        | None => (s2, Ok tt)
        | Some q =>
          match nth_error (s_planes s2) q with
          | None => (s2, UB)
          | Some (PGen _) => (s2, Ok tt)
          | Some (PVal p) =>
            let '(cs3, p', x3) := push_plane (s_cells s2) (Plane (p_drifts p) (p_flags p) (p_info p) (c_dev c)) in
            (with_plane (with_cells s2 cs3 (s_runs s2)) q (PVal p'), x3)
          end
        end
      | e => (s2, e)
      end
    | e => (s1, e)
    end.
  (** [coarse_channel::hits] 252-261: the result of the callable replaces it in the shared variant. *)
  Definition get_hits (s : cstate) (c : chan N) : cstate * outcome H :=
    match c_hits c with
    | None => (s, Throw LogicError)
    | Some q =>
      match nth_error (s_hits s) q with
      | None => (s, UB)
      | Some (HVal h) => (s, Ok h)
      | Some (HGen g) =>
        let runs := s_hruns s ++ [g] in
        match hgen g (times (s_hruns s) g) with
        | Ok h => (CState (s_cells s) (s_planes s) (upd (s_hits s) q (fun _ => HVal h)) (s_chans s) (s_runs s) (s_pruns s) runs, Ok h)
        | e => (CState (s_cells s) (s_planes s) (s_hits s) (s_chans s) (s_runs s) (s_pruns s) runs, e)
        end
      end
    end.

  Definition done (x : outcome unit) : outcome (obs A N I H) := let! _ := x in Ok ODone.
  (** A step; the state after an exception is the one that a handler would find.  Using a channel that does not exist is no C++ program: UB. *)
  Definition cstep (s : cstate) (o : cop A N I H) : cstate * outcome (obs A N I H) :=
    let on i k := match nth_error (s_chans s) i with Some c => k c | None => (s, UB) end in
    let add c := CState (s_cells s) (s_planes s) (s_hits s) (s_chans s ++ [c]) (s_runs s) (s_pruns s) (s_hruns s) in
    match o with
    | New => (add (Chan null null None None None (Dev Cpu 0)), Ok ODone)
    | CopyC i => on i (fun c => (add c, Ok ODone))
    | AssignC i j => on i (fun _ => on j (fun c => (with_chan s i c, Ok ODone)))
    | SetF f i x => on i (fun c =>
        let (cs, h) := defer (s_cells s) x in
        let c' := match f with
                  | Data => Chan h (c_mask c) (c_noise c) (c_plane c) (c_hits c) (c_dev c)
                  | Mask => Chan (c_data c) h (c_noise c) (c_plane c) (c_hits c) (c_dev c)
                  end in
        (with_chan (with_cells s cs (s_runs s)) i c', Ok ODone))
    | SetNoise i n => on i (fun c => (with_chan s i (Chan (c_data c) (c_mask c) (Some n) (c_plane c) (c_hits c) (c_dev c)), Ok ODone))
    | SetPlane i x fl info => on i (fun c =>
        let (cs, h) := defer (s_cells s) x in
        let s1 := CState cs (s_planes s ++ [PVal (Plane h fl info (Dev Cpu 0))]) (s_hits s) (s_chans s) (s_runs s) (s_pruns s) (s_hruns s) in
        (with_chan s1 i (Chan (c_data c) (c_mask c) (c_noise c) (Some (length (s_planes s))) (c_hits c) (c_dev c)), Ok ODone))
    | SetPlaneGen i g => on i (fun c =>
        let s1 := CState (s_cells s) (s_planes s ++ [PGen g]) (s_hits s) (s_chans s) (s_runs s) (s_pruns s) (s_hruns s) in
        (with_chan s1 i (Chan (c_data c) (c_mask c) (c_noise c) (Some (length (s_planes s))) (c_hits c) (c_dev c)), Ok ODone))
    | SetHits i h => on i (fun c =>
        let s1 := CState (s_cells s) (s_planes s) (s_hits s ++ [HVal h]) (s_chans s) (s_runs s) (s_pruns s) (s_hruns s) in
        (with_chan s1 i (Chan (c_data c) (c_mask c) (c_noise c) (c_plane c) (Some (length (s_hits s))) (c_dev c)), Ok ODone))
    | SetHitsGen i g => on i (fun c =>
        let s1 := CState (s_cells s) (s_planes s) (s_hits s ++ [HGen g]) (s_chans s) (s_runs s) (s_pruns s) (s_hruns s) in
        (with_chan s1 i (Chan (c_data c) (c_mask c) (c_noise c) (c_plane c) (Some (length (s_hits s))) (c_dev c)), Ok ODone))
    | SetDev i d => on i (fun c =>
        if on_gpu (d_type d) && negb (valid (d_id d)) then (s, Throw RuntimeError)
        else (with_chan s i (Chan (c_data c) (c_mask c) (c_noise c) (c_plane c) (c_hits c) d), Ok ODone))
    | Push i => on i (fun c => let (s', x) := push s i c in (s', done x))
    | GetF f i => on i (fun c => let (s', x) := get_field f s i c in (s', let! a := x in Ok (OArr a)))
    | GetNoise i => on i (fun c => (s, match c_noise c with Some n => Ok (ONoise n) | None => Throw LogicError end))
    | GetPlane i => on i (fun c => get_plane s c)
    | GetHits i => on i (fun c => let (s', x) := get_hits s c in (s', let! h := x in Ok (OHits h)))
    | HasHits i => on i (fun c => (s, Ok (OBool (match c_hits c with Some _ => true | None => false end))))
    end.
  (** A program: what each call gave; nothing after undefined behaviour. *)
  Fixpoint crun (s : cstate) (ops : list (cop A N I H)) : list (outcome (obs A N I H)) * cstate :=
    match ops with
    | [] => ([], s)
    | o :: r =>
      let (s', x) := cstep s o in
      match x with
      | UB => ([UB], s')
      | _ => let (l, s'') := crun s' r in (x :: l, s'')
      end
    end.
End Chan.

(** ** Which kernels search a channel *)
Inductive engine := CpuKernel | CudaKernel | GenericKernel.
(** [integrate_drifts(coarse_channel)] drift_search/integrate_drifts.cpp 58-70 (kDLCPU, kDLCUDA); [cuda]: built with BLISS_CUDA. *)
Definition integrate_engine (cuda : bool) (d : dtype) : engine :=
  match d with Cpu => CpuKernel | Cuda => if cuda then CudaKernel else GenericKernel | _ => GenericKernel end.
(** [find_components_above_threshold], [find_local_maxima_above_threshold] drift_search/connected_components.cpp 27-37, local_maxima.cpp 24-34. *)
Definition search_engine (cuda : bool) (d : dtype) : outcome engine :=
  match d with
  | Cuda => if cuda then Ok CudaKernel else Throw RuntimeError
  | Cpu => Ok CpuKernel
  | _ => Throw RuntimeError
  end.
