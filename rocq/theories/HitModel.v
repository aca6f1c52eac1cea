(** Model of hits: construction from protohits, order, pickling state, filtering and event search.
    Paths relative to /repo/bliss.  Arithmetic is bit-exact binary32/binary64, rounding to nearest even,
    without contraction to fused operations.  Definitions only. *)
From Verif Require Export CcModel CcFloat.
Local Open Scope Z_scope.

(** ** Floating-point helpers *)
Definition f64lt (a b : f64) : bool := match Bcompare a b with Some Lt => true | _ => false end.
Definition f64eq (a b : f64) : bool := match Bcompare a b with Some Eq => true | _ => false end.
Definition f32eq (a b : f32) : bool := match Bcompare a b with Some Eq => true | _ => false end.
(** 1e-8f and 0.01f promoted to double, 1e-6 as a double, FLT_MAX. *)
Definition eps8 : f64 := binary_normalize 53 1024 prec53 emax1024 mode_NE 11258999 (-50) false.
Definition cent : f64 := binary_normalize 53 1024 prec53 emax1024 mode_NE 5368709 (-29) false.
Definition eps6 : f64 := binary_normalize 53 1024 prec53 emax1024 mode_NE 4722366482869645 (-72) false.
Definition flt_max : f32 := binary_normalize 24 128 prec24 emax128 mode_NE 16777215 104 false.
(** float to int64_t: truncation, undefined outside the range. *)
Definition trunc_to_int64 {p q} (x : binary_float p q) : outcome Z :=
  match x with
  | B754_zero _ => Ok 0
  | B754_infinity _ | B754_nan => UB
  | B754_finite s m e _ =>
    let z := cond_Zopp s (if 0 <=? e then Zpos m * 2 ^ e else Zpos m / 2 ^ (- e)) in
    if (- 2 ^ 63 <=? z) && (z <? 2 ^ 63) then Ok z else UB
  end.

(** ** std::map<flag_values, uint8_t> (core/include/core/protohit.hpp 10), as its key-ordered entries *)
Definition rfi := list (Z * Z).
Fixpoint rfi_count (m : rfi) (k : Z) : Z :=
  match m with [] => 0 | (k', v) :: m' => if k =? k' then v else rfi_count m' k end.
(** [m[k]]: inserts a zero when the key is absent. *)
Fixpoint rfi_touch (m : rfi) (k : Z) : rfi :=
  match m with
  | [] => [(k, 0)]
  | (k', v) :: m' => if k <? k' then (k, 0) :: m else if k =? k' then m else (k', v) :: rfi_touch m' k
  end.
(** operator== and operator< of std::map: elementwise, lexicographic. *)
Fixpoint rfi_eqb (a b : rfi) : bool :=
  match a, b with
  | [], [] => true
  | (k, v) :: a', (k', v') :: b' => (k =? k') && (v =? v') && rfi_eqb a' b'
  | _, _ => false
  end.
Definition pair_ltb (x y : Z * Z) : bool := (fst x <? fst y) || (negb (fst y <? fst x) && (snd x <? snd y)).
Fixpoint rfi_ltb (a b : rfi) : bool :=
  match a, b with
  | [], [] => false
  | [], _ :: _ => true
  | _ :: _, [] => false
  | x :: a', y :: b' => if pair_ltb x y then true else if pair_ltb y x then false else rfi_ltb a' b'
  end.

(** ** core/include/core/hit.hpp 12-27 *)
Record hit := Hit {
  h_index : Z; h_freq : f64; h_time : f64; h_dur : f64; h_rate : Z; h_drift : f64; h_power : f64;
  h_steps : Z; h_snr : f32; h_band : f32; h_bins : Z; h_rfi : rfi; h_coarse : Z }.

(** hit.hpp 32-46 *)
Definition hit_eqb (a b : hit) : bool :=
  (h_index a =? h_index b) && f64eq (h_freq a) (h_freq b) && f64eq (h_time a) (h_time b) &&
  f64eq (h_dur a) (h_dur b) && (h_rate a =? h_rate b) && f64eq (h_drift a) (h_drift b) &&
  f64eq (h_power a) (h_power b) && (h_steps a =? h_steps b) && f32eq (h_snr a) (h_snr b) &&
  f32eq (h_band a) (h_band b) && (h_bins a =? h_bins b) && rfi_eqb (h_rfi a) (h_rfi b).
(** hit.hpp 48-82 *)
Definition hit_ltb (a b : hit) : bool :=
  if negb (h_index a =? h_index b) then h_index a <? h_index b else
  if negb (f64eq (h_freq a) (h_freq b)) then f64lt (h_freq a) (h_freq b) else
  if negb (f64eq (h_time a) (h_time b)) then f64lt (h_time a) (h_time b) else
  if negb (f64eq (h_dur a) (h_dur b)) then f64lt (h_dur a) (h_dur b) else
  if negb (h_rate a =? h_rate b) then h_rate a <? h_rate b else
  if negb (f64eq (h_drift a) (h_drift b)) then f64lt (h_drift a) (h_drift b) else
  if negb (f64eq (h_power a) (h_power b)) then f64lt (h_power a) (h_power b) else
  if negb (h_steps a =? h_steps b) then h_steps a <? h_steps b else
  if negb (f32eq (h_snr a) (h_snr b)) then f32lt (h_snr a) (h_snr b) else
  if negb (f32eq (h_band a) (h_band b)) then f32lt (h_band a) (h_band b) else
  if negb (h_bins a =? h_bins b) then h_bins a <? h_bins b else
  rfi_ltb (h_rfi a) (h_rfi b).

(** ** core/hit.cpp 14-39: pickling state *)
Record state := State {
  st_index : Z; st_freq : f32; st_rate : Z; st_drift : f32; st_power : f32; st_steps : f32; st_snr : f32;
  st_band : f64; st_bins : Z }.
Definition get_state (h : hit) : state :=
  State (h_index h) (narrow (h_freq h)) (h_rate h) (narrow (h_drift h)) (narrow (h_power h)) (f32_of_Z (h_steps h))
        (h_snr h) (widen (h_band h)) (h_bins h).
(** [h] is the object assigned to; the fields outside the tuple keep its values. *)
Definition set_state (h : hit) (s : state) : outcome hit :=
  let! steps := trunc_to_int64 (st_steps s) in
  Ok (Hit (st_index s) (widen (st_freq s)) (h_time h) (h_dur h) (st_rate s) (widen (st_drift s)) (widen (st_power s))
          steps (st_snr s) (narrow (st_band s)) (st_bins s) (h_rfi h) (h_coarse h)).

(** ** drift_search/hit_search.cpp 17-58 *)
(** Metadata of the dedrifted coarse channel; [m_rates]: drift_rate_Hz_per_sec of every drift. *)
Record meta := Meta {
  m_fch1 : f64; m_foff : f64; m_tstart : f64; m_tsamp : f64; m_steps : Z; m_rates : list f64;
  m_floor : f32; m_coarse : Z }.
Definition mul64 := Bmult (prec := 53) (emax := 1024) mode_NE.
Definition add64 := Bplus (prec := 53) (emax := 1024) mode_NE.
Definition sub64 := Bminus (prec := 53) (emax := 1024) mode_NE.
Definition div64 := Bdiv (prec := 53) (emax := 1024) mode_NE.
Definition sub32 := Bminus (prec := 24) (emax := 128) mode_NE.
Definition add32 := Bplus (prec := 24) (emax := 128) mode_NE.
Definition mul32 := Bmult (prec := 24) (emax := 128) mode_NE.
Definition div32 := Bdiv (prec := 24) (emax := 128) mode_NE.

(** The map filled by the CPU searches: rfi_counts[low], [high], [rolloff] (as uint8_t). *)
Definition rfi_of (r : option (Z * Z * Z)) : rfi :=
  match r with None => [] | Some (low, high, roll) => [(1, to_uint8 roll); (2, to_uint8 low); (4, to_uint8 high)] end.

(** [junk]: the value found in the uninitialised time_span_steps.  A missing desmeared_noise is an
    uninitialised read, the drift table is indexed without check. *)
Definition make_hit (m : meta) (junk : Z) (c : protohit f32) : outcome hit :=
  let! rate := zget (m_rates m) (fst (ph_max c)) in
  let power := sub32 (ph_power c) (m_floor m) in
  match ph_noise c with
  | None => UB
  | Some w =>
    Ok {| h_index := snd (ph_max c);
          h_freq := add64 (m_fch1 m) (mul64 (m_foff m) (f64_of_Z (snd (ph_center c))));
          h_time := mul64 (mul64 (mul64 (m_tstart m) (f64_of_Z 24)) (f64_of_Z 60)) (f64_of_Z 60);
          h_dur := mul64 (m_tsamp m) (f64_of_Z (m_steps m));
          h_rate := fst (ph_max c);
          h_drift := rate;
          h_power := widen power;
          h_steps := junk;
          h_snr := div32 power w;
          h_band := narrow (mul64 (f64_of_Z (ph_width c)) (Babs (mul64 (f64_of_Z 1000000) (m_foff m))));
          h_bins := ph_width c;
          h_rfi := rfi_of (ph_rfi c);
          h_coarse := m_coarse m |}
  end.
Fixpoint make_hits (m : meta) (junk : nat -> Z) (ps : list (protohit f32)) : outcome (list hit) :=
  match ps with
  | [] => Ok []
  | p :: ps' => let! h := make_hit m (junk O) p in
                let! hs := make_hits m (fun n => junk (S n)) ps' in Ok (h :: hs)
  end.

(** ** drift_search/filter_hits.cpp 13-43 *)
(** [rfi_counts[k] > 0] with the insertion it causes. *)
Definition touch_hit (h : hit) (k : Z) : hit :=
  Hit (h_index h) (h_freq h) (h_time h) (h_dur h) (h_rate h) (h_drift h) (h_power h) (h_steps h) (h_snr h)
      (h_band h) (h_bins h) (rfi_touch (h_rfi h) k) (h_coarse h).
Definition check_hit (zero_drift : bool) (h : hit) : hit * bool :=
  let h1 := touch_hit h 1 in
  let r1 := 0 <? rfi_count (h_rfi h1) 1 in
  let h2 := touch_hit h1 2 in
  let r2 := 0 <? rfi_count (h_rfi h2) 2 in
  let r3 := zero_drift && f64lt (Babs (sub64 (h_drift h2) (f64_of_Z 0))) eps6 in
  (h2, r1 || r2 || r3).
Fixpoint filter_hits (zero_drift : bool) (hs : list hit) : list hit :=
  match hs with
  | [] => []
  | h :: hs' => let (h', remove) := check_hit zero_drift h in
                if remove then filter_hits zero_drift hs' else h' :: filter_hits zero_drift hs'
  end.
(** Lines 45-54: a coarse channel holds an optional list of hits. *)
Definition filter_channel (zero_drift : bool) (hits : option (list hit)) : outcome (option (list hit)) :=
  match hits with None => Throw InvalidArgument | Some hs => Ok (Some (filter_hits zero_drift hs)) end.

(** ** drift_search/event_search.cpp 18-46: distance between hits *)
Record arith (F : Type) := Arith {
  a_add : F -> F -> F; a_sub : F -> F -> F; a_mul : F -> F -> F; a_div : F -> F -> F; a_abs : F -> F;
  a_lt : F -> F -> bool; a_int : Z -> F; a_eps : F; a_cent : F }.
Arguments a_add {F}. Arguments a_sub {F}. Arguments a_mul {F}. Arguments a_div {F}. Arguments a_abs {F}.
Arguments a_lt {F}. Arguments a_int {F}. Arguments a_eps {F}. Arguments a_cent {F}. Arguments Arith {F}.
(** What the distance reads of a hit. *)
Record motion (F : Type) := Motion { t_freq : F; t_time : F; t_dur : F; t_drift : F }.
Arguments Motion {F}. Arguments t_freq {F}. Arguments t_time {F}. Arguments t_dur {F}. Arguments t_drift {F}.

(** [sd]: the weighted SNR difference (weight 0). *)
Definition distance_gen {F} (K : arith F) (a b : motion F) (sd : F) : F :=
  let dd := a_div K (a_abs K (a_sub K (t_drift a) (t_drift b)))
                    (a_add K (a_add K (a_eps K) (a_mul K (t_drift a) (t_drift a))) (a_mul K (t_drift b) (t_drift b))) in
  let err := a_mul K dd dd in
  let first := if a_lt K (t_time b) (t_time a) then t_time b else t_time a in
  let ea := a_add K (t_time a) (t_dur b) in
  let eb := a_add K (t_time b) (t_dur b) in
  let last := if a_lt K ea eb then eb else ea in
  let rv := a_div K (a_add K last first) (a_int K 2) in
  let fa := a_add K (a_mul K (t_freq a) (a_int K 1000000)) (a_mul K (t_drift a) (a_sub K rv (t_time a))) in
  let fb := a_add K (a_mul K (t_freq b) (a_int K 1000000)) (a_mul K (t_drift b) (a_sub K rv (t_time b))) in
  a_add K (a_add K (a_mul K (a_cent K) (a_abs K (a_sub K fa fb))) (a_mul K (a_int K 10) err)) sd.

Definition arith64 : arith f64 := Arith add64 sub64 mul64 div64 Babs f64lt f64_of_Z eps8 cent.
Definition motion_of (h : hit) : motion f64 := Motion (h_freq h) (h_time h) (h_dur h) (h_drift h).
Definition distance_func (a b : hit) : f32 :=
  narrow (distance_gen arith64 (motion_of a) (motion_of b) (widen (mul32 (f32_of_Z 0) (Babs (sub32 (h_snr a) (h_snr b)))))).

(** Lines 53-64: order of the cached pairs. *)
Definition hpair_ltb (p q : hit * hit) : bool :=
  hit_ltb (fst p) (fst q) || (negb (hit_ltb (fst q) (fst p)) && hit_ltb (snd p) (snd q)).
Definition cache_ltb (p q : hit * hit) : bool :=
  if hit_eqb (fst p) (fst q) && hit_eqb (snd p) (snd q) then false
  else if hit_eqb (fst p) (snd q) && hit_eqb (snd p) (fst q) then false
  else hpair_ltb p q.

(** ** event_search.cpp 83-204 *)
Record event := Event {
  ev_hits : list hit; ev_freq : f64; ev_power : f32; ev_band : f32; ev_snr : f32; ev_drift : f64;
  ev_start : f64; ev_end : f64 }.
(** [tstart], [tduration_secs] of a scan. *)
Record span := Span { sp_tstart : f64; sp_dur : f64 }.

Section Events.
  (** The cached distance: any function of the hits and of what was asked before. *)
  Context {S : Type}.
  Variable dist : S -> hit -> hit -> f32 * S.

  (** Lines 138-144 *)
  Fixpoint lowest (s : S) (ev : list hit) (c : hit) (low : f32) : f32 * S :=
    match ev with
    | [] => (low, s)
    | h :: ev' => let (d, s') := dist s h c in lowest s' ev' c (if f32lt d low then d else low)
    end.
  (** Lines 133-149; the best hit is returned with its position. *)
  Fixpoint nearest (s : S) (ev : list hit) (cands : list hit) (n : nat) (best : f32) (at_ : option (nat * hit))
    : f32 * option (nat * hit) * S :=
    match cands with
    | [] => (best, at_, s)
    | c :: cands' =>
      let (d, s') := lowest s ev c flt_max in
      if f32lt d best then nearest s' ev cands' (Datatypes.S n) d (Some (n, c)) else nearest s' ev cands' (Datatypes.S n) best at_
    end.
  Definition erase_at {A} (n : nat) (l : list A) : list A := firstn n l ++ skipn (Datatypes.S n) l.
  (** Lines 112-157, one later scan; dereferencing an unset iterator is undefined. *)
  Definition extend (s : S) (ev : list hit) (hs : list hit) : outcome (list hit * list hit * S) :=
    let '(d, at_, s') := nearest s ev hs 0 flt_max None in
    if f32lt d (f32_of_Z 50) then
      match at_ with Some (n, h) => Ok (ev ++ [h], erase_at n hs, s') | None => UB end
    else Ok (ev, hs, s').
  Fixpoint extend_all (s : S) (ev : list hit) (later : list (list hit)) : outcome (list hit * list (list hit) * S) :=
    match later with
    | [] => Ok (ev, [], s)
    | hs :: later' =>
      let! r := extend s ev hs in
      let '(ev1, hs1, s1) := r in
      let! r' := extend_all s1 ev1 later' in
      let '(ev2, later2, s2) := r' in
      Ok (ev2, hs1 :: later2, s2)
    end.
  (** Lines 159-171 *)
  Fixpoint off_sum (s : S) (off : hit) (ev : list hit) (acc : f32) : f32 * S :=
    match ev with
    | [] => (acc, s)
    | h :: ev' => let (d, s') := dist s off h in off_sum s' off ev' (add32 acc d)
    end.
  Fixpoint times_off (s : S) (ev : list hit) (offs : list hit) : Z * S :=
    match offs with
    | [] => (0, s)
    | o :: offs' =>
      let (sum, s1) := off_sum s o ev (f32_of_Z 0) in
      let (k, s2) := times_off s1 ev offs' in
      ((if f32lt (div32 sum (f32_of_Z (zlen ev))) (f32_of_Z 50) then 1 else 0) + k, s2)
    end.
  (** Lines 173-198 *)
  Definition averaged (first : hit) (sp : span) (ev : list hit) : event :=
    let n := zlen ev in
    {| ev_hits := ev;
       ev_freq := mul64 (h_freq first) (f64_of_Z 1000000);
       ev_power := div32 (fold_left (fun a h => narrow (add64 (widen a) (h_power h))) ev (f32_of_Z 0)) (f32_of_Z n);
       ev_band := div32 (fold_left (fun a h => add32 a (h_band h)) ev (f32_of_Z 0)) (f32_of_Z n);
       ev_snr := div32 (fold_left (fun a h => add32 a (h_snr h)) ev (f32_of_Z 0)) (f32_of_Z n);
       ev_drift := div64 (fold_left (fun a h => add64 a (h_drift h)) ev (f64_of_Z 0)) (f64_of_Z n);
       ev_start := mul64 (sp_tstart sp) (f64_of_Z 86400);
       ev_end := add64 (mul64 (sp_tstart sp) (f64_of_Z 86400)) (sp_dur sp) |}.
  (** Lines 108-200: all starting hits of one scan. *)
  Fixpoint from_scan (s : S) (sp : span) (starts : list hit) (later : list (list hit)) (offs : list hit)
    : outcome (list event * list (list hit) * S) :=
    match starts with
    | [] => Ok ([], later, s)
    | h :: starts' =>
      let! r := extend_all s [h] later in
      let '(ev, later1, s1) := r in
      let (k, s2) := times_off s1 ev offs in
      let! r' := from_scan s2 sp starts' later1 offs in
      let '(evs, later2, s3) := r' in
      Ok ((if (1 <? zlen ev) && (k =? 0) then [averaged h sp ev] else []) ++ evs, later2, s3)
    end.
  Fixpoint from_scans (s : S) (sps : list span) (on : list (list hit)) (offs : list hit) : outcome (list event * S) :=
    match sps, on with
    | sp :: sps', starts :: later =>
      let! r := from_scan s sp starts later offs in
      let '(evs, later', s') := r in
      let! r' := from_scans s' sps' later' offs in
      Ok (evs ++ fst r', snd r')
    | _, _ => Ok ([], s)
    end.
  (** The observations of the cadence are lists of scans with their hits; the first is on target. *)
  Definition event_search (s : S) (obs : list (list (span * list hit))) : outcome (list event) :=
    match obs with
    | [] => UB
    | on :: off =>
      let! r := from_scans s (map fst on) (map snd on) (flat_map snd (concat off)) in Ok (fst r)
    end.
End Events.
