(** Model of the text form of hits: /repo/bliss/file_types/dat_file.cpp 15-140 and bliss_hits_to_dat.cpp.  Definitions only.
    Numbers are printed as fmt does: "{}" of integers, "{:06}", and fixed notation with correct rounding (half to even).  The shortest
    representation of doubles ("{}" of tstart) is a parameter.  NaN prints without a sign. *)
From Coq Require Export String Ascii.
From Verif Require Export FileModel.
From Flocq Require Import BinarySingleNaN.
Local Open Scope Z_scope.
Local Open Scope list_scope.

(** ** Numbers as text *)
Definition digit (d : Z) : ascii := ascii_of_nat (Z.to_nat (48 + d)).
(** The last [k] decimal digits of [n]. *)
Fixpoint digits (k : nat) (n : Z) (tail : string) : string :=
  match k with O => tail | S k' => digits k' (n / 10) (String (digit (n mod 10)) tail) end.
Fixpoint width (fuel : nat) (n : Z) : nat :=
  match fuel with O => 1%nat | S fuel' => if n <? 10 then 1%nat else S (width fuel' (n / 10)) end.
Definition digit_count (n : Z) : nat := width (Z.to_nat (Z.log2 n)) n.
Definition natural (n : Z) : string := digits (digit_count n) n "".
Definition minus (b : bool) : string := if b then "-"%string else ""%string.
(** "{}" and "{:0w}": zeros between the sign and the digits up to the width. *)
Definition integer (z : Z) : string := (minus (z <? 0)%Z ++ natural (Z.abs z))%string.
Definition zero_padded (w : nat) (z : Z) : string :=
  (minus (z <? 0)%Z ++ digits (Nat.max (w - String.length (minus (z <? 0)%Z)) (digit_count (Z.abs z))) (Z.abs z) "")%string.

(** [m * 2^e * 10^k] rounded to an integer, ties to even. *)
Definition scaled (k : nat) (m e : Z) : Z :=
  let num := m * 10 ^ Z.of_nat k in
  if 0 <=? e then num * 2 ^ e
  else let den := 2 ^ (- e) in
       let q := num / den in let r := num mod den in
       if 2 * r <? den then q else if den <? 2 * r then q + 1 else if Z.even q then q else q + 1.
Fixpoint spaces (n : nat) : string := match n with O => ""%string | S n' => String " " (spaces n') end.
(** "{:wf}" is [fixed w false 6], "{:0w.kf}" is [fixed w true k]: right aligned; zeros only in front of digits. *)
Definition fixed {p q} (w : nat) (zeros : bool) (k : nat) (x : binary_float p q) : string :=
  let blank s := (spaces (w - String.length s) ++ s)%string in
  let number s n :=
    let body i := (digits i (n / 10 ^ Z.of_nat k) "" ++ "." ++ digits k (n mod 10 ^ Z.of_nat k) "")%string in
    let i := digit_count (n / 10 ^ Z.of_nat k) in
    if zeros then (minus s ++ body (Nat.max i (w - String.length (minus s) - 1 - k)))%string
    else blank (minus s ++ body i)%string in
  match x with
  | B754_nan => blank "nan"%string
  | B754_infinity s => blank (minus s ++ "inf")%string
  | B754_zero s => number s 0
  | B754_finite s m e _ => number s (scaled k (Zpos m) e)
  end.

(** ** Sexagesimal angles, 15-46 *)
(** static_cast<int> *)
Definition trunc_int (x : f64) : outcome Z :=
  let! z := trunc_to_int64 x in if (- 2 ^ 31 <=? z) && (z <? 2 ^ 31) then Ok z else UB.
(** Minutes and seconds of a fraction. *)
Definition minutes_seconds (f : f64) : outcome (Z * f64) :=
  let f60 := mul64 f (f64_of_Z 60) in
  let! m := trunc_int f60 in
  Ok (m, mul64 (sub64 f60 (f64_of_Z m)) (f64_of_Z 60)).
(** format_archours_to_sexagesimal 20-29 *)
Definition archours_parts (raj : f64) : outcome (Z * Z * f64) :=
  let deg := mul64 raj (f64_of_Z 15) in
  let hours := div64 deg (f64_of_Z 15) in
  let! h := trunc_int hours in
  let! ms := minutes_seconds (sub64 hours (f64_of_Z h)) in
  Ok (h, fst ms, snd ms).
Definition archours (raj : f64) : outcome string :=
  omap (fun r : Z * Z * f64 => zero_padded 2 (fst (fst r)) ++ "h" ++ zero_padded 2 (snd (fst r)) ++ "m" ++ fixed 6 true 3 (snd r) ++ "s")%string (archours_parts raj).
(** std::abs of an int: undefined for the smallest. *)
Definition abs_int (d : Z) : outcome Z := if d =? - 2 ^ 31 then UB else Ok (Z.abs d).
(** format_degrees_to_sexagesimal 36-43.  A NaN compares false with zero and gets the minus sign. *)
Definition degrees_parts (dej : f64) : outcome (bool * Z * Z * f64) :=
  let! z := trunc_int dej in
  let! d := abs_int z in
  let! ms := minutes_seconds (sub64 (Babs dej) (f64_of_Z d)) in
  Ok (match Bcompare dej (f64_of_Z 0) with Some Eq | Some Gt => false | _ => true end, d, fst ms, snd ms).
Definition degrees (dej : f64) : outcome string :=
  omap (fun r : bool * Z * Z * f64 => (if fst (fst (fst r)) then "-" else "+") ++ zero_padded 2 (snd (fst (fst r))) ++ "d" ++ zero_padded 2 (snd (fst r)) ++ "m" ++
                 fixed 5 true 2 (snd r) ++ "s")%string (degrees_parts dej).

(** ** Rows, format_hits_to_dat_list 48-73 *)
Definition tab : ascii := "009"%char.
Definition newline : ascii := "010"%char.
Definition end_freq (h : hit) : f64 := add64 (h_freq h) (div64 (mul64 (h_dur h) (h_drift h)) (f64_of_Z 1000000)).
Definition mid_freq (h : hit) : f64 := div64 (add64 (h_freq h) (end_freq h)) (f64_of_Z 2).
Definition row_fields (n : Z) (h : hit) : list string :=
  [ zero_padded 6 n; fixed 4 false 6 (h_drift h); fixed 2 false 6 (h_snr h); fixed 6 false 6 (mid_freq h); fixed 6 false 6 (mid_freq h);
    integer (h_index h); fixed 6 false 6 (h_freq h); fixed 6 false 6 (end_freq h); fixed 1 false 6 zero64; fixed 6 false 6 zero64;
    integer (h_coarse h); integer (h_bins h) ].
Fixpoint join (c : ascii) (l : list string) : string :=
  match l with [] => ""%string | [s] => s | s :: l' => (s ++ String c (join c l'))%string end.
Definition row (n : Z) (h : hit) : string := (join tab (row_fields n h) ++ String newline "")%string.
Fixpoint rows (n : Z) (hs : list hit) : string := match hs with [] => ""%string | h :: hs' => (row n h ++ rows (n + 1) hs')%string end.
Definition table (hs : list hit) : string := rows 1 hs.

(** ** The header, write_scan_hits_to_dat_file 103-123 *)
Definition rule : string := "# -------------------------- o --------------------------".
Definition column_names : list string :=
  ["Top_Hit_#"; "Drift_Rate"; "SNR"; "Uncorrected_Frequency"; "Corrected_Frequency"; "Index"; "freq_start"; "freq_end"; "SEFD_freq";
   "Coarse_Channel_Number"; "Full_number_of_hits"]%string.
Section Header.
Variable shortest : f64 -> string.
Definition header (id source : string) (tstart tsamp foff : f64) (steps : Z) (ra dec : string) : list string :=
  [ rule; "# File ID: " ++ id; rule; "# Source:" ++ source;
    "# MJD: " ++ shortest tstart ++ String tab ("RA: " ++ ra ++ "s" ++ String tab ("DEC:" ++ dec));
    "# DELTAT: " ++ fixed 6 false 6 tsamp ++ String tab ("DELTAF(Hz):  " ++ fixed 6 false 6 (mul64 foff (f64_of_Z 1000000)) ++ " max_drift_rate: n/a" ++
      String tab ("obs_length: " ++ fixed 2 false 6 (mul64 (f64_of_Z steps) tsamp)));
    "# --------------------------"; "# " ++ join tab column_names; "# --------------------------" ]%string.
Fixpoint text_of (ls : list string) : string := match ls with [] => ""%string | l :: ls' => (l ++ String newline (text_of ls'))%string end.
(** The whole file.  [hs]: scan.hits(), computed first; the coordinates are optional in a scan. *)
Definition dat_file (id source : string) (tstart tsamp foff : f64) (steps : Z) (raj dej : option f64) (hs : list hit) : outcome string :=
  let! r := value raj in
  let! d := value dej in
  let! ra := archours r in
  let! de := degrees d in
  Ok (text_of (header id source tstart tsamp foff steps ra de) ++ table hs)%string.
End Header.
