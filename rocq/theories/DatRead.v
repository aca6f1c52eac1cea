(** Model of reading dat files: /repo/bliss/file_types/dat_file.cpp 138-185 (read_scan_hits_from_dat_file).  Definitions only.
    std::regex (ECMAScript) is modelled by a backtracking matcher for the constructs used: characters, \s+ \S+ \d+ (greedy), -? and groups.
    The anchor ^ makes regex_search try the first position only.  std::stod and std::stoi are parameters.  The stack used by the library's
    matcher on long lines is not modelled; closing the descriptor twice (by the stream buffer and by raii_file_for_read) has no effect here. *)
From Verif Require Export DatModel.
Local Open Scope Z_scope.
Local Open Scope list_scope.

(** std::getline until it fails *)
Fixpoint getlines (s : string) : list string :=
  match s with
  | EmptyString => []
  | String c s' => if Ascii.eqb c newline then ""%string :: getlines s'
                   else match getlines s' with [] => [String c ""] | w :: ws => String c w :: ws end
  end.

(** ** Regular expressions *)
Inductive class := Space | NonSpace | Digit.
Definition code (c : ascii) : Z := Z.of_nat (nat_of_ascii c).
Definition in_class (k : class) (c : ascii) : bool :=
  match k with
  | Space => (code c =? 32) || (9 <=? code c) && (code c <=? 13)
  | NonSpace => negb ((code c =? 32) || (9 <=? code c) && (code c <=? 13))
  | Digit => (48 <=? code c) && (code c <=? 57)
  end.
Inductive node := Chr (c : ascii) | Maybe (c : ascii) | Plus (k : class) | Open | Close.
Definition orelse {A} (a b : option A) : option A := match a with Some _ => a | None => b end.
Section Plus.
  Variable k : class.
  Variable cont : string -> string -> option (list string).
  (** One or more, as many as possible first. *)
  Fixpoint many (s acc : string) : option (list string) :=
    match s with
    | EmptyString => None
    | String c s' => if in_class k c then orelse (many s' (acc ++ String c "")%string) (cont s' (acc ++ String c "")%string) else None
    end.
End Plus.
(** [acc] is the text of the group being read; the result lists the groups. *)
Fixpoint run (r : list node) (s acc : string) : option (list string) :=
  match r with
  | [] => Some []
  | Chr c :: r' => match s with String a s' => if Ascii.eqb a c then run r' s' (acc ++ String a "")%string else None | EmptyString => None end
  | Maybe c :: r' =>
    match s with
    | String a s' => if Ascii.eqb a c then orelse (run r' s' (acc ++ String a "")%string) (run r' s acc) else run r' s acc
    | EmptyString => run r' s acc
    end
  | Plus k :: r' => many k (run r') s acc
  | Open :: r' => run r' s ""
  | Close :: r' => option_map (cons acc) (run r' s "")
  end.
Fixpoint lit (s : string) : list node := match s with EmptyString => [] | String c s' => Chr c :: lit s' end.
Definition sp : list node := [Plus Space].
Definition word : list node := [Open; Plus NonSpace; Close].
Definition int_ : list node := [Open; Plus Digit; Close].
Definition real : list node := [Open; Plus Digit; Chr "."; Plus Digit; Close].
Definition signed_real : list node := [Open; Maybe "-"; Plus Digit; Chr "."; Plus Digit; Close].
(** Lines 145-148 *)
Definition header_regex : list node := lit "#" ++ sp ++ lit "MJD:" ++ sp ++ word ++ sp ++ lit "RA:" ++ sp ++ word ++ sp ++ lit "DEC:" ++ word.
Definition tstart_regex : list node :=
  lit "#" ++ sp ++ lit "DELTAT:" ++ sp ++ word ++ sp ++ lit "DELTAF(Hz):" ++ sp ++ word ++ sp ++ lit "max_drift_rate:" ++ sp ++ word ++ sp ++ lit "obs_length:" ++ sp ++ word.
Definition data_regex : list node :=
  int_ ++ sp ++ signed_real ++ sp ++ real ++ sp ++ real ++ sp ++ real ++ sp ++ int_ ++ sp ++ real ++ sp ++ real ++ sp ++ real ++ sp ++ int_ ++ sp ++ int_.

(** ** The reader, 150-184 *)
(** What is set on the returned scan; it has no channels and therefore no hits. *)
Record dat_scan := DatScan { d_tstart : option f64; d_tsamp : option f64; d_foff : option f64 }.
Section Reader.
  Variable stod : string -> outcome f64.
  Variable stoi : string -> outcome Z.
  Definition group (l : list string) (i : nat) : string := nth i l ""%string.
  (** Also the hit made from the line, which is dropped (lines 164-182). *)
  Definition read_line (st : dat_scan) (line : string) : outcome (dat_scan * option (f64 * f64 * Z * f64 * Z)) :=
    match run header_regex line "" with
    | Some g => let! t := stod (group g 0) in Ok (DatScan (Some t) (d_tsamp st) (d_foff st), None)
    | None =>
      match run tstart_regex line "" with
      | Some g => let! t := stod (group g 0) in let! f := stod (group g 1) in Ok (DatScan (d_tstart st) (Some t) (Some f), None)
      | None =>
        match run data_regex line "" with
        | Some g =>
          let! drift := stod (group g 1) in
          let! snr := stod (group g 2) in
          let! index := stoi (group g 5) in
          let! freq := stod (group g 6) in
          let! coarse := stoi (group g 9) in
          Ok (st, Some (drift, snr, index, freq, coarse))
        | None => Ok (st, None)
        end
      end
    end.
  Fixpoint read_lines (st : dat_scan) (ls : list string) : outcome dat_scan :=
    match ls with [] => Ok st | l :: ls' => let! r := read_line st l in read_lines (fst r) ls' end.
  Definition read_dat (text : string) : outcome dat_scan := read_lines (DatScan None None None) (getlines text).
End Reader.
