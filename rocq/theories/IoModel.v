(** Trajectory files: trajectopy_core/input_output/trajectory_io.py, input_output/utils.py and
    Trajectory.from_file / to_file (trajectory.py:143-184 and 298-328).
    pandas, numpy and scipy functions are modelled by their documented behaviour or are parameters.  Quotation
    marks in data lines, thousands separators and boolean columns are not modelled.  File system errors are not. *)
From Verif Require Import Base EstModel TextModel HeaderModel NumpyModel TrajModel GeomModel.
Local Open Scope string_scope.

(** ** pandas.read_csv(header=None, comment="#") *)

(** A cell of the table as text; None is a missing cell. *)
Definition cell := option string.

(** The part of a line before "#" *)
Fixpoint uncomment (s : string) : string :=
  match s with
  | "" => ""
  | String c r => if Ascii.eqb c "#" then "" else String c (uncomment r)
  end.

(** Lines holding data: comments are cut off, and lines that are then blank are skipped. *)
Definition data_lines (text : string) : list string :=
  filter (fun l => negb (length (words l) =? 0)%nat) (map uncomment (file_lines text)).

(** A table with its number of columns, or what [np.loadtxt] gives for no data: an empty one-dimensional array. *)
Inductive data := Table (columns : nat) (rows : list (list cell)) | Flat.

(** Cells of the lines: the first line fixes the number of columns, shorter lines are filled up with missing cells,
    longer ones are an error (None), as is a text without data. *)
Definition pad (n : nat) (l : list string) : list cell := (map Some l ++ repeat None (n - length l))%list.
Definition make_table (lines : list (list string)) : option data :=
  match lines with
  | [] => None
  | first :: _ =>
      let n := length first in
      if forallb (fun l => (length l <=? n)%nat) lines then Some (Table n (map (pad n) lines)) else None
  end.

(** [pd.read_csv(..., sep=delimiter)]; the delimiter is one character here, see [delimiter_line_handler]. *)
Definition read_csv (delimiter : string) (text : string) : option data :=
  make_table (map (match delimiter with String d _ => split_on d | "" => words end) (data_lines text)).
(** [pd.read_csv(..., delim_whitespace=True)] *)
Definition read_whitespace (text : string) : option data := make_table (map words (data_lines text)).

(** [np.loadtxt(..., comments="#")] where [pd.read_csv(delim_whitespace=True)] fails: no data gives an empty
    one-dimensional array, lines of different length raise ValueError. *)
Definition loadtxt (text : string) : result data :=
  match data_lines text with [] => Ok Flat | _ => Err ValueError end.

Definition columns_of (d : data) : nat := match d with Table n _ => n | Flat => 1 end.

(** trajectory_io.py:24-49 [read_data] with dtype=object *)
Definition read_data (T : text_ops) (text : string) : result (header * data) :=
  let! h := header_from_file T text in
  let fallback :=
    match read_whitespace text with
    | Some d => Ok d
    | None => loadtxt text
    end in
  let! d := match read_csv (h_delimiter h) text with
            | Some d => if (columns_of d =? 1)%nat then fallback else Ok d
            | None => fallback
            end in
  Ok (h, d).

(** trajectory_io.py:52-78 [read_string] with dtype=object.  The StringIO is at its end after the first [read_csv]
    (which reads inputs up to its buffer size at once), so the other attempts see an empty text. *)
Definition read_string (T : text_ops) (text : string) : result (header * data) :=
  let! h := header_from_string T text in
  let fallback :=
    match read_whitespace "" with
    | Some d => Ok d
    | None => loadtxt ""
    end in
  let! d := match read_csv (h_delimiter h) text with
            | Some d => if (columns_of d =? 1)%nat then fallback else Ok d
            | None => fallback
            end in
  Ok (h, d).

(** ** Columns *)

(** [fields.index(name)] *)
Fixpoint index_of (name : string) (fields : list string) : result nat :=
  match fields with
  | [] => Err ValueError
  | f :: r => if String.eqb f name then Ok O else rmap S (index_of name r)
  end.

(** [trajectory_data[:, j]] *)
Definition column (d : data) (j : nat) : result (list cell) :=
  match d with
  | Flat => Err IndexError
  | Table n rows => if (j <? n)%nat then Ok (map (fun r => nth j r None) rows) else Err IndexError
  end.

(** [.astype(float)] of a cell: a missing cell is NaN. *)
Definition to_num (T : text_ops) (c : cell) : result num :=
  match c with
  | None => Ok NaN
  | Some s => match number T s with Some x => Ok x | None => Err ValueError end
  end.
Definition to_nums (T : text_ops) (c : list cell) : result (list num) := mapM (to_num T) c.

(** [trajectory_data[:, [fields.index(a), fields.index(b), ...]].astype(float)], column by column *)
Definition columns (T : text_ops) (h : header) (d : data) (names : list string) : result (list (list num)) :=
  let! js := mapM (fun a => index_of a (h_fields h)) names in
  let! cs := mapM (column d) js in
  mapM (to_nums T) cs.

Definition data_length (d : data) : nat := match d with Table _ rows => length rows | Flat => O end.

Definition num_add (x y : num) : num :=
  match x, y with
  | Fin a, Fin b => Fin (a + b)
  | NaN, _ | _, NaN => NaN
  | _, _ => Inf
  end.

(** ** Timestamps *)

(** External date functions.  [parse_dt format s]: seconds from 1970 of the date written as [s], as pd.to_datetime reads
    it; [localize zone x]: the UTC timestamp of local time [x]; both None if they raise ValueError.  [this_week]: GPS week
    of the current date.  [week_zero]: [GPS_WEEK_ZERO.timestamp()]; the datetime has no time zone, so that this is
    1980-01-06 00:00 in the zone of the machine. *)
Record clock := mkClock {
  parse_dt : string -> string -> option R;
  localize : string -> R -> option R;
  this_week : Z;
  week_zero : R
}.
(** definitions.py:65 *)
Definition GPS_LEAP_SECONDS : R := 18.

Fixpoint upper (s : string) : string :=
  match s with
  | "" => ""
  | String c r =>
      let n := nat_of_ascii c in
      String (if ((97 <=? n) && (n <=? 122))%nat%bool then ascii_of_nat (n - 32) else c) (upper r)
  end.

(** [time_columns]: trajectory_io.py:167 *)
Definition time_columns (fields : list string) : list nat :=
  map fst (filter (fun e => String.eqb (snd e) "t") (enumerate fields)).

(** A column pandas reads as text: some cell is not a number. *)
Definition text_column (T : text_ops) (c : list cell) : bool :=
  existsb (fun x => match x with Some s => match number T s with None => true | _ => false end | None => false end) c.

(** [" ".join(row)]: every cell must be a string. *)
Definition joined (row : list cell) : result string :=
  rmap (join " ") (mapM (fun c => match c with Some s => Ok s | None => Err TypeError end) row).

Fixpoint take (n : nat) (s : string) : string :=
  match n, s with S m, String c r => String c (take m r) | _, _ => "" end.

(** [np.apply_along_axis(join, 1, a)]: the result array has the string length of the first result, and numpy cuts off
    longer strings. *)
Definition apply_join (rows : list (list cell)) : result (list string) :=
  let! l := mapM joined rows in
  match l with
  | [] => Ok []
  | s :: _ => Ok (map (take (String.length s)) l)
  end.

Fixpoint transpose {A} (n : nat) (cols : list (list A)) : list (list A) :=
  match n with
  | O => []
  | S m => (flat_map (fun c => firstn 1 c) cols) :: transpose m (map (@tl A) cols)
  end.

(** trajectory_io.py:196-225 [parse_datetime] *)
Definition parse_datetime (T : text_ops) (C : clock) (h : header) (d : data) (cols : list nat) : result (list num) :=
  let! cs := mapM (column d) cols in
  if negb (forallb (text_column T) cs) then Err TypeError
  else
    let! strings := apply_join (transpose (data_length d) cs) in
    let! ts := mapM (fun s => match parse_dt C (h_datetime_format h) s with Some x => Ok x | None => Err ValueError end) strings in
    let gps := String.eqb (upper (h_datetime_timezone h)) "GPS" in
    let ts' := if gps then map (fun x => x - GPS_LEAP_SECONDS) ts else ts in
    let zone := if gps then "UTC" else h_datetime_timezone h in
    mapM (fun x => match localize C zone x with Some y => Ok (Fin y) | None => Err ValueError end) ts'.

(** trajectory_io.py:228-244 [parse_gps_sow] *)
Definition parse_gps_sow (T : text_ops) (C : clock) (h : header) (d : data) (cols : list nat) : result (list num) :=
  let! cs := mapM (column d) cols in
  let! xs := mapM (to_nums T) cs in
  Ok (map (fun x => num_add (num_add (num_add x (Fin (IZR (h_gps_week (this_week C) h) * 604800))) (Fin (- GPS_LEAP_SECONDS)))
                            (Fin (week_zero C)))
          (concat (transpose (data_length d) xs))).

(** trajectory_io.py:156-193 [extract_trajectory_timestamps] *)
Definition extract_timestamps (T : text_ops) (C : clock) (h : header) (d : data) : result (list num) :=
  let cols := time_columns (h_fields h) in
  let shift := map (fun x => num_add x (h_time_offset h)) in
  let! f := h_time_format h in
  match f with
  | UNIX =>
      if (length cols =? 1)%nat
      then let! j := index_of "t" (h_fields h) in
           let! c := column d j in
           rmap shift (to_nums T c)
      else Ok (map (fun i => Fin (INR i)) (seq 0 (data_length d)))
  | DATETIME =>
      if negb (length cols =? 0)%nat then rmap shift (parse_datetime T C h d cols)
      else Ok (map (fun i => Fin (INR i)) (seq 0 (data_length d)))
  | GPS_SOW =>
      if negb (length cols =? 0)%nat then rmap shift (parse_gps_sow T C h d cols)
      else Ok (map (fun i => Fin (INR i)) (seq 0 (data_length d)))
  end.

(** ** Positions, arc lengths, speeds *)

Fixpoint zip3 {A} (x y z : list num) (f : num -> num -> num -> A) : list A :=
  match x, y, z with a :: x', b :: y', c :: z' => f a b c :: zip3 x' y' z' f | _, _, _ => [] end.
Definition N3 := (num * num * num)%type.
Definition zip_v3 (l : list (list num)) : list N3 :=
  match l with [x; y; z] => zip3 x y z (fun a b c => (a, b, c)) | _ => [] end.

(** trajectory_io.py:284-309 [extract_trajectory_pointset] *)
Definition extract_pointset (T : text_ops) (h : header) (d : data) : result (list N3) :=
  rmap zip_v3 (columns T h d ["px"; "py"; "pz"]).

(** trajectory_io.py:271-281 [extract_trajectory_arc_lengths] *)
Definition extract_arc_lengths (T : text_ops) (h : header) (d : data) : result (option (list num)) :=
  if member "l" (h_fields h)
  then let! j := index_of "l" (h_fields h) in let! c := column d j in rmap Some (to_nums T c)
  else Ok None.

(** trajectory_io.py:247-268 [extract_trajectory_speed] *)
Definition extract_speed (T : text_ops) (h : header) (d : data) : result (option (list N3)) :=
  if forallb (fun a => member a (h_fields h)) ["vx"; "vy"; "vz"]
  then rmap (fun l => Some (zip_v3 l)) (columns T h d ["vx"; "vy"; "vz"])
  else Ok None.

(** ** Navigation frame: input_output/utils.py:15-40 [get_rot_matrix] *)

Definition set_entry (m : M3) (i j : nat) (v : R) : result M3 :=
  let upd r := match j with
               | O => Ok (mkV3 v (vy r) (vz r))
               | 1%nat => Ok (mkV3 (vx r) v (vz r))
               | 2%nat => Ok (mkV3 (vx r) (vy r) v)
               | _ => Err IndexError
               end in
  match i with
  | O => let! r := upd (row1 m) in Ok (mkM3 r (row2 m) (row3 m))
  | 1%nat => let! r := upd (row2 m) in Ok (mkM3 (row1 m) r (row3 m))
  | 2%nat => let! r := upd (row3 m) in Ok (mkM3 (row1 m) (row2 m) r)
  | _ => Err IndexError
  end.

(** ["enu".find(char)]; -1 (not found) is the last column *)
Definition enu_find (c : ascii) : nat :=
  if Ascii.eqb c "e" then 0%nat else if Ascii.eqb c "n" then 1%nat else 2%nat.
Fixpoint replace_char (a b : ascii) (s : string) : string :=
  match s with "" => "" | String c r => String (if Ascii.eqb c a then b else c) (replace_char a b r) end.
Fixpoint fill_rows (flipped : bool) (m : M3) (i : nat) (s : string) : result M3 :=
  match s with
  | "" => Ok m
  | String c r =>
      let v := if (Ascii.eqb c "u" && flipped)%bool then -1 else 1 in
      let! m' := set_entry m i (enu_find c) v in fill_rows flipped m' (S i) r
  end.
Definition mzero : M3 := mkM3 vzero vzero vzero.
Definition get_rot_matrix (nframe : string) : result M3 :=
  let nf := lower nframe in
  if (negb (has_char "e" nf) || negb (has_char "n" nf) || (negb (has_char "u" nf) && negb (has_char "d" nf)))%bool
  then Err ValueError
  else fill_rows (has_char "d" nf) mzero 0 (replace_char "d" "u" nf).

(** ** Rotations *)

Record V4 := mkV4 { q_x : R; q_y : R; q_z : R; q_w : R }.

(** [Rotation.as_quat] and [Rotation.from_quat] of one rotation; [from_quat] is None for the zero quaternion. *)
Record quat_ops (Q : Type) := mkQuatOps { as_quat : Q -> V4; from_quat : V4 -> option Q }.
Arguments as_quat {Q}. Arguments from_quat {Q}.

Definition finite (x : num) : option R := match x with Fin r => Some r | _ => None end.
Fixpoint all_some {A} (l : list (option A)) : option (list A) :=
  match l with
  | [] => Some []
  | Some a :: r => match all_some r with Some s => Some (a :: s) | None => None end
  | None :: _ => None
  end.
Definition fin_v3 (v : N3) : option V3 :=
  match v with (Fin a, Fin b, Fin c) => Some (mkV3 a b c) | _ => None end.
Fixpoint zip_v4 (x y z w : list num) : list (option V4) :=
  match x, y, z, w with
  | a :: x', b :: y', c :: z', d :: w' =>
      match a, b, c, d with Fin a, Fin b, Fin c, Fin d => Some (mkV4 a b c d) | _, _, _, _ => None end :: zip_v4 x' y' z' w'
  | _, _, _, _ => []
  end.

Section Import.
  Context {Q : Type} (ops : rot_ops Q) (qops : quat_ops Q).

  (** trajectory_io.py:109-129 [extract_quaternions].  [Ok None]: some component is not a finite number; what scipy then
      returns is not modelled. *)
  Definition extract_quaternions (T : text_ops) (h : header) (d : data) : result (option (list Q)) :=
    let! c := columns T h d ["qx"; "qy"; "qz"; "qw"] in
    match c with
    | [x; y; z; w] =>
        match all_some (zip_v4 x y z w) with
        | None => Ok None
        | Some qs =>
            rmap Some (mapM (fun v => match from_quat qops v with Some q => Ok q | None => Err ValueError end) qs)
        end
    | _ => Ok None
    end.

  (** trajectory_io.py:132-153 [extract_euler_angles] *)
  Definition extract_euler_angles (T : text_ops) (h : header) (d : data) : result (option (list Q)) :=
    let! c := columns T h d ["ex"; "ey"; "ez"] in
    let unit := if String.eqb (h_rot_unit h) "deg" then PI / 180 else 1 in
    Ok (option_map (map (fun e => from_euler ops (vscale unit e))) (all_some (map fin_v3 (zip_v3 c)))).

  (** trajectory_io.py:81-106 [extract_trajectory_rotations].  [Ok (Some None)]: not modelled, as above. *)
  Definition extract_rotations (T : text_ops) (h : header) (d : data) : result (option (option (list Q))) :=
    let quats := forallb (fun a => member a (h_fields h)) ["qx"; "qy"; "qz"; "qw"] in
    let eulers := forallb (fun a => member a (h_fields h)) ["ex"; "ey"; "ez"] in
    let! r := if quats then rmap Some (extract_quaternions T h d)
              else if eulers then rmap Some (extract_euler_angles T h d)
              else Ok None in
    match r with
    | None => Ok None
    | Some l =>
        let! m := get_rot_matrix (h_nframe h) in
        Ok (Some (option_map (map (rmul ops (from_matrix ops m))) l))
    end.

  Definition all_finite (l : list num) : option (list R) := all_some (map finite l).
  (** For optional parts: the part is absent, present with values, or present with values that are not finite. *)
  Definition opt_finite {A B} (f : A -> option B) (o : option A) : option (option B) :=
    match o with None => Some None | Some a => match f a with Some b => Some (Some b) | None => None end end.

  (** trajectory.py:158-184 [from_file].  [reader] is [read_data] or [read_string]; [counted] is the name
      the constructor gives to nameless trajectories.  [Ok None]: the file holds values that are not finite numbers; that
      trajectory is not modelled. *)
  Definition from_parts (loc : list V3 -> list V3) (counted : string) (h : header) (ts : list num) (ps : list N3)
      (al : option (list num)) (sp : option (list N3)) (ro : option (option (list Q))) : result (option (traj Q)) :=
    match all_finite ts, all_some (map fin_v3 ps), opt_finite all_finite al,
          opt_finite (fun l => all_some (map fin_v3 l)) sp, opt_finite (fun x => x) ro with
    | Some ts', Some ps', Some al', Some sp', Some ro' =>
        rmap Some (new_traj loc ps' (h_epsg h) ro' (Some ts') (if String.eqb (h_name h) "" then counted else h_name h)
                            al' sp' SortTime)
    | _, _, _, _, _ => Ok None
    end.
  Definition from_read (T : text_ops) (C : clock) (loc : list V3 -> list V3) (counted : string)
      (rd : result (header * data)) : result (option (traj Q)) :=
    let! hd := rd in
    let (h, d) := hd in
    let! ts := extract_timestamps T C h d in
    let! ps := extract_pointset T h d in
    let! al := extract_arc_lengths T h d in
    let! sp := extract_speed T h d in
    let! ro := extract_rotations T h d in
    from_parts loc counted h ts ps al sp ro.
  Definition from_file (T : text_ops) (C : clock) (loc : list V3 -> list V3) (counted : string) (text : string) :=
    from_read T C loc counted (read_data T text).
  (** [from_file(text, io_stream=True)] *)
  Definition from_stream (T : text_ops) (C : clock) (loc : list V3 -> list V3) (counted : string) (text : string) :=
    from_read T C loc counted (read_string T text).

  (** ** Writing: trajectory.py:298-328 [to_file] *)

  Definition line (s : string) : string := s ++ String newline "".
  Definition write_header (T : text_ops) (t : traj Q) : string :=
    line ("#epsg " ++ show_int T (epsg t)) ++ line ("#name " ++ name t) ++ line "#nframe enu" ++
    line ("#fields " ++ match rot t with None => "t,l,px,py,pz,vx,vy,vz" | Some _ => "t,l,px,py,pz,qx,qy,qz,qw,vx,vy,vz" end).

  Definition quat_values (q : V4) : list R := [q_x q; q_y q; q_z q; q_w q].
  Definition v3_values (v : V3) : list R := [vx v; vy v; vz v].

  (** [np.c_[...]] raises ValueError unless all components have the same length. *)
  Definition same_lengths (t : traj Q) : bool :=
    ((length (arc t) =? length (tstamps t)) && (length (xyz t) =? length (tstamps t)) &&
     (length (speed t) =? length (tstamps t)) &&
     match rot t with Some q => length q =? length (tstamps t) | None => true end)%nat%bool.
  (** Rows of the written table *)
  Fixpoint rows_of (ts al : list R) (ps : list V3) (qs : list (list R)) (vs : list V3) : list (list R) :=
    match ts, al, ps, qs, vs with
    | t :: ts', a :: al', p :: ps', q :: qs', v :: vs' => ([t; a] ++ v3_values p ++ q ++ v3_values v)%list :: rows_of ts' al' ps' qs' vs'
    | _, _, _, _, _ => []
    end.
  Definition table_rows (t : traj Q) : list (list R) :=
    rows_of (tstamps t) (arc t) (xyz t)
            (match rot t with Some q => map (fun x => quat_values (as_quat qops x)) q | None => map (fun _ => []) (xyz t) end)
            (speed t).
  Definition csv_text (T : text_ops) (rows : list (list R)) : string :=
    fold_right (fun r s => line (join "," (map (show9 T) r)) ++ s) "" rows.

  (** What the call writes after [before], the content the file has at that time (mode "w" empties it, "a" keeps it). *)
  Definition to_file (T : text_ops) (before : string) (t : traj Q) : result string :=
    if same_lengths t then Ok (before ++ write_header T t ++ csv_text T (table_rows t)) else Err ValueError.
End Import.
