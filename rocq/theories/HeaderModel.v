(** The header of a trajectopy file: trajectopy_core/input_output/header.py and the enumerations it uses.
    Reading and writing of numbers as text is external ([text_ops]).  Logging is dropped. *)
From Verif Require Import Base EstModel TextModel.
Local Open Scope string_scope.

(** Text conversions of Python and pandas.
    [number s]: the value of a cell or of [float(s)], None when it is not a number; [integer s]: [int(s)];
    [show_int z]: [f"{z}"]; [show9 x]: [f"{x:.9f}"]. *)
Record text_ops := mkTextOps {
  number : string -> option num;
  integer : string -> option Z;
  show_int : Z -> string;
  show9 : R -> string
}.

(** Values stored in the header dictionary *)
Inductive hval := HStr (s : string) | HInt (z : Z) | HNum (x : num).

(** header.py:20-39 [HEADER_KEYS] *)
Definition HEADER_KEYS : list string :=
  ["epsg"; "name"; "sorting"; "state"; "fields"; "delimiter"; "nframe"; "type"; "comparison_method";
   "relative_dist_unit"; "num_pairs"; "rot_unit"; "time_format"; "datetime_format"; "datetime_timezone";
   "id"; "gps_week"; "time_offset"].

(** header.py:42-43 [default_line_handler] *)
Definition default_line_handler (line : string) : result hval := Ok (HStr (join " " (tl (words line)))).

(** header.py:46-47 [integer_line_handler] *)
Definition integer_line_handler (T : text_ops) (line : string) : result hval :=
  match nth_error (words line) 1 with
  | None => Err IndexError
  | Some w => match integer T w with Some z => Ok (HInt z) | None => Err ValueError end
  end.

(** header.py:50-51 [float_line_handler] *)
Definition float_line_handler (T : text_ops) (line : string) : result hval :=
  match nth_error (words line) 1 with
  | None => Err IndexError
  | Some w => match number T w with Some x => Ok (HNum x) | None => Err ValueError end
  end.

Definition is_quote (c : ascii) : bool := (Ascii.eqb c (ascii_of_nat 39) || Ascii.eqb c (ascii_of_nat 34))%bool.

(** [re.search(r"#delimiter ['\"](.)['\"]", line)] and its group 1: the first place in the line where the
    pattern fits ("." is any character but a newline, and lines contain none). *)
Fixpoint search_delimiter (line : string) : option ascii :=
  let here := match strip_prefix "#delimiter " line with
              | Some (String a (String d (String b _))) => if (is_quote a && is_quote b)%bool then Some d else None
              | _ => None
              end in
  match here with
  | Some d => Some d
  | None => match line with "" => None | String _ r => search_delimiter r end
  end.

(** header.py:54-61 [delimiter_line_handler] *)
Definition delimiter_line_handler (line : string) : result hval :=
  Ok (HStr (match search_delimiter line with Some d => String d "" | None => "," end)).

(** header.py:64-70 [HANDLER_MAPPING.get(keyword, HANDLER_MAPPING["default"])] *)
Definition handler (T : text_ops) (keyword : string) : string -> result hval :=
  if String.eqb keyword "epsg" then integer_line_handler T
  else if String.eqb keyword "delimiter" then delimiter_line_handler
  else if String.eqb keyword "gps_week" then integer_line_handler T
  else if String.eqb keyword "time_offset" then float_line_handler T
  else default_line_handler.

(** The dictionary [HeaderData.data]: newest assignment first. *)
Definition header := list (string * hval).
Definition get (h : header) (k : string) : option hval :=
  match find (fun e => String.eqb (fst e) k) h with Some (_, v) => Some v | None => None end.

(** header.py:143-152 [handle_line]; the first word of a line that starts with "#" starts with "#". *)
Definition handle_line (T : text_ops) (h : header) (line : string) : result header :=
  match strip_prefix "#" line with
  | None => Ok h
  | Some _ =>
      match words line with
      | String _ keyword :: _ =>
          if existsb (String.eqb keyword) HEADER_KEYS
          then let! v := handler T keyword line in Ok ((keyword, v) :: h)
          else Ok h
      | _ => Ok h
      end
  end.

Fixpoint handle_lines (T : text_ops) (h : header) (lines : list string) : result header :=
  match lines with
  | [] => Ok h
  | l :: r => let! h' := handle_line T h l in handle_lines T h' r
  end.

(** header.py:154-170 [from_file]: the lines are those of the text file. *)
Definition header_from_file (T : text_ops) (text : string) : result header := handle_lines T [] (file_lines text).

(** header.py:172-187 [from_string]: [str.splitlines]. *)
Definition header_from_string (T : text_ops) (text : string) : result header := handle_lines T [] (splitlines text).

(** [str(self.data.get(k, default))] *)
Definition get_str (h : header) (k default : string) : string :=
  match get h k with Some (HStr s) => s | _ => default end.

(** header.py:79-141: the properties of [HeaderData]. *)
Definition h_id (h : header) := get_str h "id" "".
Definition h_epsg (h : header) : Z := match get h "epsg" with Some (HInt z) => z | _ => 0%Z end.
Definition h_name (h : header) := get_str h "name" "Trajectory".
Definition h_rot_unit (h : header) := get_str h "rot_unit" "rad".
Definition h_fields (h : header) : list string := split_on "," (get_str h "fields" "t,px,py,pz,qx,qy,qz,qw").
Definition h_delimiter (h : header) := get_str h "delimiter" ",".
Definition h_nframe (h : header) := lower (get_str h "nframe" "enu").
Definition h_type (h : header) := lower (get_str h "type" "trajectoryentry").

(** settings/comparison.py:16-30 [ComparisonMethod.from_string] *)
Inductive comparison_method := ABSOLUTE | RELATIVE | UNKNOWN.
Definition comparison_method_from_string (s : string) : comparison_method :=
  if contains "absolute" (lower s) then ABSOLUTE
  else if contains "relative" (lower s) then RELATIVE else UNKNOWN.
Definition h_comparison_method (h : header) := comparison_method_from_string (get_str h "comparison_method" "unknown").

(** definitions.py:15-51 [Unit.from_str]; the non-ASCII degree sign is not modelled. *)
Inductive unit_t := DEGREE | RADIAN | METER | SECOND | SCALE | NONE.
Definition member (s : string) (l : list string) : bool := existsb (String.eqb s) l.
Definition unit_from_str (s : string) : result unit_t :=
  if member (lower s) ["deg"; "degree"] then Ok DEGREE
  else if member (lower s) ["rad"; "radian"] then Ok RADIAN
  else if member (lower s) ["m"; "meter"] then Ok METER
  else if member (lower s) ["s"; "sec"; "second"] then Ok SECOND
  else if member (lower s) ["-"; "ppm"; "scale"] then Ok SCALE
  else if String.eqb s "" then Ok NONE
  else Err ValueError.
Definition h_relative_dist_unit (h : header) : result unit_t := unit_from_str (get_str h "relative_dist_unit" "meter").
Definition h_num_pairs (T : text_ops) (h : header) : result (list Z) :=
  mapM (fun w => match integer T w with Some z => Ok z | None => Err ValueError end)
       (split_on "," (get_str h "num_pairs" "0")).

(** definitions.py:69-79 [TimeFormat], [TIME_FORMAT_DICT] *)
Inductive time_format := UNIX | DATETIME | GPS_SOW.
Definition h_time_format (h : header) : result time_format :=
  let s := lower (get_str h "time_format" "unix") in
  if String.eqb s "unix" then Ok UNIX
  else if String.eqb s "datetime" then Ok DATETIME
  else if String.eqb s "gps_sow" then Ok GPS_SOW
  else Err KeyError.

(** [this_week] stands for the GPS week of the current date. *)
Definition h_gps_week (this_week : Z) (h : header) : Z := match get h "gps_week" with Some (HInt z) => z | _ => this_week end.
Definition h_time_offset (h : header) : num := match get h "time_offset" with Some (HNum x) => x | _ => Fin 0 end.
Definition h_datetime_format (h : header) := get_str h "datetime_format" "%Y-%m-%d %H:%M:%S.%f".
Definition h_datetime_timezone (h : header) := get_str h "datetime_timezone" "UTC".
