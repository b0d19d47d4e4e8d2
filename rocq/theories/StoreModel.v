(** Files of alignment results, as text: alignment/result.py:39-78 and the readers and writers of the parameter sets it calls
    (alignment/parameters.py:533-551, 616-632).  ParamModel has the same files as rows of numbers. *)
From Verif Require Import Base EstModel TextModel HeaderModel NumpyModel EvalModel ParamModel GeomModel IoModel TornModel.
Local Open Scope string_scope.

Definition text_line (l : string) : string := l ++ String newline "".

(** result.py:39-55 [to_file]: what is added to the file, which is always opened with mode "a".  [show15 x] is ["%.15f" % x]
    and [show x] is [str(x)] for a float: [np.c_] makes floats of the flags of the position parameters, the flags of the
    sensor rotation are written by [int].  Commas and quotation marks do not occur in these cells. *)
Definition flag_text (b : bool) : string := if b then "1" else "0".
Definition name_line (name : string) : string := "#name " ++ name.
Definition position_line (show15 : R -> string) (row : list R) : string := join "," (map show15 row).
Definition sensor_line (show : R -> string) (p : param) : string := join "," [show (p_value p); flag_text (p_enabled p)].
Definition result_lines (show15 show : R -> string) (name : string) (r : align_result) : list string :=
  name_line name :: map (position_line show15) (param_rows_flags (position_parameters r)) ++ map (sensor_line show) (ps_params (rotation_parameters r)).
Definition result_text (show15 show : R -> string) (name : string) (r : align_result) : string :=
  fold_right (fun l s => text_line l ++ s) "" (result_lines show15 show name r).

(** result.py:39-55 [to_file], stopped at point [n]: nothing is done at point 0, at point [S k] the first [k] characters have
    been added.  Simplification: characters reach the disk in the order in which they are written. *)
Definition result_interrupted (show15 show : R -> string) (before name : string) (r : align_result) (n : nat) : string :=
  on_disk Append before (result_text show15 show name r) n.

(** An element of a table read by [pd.read_csv(filename, comment="#", header=None)]; None is what is not a finite number:
    a missing or infinite value, or text. *)
Notation entry := (option R).
(** A cell as a number: missing cells and empty ones are NaN.  None if it is other text. *)
Definition cell_num (T : text_ops) (c : cell) : option num :=
  match c with
  | None | Some "" => Some NaN
  | Some s => number T s
  end.
(** A column: one cell that is not a number makes pandas keep the whole column as text. *)
Definition typed (T : text_ops) (col : list cell) : list entry :=
  match all_some (map (cell_num T) col) with
  | Some l => map finite l
  | None => map (fun _ => None) col
  end.
(** The table, row by row.  EmptyDataError and ParserError are ValueErrors. *)
Definition typed_table (T : text_ops) (text : string) : result (list (list entry)) :=
  match IoModel.read_csv "," text with
  | Some (Table n rows) =>
      let cols := map (fun j => typed T (map (fun r => nth j r None) rows)) (seq 0 n) in
      Ok (map (fun i => map (fun c => nth i c None) cols) (seq 0 (length rows)))
  | _ => Err ValueError
  end.

(** [alignment_data.iloc[rows, k]] *)
Definition entries (t : list (list entry)) (k : nat) : result (list entry) :=
  mapM (fun row => match nth_error row k with None => Err IndexError | Some c => Ok c end) t.
(** [item != 0.0]: true for anything that is not zero, in particular for not-a-number and for text *)
Definition nonzero (e : entry) : bool := match e with Some x => negb (Reqb x 0) | None => true end.

(** parameters.py:537-551 [AlignmentParameters.from_file].  [Ok None]: it returns, but some value is not a finite number
    (missing, infinite or text; the setters take anything), which a [pset] cannot hold. *)
Definition position_from (t : list (list entry)) : result (option pset) :=
  let head := firstn 11 t in
  let! vals := entries head 0 in
  if negb (length vals =? 11)%nat then Err ValueError
  else
    let! flags := entries head 1 in
    let columns := (match t with r :: _ => length r | [] => 0 end - 2)%nat in
    if negb (columns =? 11)%nat then Err AlignmentParametersError
    else
      match all_some vals, all_some (map (fun row => all_some (skipn 2 row)) head) with
      | Some v, Some rows =>
          let! s := set_values default_alignment v in
          let! s := set_covariance_matrix (set_enabled_bool_list s (map nonzero flags)) (mat_of_rows columns rows) in
          Ok (Some s)
      | _, _ => Ok None
      end.

(** parameters.py:615-625 [SensorRotationParameters.from_file]; [Ok None] as above *)
Definition sensor_from (t : list (list entry)) : result (option pset) :=
  if negb (length t =? 14)%nat then Err ValueError
  else
    let tail := skipn 11 t in
    let! flags := entries tail 1 in
    let! vals := entries tail 0 in
    match all_some vals with
    | Some v => let! s := set_values default_sensor v in Ok (Some (set_enabled_bool_list s (map nonzero flags)))
    | None => Ok None
    end.

(** result.py:57-78 [from_file]: the name and the result *)
Definition result_from_text (T : text_ops) (text : string) : result (option (string * align_result)) :=
  let! h := header_from_file T text in
  let! t := typed_table T text in
  let! p := position_from t in
  let! q := sensor_from t in
  match p, q with
  | Some p, Some q =>
      let! e := from_bool_list (enabled_bool_list p ++ enabled_bool_list q) in
      Ok (Some (get_str h "name" "Alignment", mkResult p q e true))
  | _, _ => Ok None
  end.
