(** RPE results and their files: trajectopy_core/evaluation/rpe_result.py and evaluation/deviations.py:17-26.
    Infinite values and not-a-number are not modelled in results that are written; quotation marks as in IoModel. *)
From Verif Require Import Base EstModel TextModel HeaderModel NumpyModel GeomModel IoModel EvalModel.
Local Open Scope string_scope.

(** The values of one key in the three dictionaries *)
Record block := mkBlock { b_dist : list R; b_pos : list R; b_rot : list R }.

(** deviations.py:17-22 [RelativeTrajectoryDeviations] and rpe_result.py:27-33 [RPEResult.__init__].  The dictionaries
    pair_distance, pos_dev and rot_dev are filled with the same keys in the same order everywhere, so they are one
    dictionary of blocks here.  A key None is not-a-number. *)
Record rpe := mkRpeResult { r_name : string; r_blocks : list (option R * block); r_unit : unit_t }.

Definition blocks (r : rpe) : list block := map snd (r_blocks r).

(** The truth value of a list: it is not empty *)
Definition filled {A} (l : list A) : bool := match l with [] => false | _ => true end.

(** deviations.py:24-26 [RelativeTrajectoryDeviations.num_pairs], rpe_result.py:42-43 [RPEResult.__len__] *)
Definition rpe_len (r : rpe) : nat := fold_right (fun b n => (length (b_dist b) + n)%nat) 0%nat (blocks r).

(** rpe_result.py:45-47 [has_rot_dev] *)
Definition has_rot_dev (r : rpe) : bool := existsb (fun b => filled (b_rot b)) (blocks r).

(** rpe_result.py:53-67: units of the drifts and their factor *)
Definition is_meter (u : unit_t) : bool := match u with METER => true | _ => false end.
Definition pair_distance_unit_str (r : rpe) : string := if is_meter (r_unit r) then "m" else "s".
Definition pos_drift_unit (r : rpe) : string := if is_meter (r_unit r) then "%" else "m/s".
Definition rot_drift_unit (r : rpe) : string := if is_meter (r_unit r) then "deg/100m" else "deg/s".
Definition drift_factor (r : rpe) : R := if is_meter (r_unit r) then 100 else 1.

(** rpe_result.py:69-70 [compute_metric]; every function passed is defined on non-empty lists *)
Definition compute_metric (key : block -> list R) (func : list R -> R) (factor : R) (r : rpe) : list R :=
  map (fun l => func l * factor) (filter filled (map key (blocks r))).

(** [np.mean], [np.std], [np.min], [np.max], [np.median] of a list that is not empty (see [compute_metric]) *)
Definition on_filled {A} (f : list R -> option A) (default : A) (l : list R) : A := match f l with Some x => x | None => default end.
Definition mean1 : list R -> R := on_filled np_mean 0.
Definition std1 : list R -> R := on_filled np_std 0.
Definition median1 : list R -> R := on_filled np_median 0.
Definition min1 (l : list R) : R := match np_min l with Ok x => x | Err _ => 0 end.
Definition max1 (l : list R) : R := match np_max l with Ok x => x | Err _ => 0 end.

(** rpe_result.py:72-78 *)
Definition num_pairs (r : rpe) : list nat := map (@length R) (filter filled (map b_dist (blocks r))).
Definition mean_pair_distances (r : rpe) : list R := compute_metric b_dist mean1 1 r.

(** rpe_result.py:80-147: the statistics *)
Definition pos_dev_of (func : list R -> R) (r : rpe) : list R := compute_metric b_pos func (drift_factor r) r.
Definition rot_dev_of (func : list R -> R) (r : rpe) : list R :=
  if has_rot_dev r then compute_metric b_rot func (drift_factor r) r else [].
Definition pos_rpe (r : rpe) : option R := np_mean (pos_dev_of mean1 r).
Definition rot_rpe (r : rpe) : option R := np_mean (rot_dev_of mean1 r).

(** rpe_result.py:49-51 [step] *)
Definition rpe_step (r : rpe) : option R :=
  if (1 <? length (mean_pair_distances r))%nat then np_mean (np_diff (mean_pair_distances r)) else Some 0.

(** rpe_result.py:149-171 [get_all] and the three lists made with it *)
Definition all_dist (r : rpe) : list R := concat (map b_dist (blocks r)).
Definition all_pos (r : rpe) : list R := concat (map b_pos (blocks r)).
Definition all_rot (r : rpe) : list R := concat (map b_rot (blocks r)).

(** rpe_result.py:222-236 [columns] and [to_dataframe]: [np.c_] wants columns of the same length. *)
Definition rpe_columns (r : rpe) : list string :=
  if has_rot_dev r then ["pair_distance"; "pos_dev"; "rot_dev"] else ["pair_distance"; "pos_dev"].
Fixpoint zip2 (a b : list R) : list (list R) :=
  match a, b with x :: a', y :: b' => [x; y] :: zip2 a' b' | _, _ => [] end.
Fixpoint zip3r (a b c : list R) : list (list R) :=
  match a, b, c with x :: a', y :: b', z :: c' => [x; y; z] :: zip3r a' b' c' | _, _, _ => [] end.
Definition rpe_rows (r : rpe) : result (list (list R)) :=
  if (length (all_dist r) =? length (all_pos r))%nat then
    if has_rot_dev r then
      if (length (all_dist r) =? length (all_rot r))%nat then Ok (zip3r (all_dist r) (all_pos r) (all_rot r)) else Err ValueError
    else Ok (zip2 (all_dist r) (all_pos r))
  else Err ValueError.

(** [Unit.name] *)
Definition unit_name (u : unit_t) : string :=
  match u with DEGREE => "DEGREE" | RADIAN => "RADIAN" | METER => "METER" | SECOND => "SECOND" | SCALE => "SCALE" | NONE => "NONE" end.

Definition nl : string := String newline "".
Definition crlf : string := String return_char (String newline "").

Section Files.
  (** [show12 x]: ["%.12f" % x] *)
  Variables (T : text_ops) (show12 : R -> string).

  (** rpe_result.py:238-246 [to_file]: [before] is what the file contains already (mode "a"), nothing with mode "w".
      The lines are written even if the table cannot be made, which is not modelled. *)
  Definition rpe_to_file (before : string) (r : rpe) : result string :=
    let! rows := rpe_rows r in
    Ok (before ++ ("#relative_dist_unit " ++ unit_name (r_unit r) ++ nl) ++ ("#name " ++ r_name r ++ nl) ++
        ("#num_pairs " ++ join "," (map (fun n => show_int T (Z.of_nat n)) (num_pairs r)) ++ crlf) ++
        (join "," (rpe_columns r) ++ nl) ++ fold_right (fun row s => (join "," (map show12 row) ++ nl) ++ s) "" rows).

  (** [pd.read_csv(filename, comment="#")]: the first line holds the names of the columns.  No data raises
      EmptyDataError and longer lines raise ParserError, both ValueErrors.  (A first data line longer than the names, which
      pandas reads as an index, does not occur in written files.) *)
  Definition read_frame (text : string) : result (list string * list (list cell)) :=
    match map (split_on ",") (data_lines text) with
    | [] => Err ValueError
    | names :: lines =>
        if forallb (fun l => (length l <=? length names)%nat) lines then Ok (names, map (pad (length names)) lines) else Err ValueError
    end.

  (** [dev_block[name].to_numpy(dtype=float)] *)
  Definition frame_column (names : list string) (rows : list (list cell)) (name : string) : result (list num) :=
    match index_of name names with
    | Err _ => Err KeyError
    | Ok j => to_nums T (map (fun r => nth j r None) rows)
    end.

  (** Assignment to a key of a dictionary; not-a-number is never equal to a key. *)
  Fixpoint put (k : option R) (b : block) (d : list (option R * block)) : list (option R * block) :=
    match d with
    | [] => [(k, b)]
    | (k', b') :: r =>
        match k, k' with
        | Some x, Some y => if Reqb x y then (k', b) :: r else (k', b') :: put k b r
        | _, _ => (k', b') :: put k b r
        end
    end.

  (** rpe_result.py:258-271: the loop over the blocks.  [Ok None]: some value is not a finite number (not modelled).
      Negative numbers of pairs, which are never written, count as zero here. *)
  Fixpoint read_blocks (names : list string) (rows : list (list cell)) (counts : list Z) (d : list (option R * block))
    : result (option (list (option R * block))) :=
    match counts with
    | [] => Ok (Some d)
    | z :: counts' =>
        let n := Z.to_nat z in
        let dev_block := firstn n rows in
        let! ds := frame_column names dev_block "pair_distance" in
        let! ps := frame_column names dev_block "pos_dev" in
        let! rs := if member "rot_dev" names then frame_column names dev_block "rot_dev" else Ok [] in
        match all_some (map finite ds), all_some (map finite ps), all_some (map finite rs) with
        | Some x, Some y, Some w => read_blocks names (skipn n rows) counts' (put (np_mean x) (mkBlock x y w) d)
        | _, _, _ => Ok None
        end
    end.

  (** rpe_result.py:248-279 [from_file] *)
  Definition rpe_from_file (text : string) : result (option rpe) :=
    let! h := header_from_file T text in
    let! frame := read_frame text in
    let! counts := h_num_pairs T h in
    let! d := read_blocks (fst frame) (snd frame) counts [] in
    match d with
    | None => Ok None
    | Some blocks => let! u := h_relative_dist_unit h in Ok (Some (mkRpeResult (h_name h) blocks u))
    end.
End Files.

(** comparison.py:157-171: the result of a relative comparison as an [RPEResult], if all values are numbers *)
Definition unit_of_kind (u : unit_kind) : unit_t :=
  match u with U_DEGREE => DEGREE | U_RADIAN => RADIAN | U_METER => METER | U_SECOND => SECOND | U_SCALE => SCALE | U_NONE => NONE end.
Definition entry_block (l : list pair_entry) : option block :=
  match all_some (map e_pos l), all_some (flat_map (fun e => match e_rot e with Some x => [x] | None => [] end) l) with
  | Some p, Some r => Some (mkBlock (map e_dist l) p r)
  | _, _ => None
  end.
Definition of_comparison (c : rpe_result) : option rpe :=
  option_map (fun bs => mkRpeResult (rpe_name c) bs (unit_of_kind (rpe_unit c)))
    (all_some (map (fun kb => option_map (pair (Some (fst kb))) (entry_block (snd kb))) (rpe_pairs c))).
