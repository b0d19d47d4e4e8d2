(** Files of absolute comparison results: trajectopy_core/evaluation/ate_result.py:349-464.
    Infinite values and not-a-number are not modelled in results that are written; quotation marks as in IoModel. *)
From Verif Require Import Base EstModel TextModel HeaderModel NumpyModel TrajModel GeomModel IoModel EvalModel RpeModel.
Local Open Scope string_scope.

(** [np.c_[a, b]]: the rows of two arrays side by side *)
Definition np_c (a b : list (list R)) : result (list (list R)) :=
  if (length a =? length b)%nat then Ok (map (fun ab => (fst ab ++ snd ab)%list) (combine a b)) else Err ValueError.
Definition as_column (l : list R) : list (list R) := map (fun x => [x]) l.

Section Ate.
  Context {Q : Type} (qops : quat_ops Q).
  Implicit Types r : ate_result Q.

  Definition has_quats (q : option (list Q)) : bool := match q with Some _ => true | None => false end.

  (** ate_result.py:349-378 [columns]; a RotationSet is always true *)
  Definition ate_columns r : list string :=
    (["time"; "arc_lengths"; "pos_x"; "pos_y"; "pos_z"] ++
     (if has_orientation (ate_trajectory r) then ["rot_x"; "rot_y"; "rot_z"; "rot_w"] else []) ++
     ["pos_dev_x"; "pos_dev_y"; "pos_dev_z"; "pos_dev_along"; "pos_dev_cross_h"; "pos_dev_cross_v"] ++
     (if has_quats (rot_dev r) then ["rot_dev_x"; "rot_dev_y"; "rot_dev_z"; "rot_dev_w"] else []))%list.

  Definition quat_rows (q : list Q) : list (list R) := map (fun x => quat_values (as_quat qops x)) q.

  (** ate_result.py:423-453 [to_dataframe] *)
  Definition ate_rows r : result (list (list R)) :=
    let t := ate_trajectory r in
    let! a := np_c (as_column (tstamps t)) (as_column (arc t)) in
    let! trajectory_data := np_c a (map v3_values (xyz t)) in
    let! trajectory_data := if has_orientation t
                            then match rot t with Some q => np_c trajectory_data (quat_rows q) | None => Err AttributeError end
                            else Ok trajectory_data in
    let! deviation_data := np_c (map v3_values (pos_dev r)) (map v3_values (directed_pos_dev r)) in
    let! deviation_data := match rot_dev r with Some q => np_c deviation_data (quat_rows q) | None => Ok deviation_data end in
    np_c trajectory_data deviation_data.

  (** ate_result.py:455-464 [to_file]: [before] is what the file contains already (mode "a"), nothing with mode "w".
      The header lines are written even if the table cannot be made, which is not modelled. *)
  Definition ate_to_file (T : text_ops) (show12 : R -> string) (before : string) r : result string :=
    let! rows := ate_rows r in
    Ok (before ++ ("#name " ++ ate_name r ++ nl) ++ ("#epsg " ++ show_int T (epsg (ate_trajectory r)) ++ nl) ++
        (join "," (ate_columns r) ++ nl) ++ fold_right (fun row s => (join "," (map show12 row) ++ nl) ++ s) "" rows).

  (** [deviation_data[[names]].to_numpy(dtype=float)], column by column; None if some value is not a finite number *)
  Definition frame_columns (T : text_ops) (names : list string) (rows : list (list cell)) (wanted : list string)
    : result (option (list (list R))) :=
    let! cs := mapM (frame_column T names rows) wanted in
    Ok (all_some (map all_finite cs)).
  Definition v3_of (cols : list (list R)) : list V3 :=
    match cols with [x; y; z] => map (fun p => mkV3 (fst p) (fst (snd p)) (snd (snd p))) (combine x (combine y z)) | _ => [] end.
  Definition v4_of (cols : list (list R)) : list V4 :=
    match cols with
    | [x; y; z; w] => map (fun p => mkV4 (fst p) (fst (snd p)) (fst (snd (snd p))) (snd (snd (snd p)))) (combine x (combine y (combine z w)))
    | _ => []
    end.
  (** [RotationSet.from_quat] if all four columns exist; ValueError for the zero quaternion.  (What happens for a table
      without rows depends on the version of scipy; no theorem is about it.) *)
  Definition frame_rotations (T : text_ops) (names : list string) (rows : list (list cell)) (wanted : list string)
    : result (option (option (list Q))) :=
    if forallb (fun a => member a names) wanted then
      let! c := frame_columns T names rows wanted in
      match c with
      | None => Ok None
      | Some cols => rmap (fun q => Some (Some q))
                          (mapM (fun v => match from_quat qops v with Some q => Ok q | None => Err ValueError end) (v4_of cols))
      end
    else Ok (Some None).

  (** ate_result.py:380-421 [from_file]; [loc] and [counted] as in [IoModel.from_file].  [Ok None]: some value is not a
      finite number (not modelled). *)
  Definition ate_from_file (T : text_ops) (loc : list V3 -> list V3) (counted : string) (text : string) : result (option (ate_result Q)) :=
    let! h := header_from_file T text in
    let! frame := read_frame text in
    let names := fst frame in
    let rows := snd frame in
    let! ts := frame_columns T names rows ["time"] in
    let! al := frame_columns T names rows ["arc_lengths"] in
    let! ps := frame_columns T names rows ["pos_x"; "pos_y"; "pos_z"] in
    let! ro := frame_rotations T names rows ["rot_x"; "rot_y"; "rot_z"; "rot_w"] in
    let! pd := frame_columns T names rows ["pos_dev_x"; "pos_dev_y"; "pos_dev_z"] in
    let! dd := frame_columns T names rows ["pos_dev_along"; "pos_dev_cross_h"; "pos_dev_cross_v"] in
    let! rd := frame_rotations T names rows ["rot_dev_x"; "rot_dev_y"; "rot_dev_z"; "rot_dev_w"] in
    match ts, al, ps, ro, pd, dd, rd with
    | Some [ts], Some [al], Some ps, Some ro, Some pd, Some dd, Some rd =>
        let! t := new_traj loc (v3_of ps) (h_epsg h) ro (Some ts) (if String.eqb (h_name h) "" then counted else h_name h) (Some al) None SortTime in
        Ok (Some (mkAte (name t) t (v3_of pd) (v3_of dd) rd false))
    | _, _, _, _, _, _, _ => Ok None
    end.
End Ate.
