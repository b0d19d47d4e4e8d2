(** Comparing objects with [==]: trajectory.py:117-132 [Trajectory.__eq__], alignment/result.py:25-37
    [AlignmentResult.__eq__], evaluation/rpe_result.py:36-40 [RPEResult.__eq__], and the summary of an RPE result
    (rpe_result.py:170-221) that the last one compares.
    Simplifications: infinite values and not-a-number do not occur; the other operand is an object of the same class
    (an AlignmentResult compares unequal with anything else). *)
From Verif Require Import Base EstModel TextModel HeaderModel NumpyModel TrajModel ParamModel GeomModel IoModel EvalModel RpeModel.

(** [np.isclose] with the default tolerances rtol = 1e-5 and atol = 1e-8; the relative part belongs to the second operand *)
Definition np_isclose (a b : R) : bool := Rleb (Rabs (a - b)) (1 / 100000000 + 1 / 100000 * Rabs b).

(** [np.allclose] of two arrays with rows: rows are broadcast, every entry is compared *)
Definition np_allclose {A} (entries : A -> list R) (l m : list A) : result bool :=
  let! rows := broadcast (fun a b => forallb (fun ab => np_isclose (fst ab) (snd ab)) (combine (entries a) (entries b))) l m in
  Ok (forallb (fun b => b) rows).

Definition scalar (x : R) : list R := [x].
Definition v3_entries (v : V3) : list R := [vx v; vy v; vz v].

(** Python's [a and b] where [b] is evaluated only if [a] holds *)
Definition and_then (a : result bool) (b : result bool) : result bool :=
  let! x := a in if x then b else Ok false.

Section TrajEq.
  Context {Q : Type} (quat : Q -> V4).

  (** trajectory.py:117-132 [__eq__]; [quat] is [as_quat] of one rotation, which keeps the sign it was created with *)
  Definition traj_eq (t u : traj Q) : result bool :=
    let! rot_equal :=
      match rot t, rot u with
      | Some a, Some b => np_allclose (fun q => quat_values (quat q)) a b
      | None, None => Ok true
      | _, _ => Ok false
      end in
    and_then (np_allclose v3_entries (xyz t) (xyz u))
   (and_then (Ok rot_equal)
   (and_then (np_allclose scalar (tstamps t) (tstamps u))
   (and_then (np_allclose scalar (arc t) (arc u))
   (and_then (np_allclose v3_entries (speed t) (speed u))
             (Ok (String.eqb (name t) (name u))))))).
End TrajEq.

(** The assert statement *)
Definition assert_true (b : bool) : result unit := if b then Ok tt else Err AssertionError.

(** [np.allclose] of two matrices, given by their rows.  Parameter sets have 11 or 3 parameters and square matrices, so
    the column counts agree here; other column counts are not modelled. *)
Definition mat_entries (m : mat) : list (list R) := map (cov_row m) (seq 0 (m_rows m)).

(** alignment/result.py:25-37 [AlignmentResult.__eq__]; the settings are compared field by field (dataclass equality) *)
Definition est_flags (e : est_settings) : list bool :=
  [trans_x e; trans_y e; trans_z e; rot_x e; rot_y e; rot_z e; scale e; ParamModel.time_shift e; use_x_speed e; use_y_speed e;
   use_z_speed e; lever_x e; lever_y e; lever_z e; sensor_rotation e; auto_update e].
Definition est_eqb (a b : est_settings) : bool :=
  forallb (fun xy => Bool.eqb (fst xy) (snd xy)) (combine (est_flags a) (est_flags b)).
Definition result_eq (a b : align_result) : result bool :=
  let! v := np_allclose scalar (values (position_parameters a)) (values (position_parameters b)) in
  let! _ := assert_true v in
  let! ca := get_covariance (position_parameters a) false in
  let! cb := get_covariance (position_parameters b) false in
  let! c := np_allclose (fun r => r) (mat_entries ca) (mat_entries cb) in
  let! _ := assert_true c in
  let! w := np_allclose scalar (values (rotation_parameters a)) (values (rotation_parameters b)) in
  let! _ := assert_true w in
  let! _ := assert_true (est_eqb (estimation_of a) (estimation_of b)) in
  Ok true.

(** * The summary of an RPE result *)
Section Summary.
  Local Open Scope string_scope.
  (** [show] is the format ":.3f"; [str_nat] is [str] of a count; [degrees] is [np.rad2deg] *)
  Context (show : R -> string) (str_nat : nat -> string).
  Definition rad2deg (x : R) : R := x * 180 / PI.

  (** A dictionary keeps the order of first insertion; a repeated key replaces the value in its place *)
  Definition sdict := list (string * string).
  Fixpoint dict_set (d : sdict) (k v : string) : sdict :=
    match d with
    | [] => [(k, v)]
    | (k', v') :: r => if String.eqb k' k then (k, v) :: r else (k', v') :: dict_set r k v
    end.
  (** dictionary comprehension and [dict.update] *)
  Definition dict_update (d : sdict) (l : list (string * string)) : sdict := fold_left (fun d kv => dict_set d (fst kv) (snd kv)) l d.

  (** rpe_result.py:170-174 [dynamic_pos_dict] *)
  Definition dynamic_pos_dict (r : rpe) : sdict :=
    dict_update [] (map (fun ab => ("Average position drift at " ++ show (fst ab) ++ " (avg) " ++ pair_distance_unit_str r,
                                    show (snd ab) ++ " " ++ pos_drift_unit r))
                        (combine (mean_pair_distances r) (pos_dev_of mean1 r))).

  (** rpe_result.py:176-184 [dynamic_rot_dict] *)
  Definition dynamic_rot_dict (r : rpe) : sdict :=
    if has_rot_dev r then
      dict_update [] (map (fun ab => ("Average rotation drift at " ++ show (fst ab) ++ " (avg) " ++ pair_distance_unit_str r,
                                      show (rad2deg (snd ab)) ++ " " ++ rot_drift_unit r))
                          (combine (mean_pair_distances r) (rot_dev_of mean1 r)))
    else [].

  (** [np.mean], [np.median] of a list: not-a-number for the empty one, shown as "nan" *)
  Definition show_opt (x : option R) : string := match x with Some v => show v | None => "nan" end.

  (** rpe_result.py:186-221 [property_dict]; [np.max] of an empty list raises ValueError *)
  Definition property_dict (r : rpe) : result sdict :=
    let basic := [("Name", r_name r); ("Type", "RPEResult"); ("Number of pose pairs", str_nat (rpe_len r))] in
    let! pmax := np_max (pos_dev_of max1 r) in
    let! pmin := np_min (pos_dev_of min1 r) in
    let static_pos :=
      [("Maximum Position Drift", show pmax ++ " " ++ pos_drift_unit r);
       ("Minimum Position Drift", show pmin ++ " " ++ pos_drift_unit r);
       ("Average Position Drift", show_opt (pos_rpe r) ++ " " ++ pos_drift_unit r);
       ("Median Position Drift", show_opt (np_median (pos_dev_of median1 r)) ++ " " ++ pos_drift_unit r)] in
    let pos_dict := dict_update (dict_update basic (dynamic_pos_dict r)) static_pos in
    if negb (has_rot_dev r) then Ok pos_dict
    else
      let! rmax := np_max (rot_dev_of max1 r) in
      let! rmin := np_min (rot_dev_of min1 r) in
      let static_rot :=
        [("Maximum Rotation Drift", show (rad2deg rmax) ++ " " ++ rot_drift_unit r);
         ("Minimum Rotation Drift", show (rad2deg rmin) ++ " " ++ rot_drift_unit r);
         ("Average Rotation Drift", show_opt (option_map rad2deg (rot_rpe r)) ++ " " ++ rot_drift_unit r);
         ("Median Rotation Drift", show_opt (option_map rad2deg (np_median (rot_dev_of median1 r))) ++ " " ++ rot_drift_unit r)] in
      Ok (dict_update (dict_update pos_dict (dynamic_rot_dict r)) static_rot).

  (** rpe_result.py:36-40 [RPEResult.__eq__]: the values in order, up to the end of the shorter summary *)
  Definition rpe_eq (a b : rpe) : result bool :=
    let! da := property_dict a in
    let! db := property_dict b in
    let! _ := mapM (fun xy => assert_true (String.eqb (fst xy) (snd xy))) (combine (map snd da) (map snd db)) in
    Ok true.
End Summary.
