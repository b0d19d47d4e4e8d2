(** The summary of an absolute comparison: evaluation/ate_result.py:41-88. *)
From Verif Require Import Base NumpyModel TrajModel GeomModel EvalModel AngModel BiasModel TextModel EqModel TableModel.
Local Open Scope string_scope.

Section Sum.
  Context {Q : Type} (ops : rot_ops Q) (as_rotvec : Q -> V3) (mean : list Q -> result Q).
  (** [show] is the format ":.4f"; [str_nat] is [str] of a count *)
  Context (show : R -> string) (str_nat : nat -> string).
  Implicit Types r : ate_result Q.

  (** ate_result.py:325-347 [rot_rms_x], [rot_rms_y], [rot_rms_z] of 141-153 *)
  Definition rot_rms_x r : option R := rms (map vx (rot_dev_xyz ops r)).
  Definition rot_rms_y r : option R := rms (map vy (rot_dev_xyz ops r)).
  Definition rot_rms_z r : option R := rms (map vz (rot_dev_xyz ops r)).

  Definition deg (s : string) : string := s ++ " [" ++ degree_sign ++ "]".
  Definition show_deg (x : option R) : string := show_opt show (option_map rad2deg x).

  (** ate_result.py:41-88 [property_dict].  The values are computed in the order of the dictionary; only [np.max], [np.min] and the mean rotation can raise. *)
  Definition ate_property_dict r : result sdict :=
    let! pmax := pos_dev_max r in
    let! pmin := pos_dev_min r in
    let head :=
      [("Name", ate_name r);
       ("Type", "ATEResult");
       ("Number of deviations", str_nat (length (pos_dev r)));
       ("Deviation directions derived using", if rotations_used r then "Rotations" else "Positions / Unkown");
       ("Maximum position deviation [m]", show pmax);
       ("Mean position deviation [m]", show_opt show (pos_ate r));
       ("Median position deviation [m]", show_opt show (pos_dev_median r));
       ("Minimum position deviation [m]", show pmin);
       ("RMS Position [m]", show_opt show (pos_dev_rms r));
       ("STD Position [m]", show_opt show (pos_dev_std r));
       ("Bias X [m]", show_opt show (pos_bias_x r));
       ("Bias Y [m]", show_opt show (pos_bias_y r));
       ("Bias Z [m]", show_opt show (pos_bias_z r));
       ("RMS X [m]", show_opt show (pos_rms_x r));
       ("RMS Y [m]", show_opt show (pos_rms_y r));
       ("RMS Z [m]", show_opt show (pos_rms_z r));
       ("Bias Along-Track [m]", show_opt show (pos_bias_along r));
       ("Bias Horizontal Cross-Track [m]", show_opt show (pos_bias_cross_h r));
       ("Bias Vertical Cross-Track [m]", show_opt show (pos_bias_cross_v r));
       ("RMS Along-Track [m]", show_opt show (pos_rms_along r));
       ("RMS Horizontal Cross-Track [m]", show_opt show (pos_rms_cross_h r));
       ("RMS Vertical Cross-Track [m]", show_opt show (pos_rms_cross_v r))] in
    let keys := map deg ["Maximum rotation deviation"; "Mean rotation deviation"; "Median rotation deviation"; "Minimum rotation deviation";
                         "RMS Rotation"; "STD Rotation"; "RMS Roll"; "RMS Pitch"; "RMS Yaw"; "Bias Roll"; "Bias Pitch"; "Bias Yaw"] in
    match rot_dev r with
    | None => Ok (head ++ map (fun k => (k, "-")) keys)%list
    | Some _ =>
        let! rmax := rot_dev_max as_rotvec r in
        let! rmin := rot_dev_min as_rotvec r in
        let! bias := rot_bias_xyz ops mean r in
        Ok (head ++ combine keys
              [show (rad2deg rmax); show_deg (rot_ate as_rotvec r); show_deg (rot_dev_median as_rotvec r); show (rad2deg rmin);
               show_deg (rot_dev_rms as_rotvec r); show_deg (rot_dev_std as_rotvec r);
               show_deg (rot_rms_x r); show_deg (rot_rms_y r); show_deg (rot_rms_z r);
               show (rad2deg (vx bias)); show (rad2deg (vy bias)); show (rad2deg (vz bias))])%list
    end.
End Sum.
