(** Initial values of the Gauss-Helmert adjustment: alignment/estimation.py:149-209. *)
From Verif Require Import Base NumpyModel TrajModel EvalModel ParamModel DataModel EstModel GeomModel JacModel LsqModel DirectModel.

Section Init.
  Variable svd : M3 -> result (M3 * V3 * M3).
  Context {Q : Type} (ops : rot_ops Q).
  Variable solve : list (list R) -> list R -> result (list R).

  (** estimation.py:164-168: translation, angles and scale.  If all sources are at the same place the scale is not a number in
      the code and the adjustment goes on with it; here ValueError. *)
  Definition helmert_init (e : est_settings) (os : list epoch) : result (V3 * V3 * R) :=
    if helmert_enabled e then
      let! r := direct_helmert svd ops (map e_from os) (map e_to os) [] in
      match r with Some h => Ok h | None => Err ValueError end
    else Ok (vzero, vzero, 1).
  (** 165, 169: the sources after the initial transformation *)
  Definition xyz_init (e : est_settings) (os : list epoch) (h : V3 * V3 * R) : list V3 :=
    let '(t, rot, s) := h in
    if helmert_enabled e then map (helmert_apply_to ops t rot s) (map e_from os) else map e_from os.

  (** 173-179 *)
  Definition time_shift_init (e : est_settings) (os : list epoch) (xyz : list V3) : result R :=
    if (time_shift_enabled e && negb (leverarm_enabled e))%bool then
      let! r := direct_timeshift solve (map e_to os) xyz (map e_speed os) (Some []) in Ok (fst r)
    else Ok 0.

  (** 183-191: lever arm and time shift *)
  Definition leverarm_init (e : est_settings) (os : list epoch) (xyz : list V3) (dt : R) : result (V3 * R) :=
    if leverarm_enabled e then
      let! r := direct_leverarm solve (map e_to os) xyz (map e_rpy os) None (if time_shift_enabled e then Some (map e_speed os) else None) in
      Ok (fst r)
    else Ok (vzero, dt).

  (** 195-207 with direct.py:64-72, 143-150: the parameters before the settings are applied.  Missing parts are default
      objects; their flags are assigned by the settings. *)
  Definition initial_params (t rot : V3) (s dt : R) (l : V3) : list param :=
    let par v def name u := mkParam v 0 def true name u in
    [ par (vx t) 0 "Translation x" U_METER; par (vy t) 0 "Translation y" U_METER; par (vz t) 0 "Translation z" U_METER;
      par (vx rot) 0 "Rotation x" U_RADIAN; par (vy rot) 0 "Rotation y" U_RADIAN; par (vz rot) 0 "Rotation z" U_RADIAN;
      par s 1 "Scale" U_SCALE; par dt 0 "Time shift" U_SECOND;
      par (vx l) 0 "Leverarm x" U_METER; par (vy l) 0 "Leverarm y" U_METER; par (vz l) 0 "Leverarm z" U_METER ]%string.

  (** estimation.py:149-209 [init_parameters]; data.py:345-361: the observations by columns, zeros for what is not observed *)
  Definition init_values (e : est_settings) (obs : list R) : result pset :=
    let os := est_epochs e obs in
    let! h := helmert_init e os in
    let xyz := xyz_init e os h in
    let! dt := time_shift_init e os xyz in
    let! ld := leverarm_init e os xyz dt in
    let '(t, rot, s) := h in
    Ok (apply_settings (mkPset (initial_params t rot s (snd ld) (fst ld)) (np_zeros 11) true) e).
End Init.
