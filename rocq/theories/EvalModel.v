(** Trajectory comparison: evaluation/comparison.py, evaluation/utils.py, evaluation/deviations.py
    and the statistics of evaluation/ate_result.py. *)
From Verif Require Import Base NumpyModel TrajModel GeomModel.

(** definitions.py:16-26 [Unit] *)
Inductive unit_kind := U_DEGREE | U_RADIAN | U_METER | U_SECOND | U_SCALE | U_NONE.

(** settings/comparison.py:34-50 [RelativeComparisonSettings] *)
Record rel_settings := mkRelSettings {
  pair_min_distance : R;
  pair_max_distance : R;
  pair_distance_step : R;
  pair_distance_unit : unit_kind;
  use_all_pose_pairs : bool
}.

(** The smallest integer not below [x]. *)
Definition Rceil (x : R) : Z := (- Int_part (- x))%Z.

(** [np.arange(start, stop, step)] has ceil((stop - start) / step) elements start + i * step.  A
    zero step raises; [zero] is the exception (it depends on the kind of number and no theorem
    depends on it).  Rounding of the quotient is not modelled. *)
Definition np_arange (zero : err) (start stop step : R) : result (list R) :=
  if Reqb step 0 then Err zero
  else Ok (map (fun i => start + INR i * step) (seq 0 (Z.to_nat (Rceil ((stop - start) / step))))).

(** comparison.py:62-91 [_get_pair_indices].  [distances[-1]] is only evaluated for a non-empty
    array in the first branch; [distances[0]] raises IndexError on an empty one in the second.
    [np.searchsorted] as in NumpyModel (sorted arrays). *)
Definition get_pair_indices (distances : list R) (all_pairs : bool) (dist : R) : result (list (nat * nat)) :=
  if all_pairs then
    let last_distance := last distances 0 in
    let dist_steps := filter (fun ia => Rltb (snd ia + dist) last_distance) (enumerate distances) in
    Ok (map (fun ia => (fst ia, searchsorted_left distances (snd ia + dist))) dist_steps)
  else
    let! first_distance := np_get distances 0 in
    let! last_distance := np_get distances (-1) in
    let! dist_steps := np_arange ValueError first_distance last_distance dist in
    Ok (pairs (map (searchsorted_left distances) dist_steps)).

(** comparison.py:174-182 [se3_inv] *)
Definition se3_inv (pose : M4) : M4 :=
  let rot_inv := mtrans (lin pose) in
  let trans_inv := vscale (-1) (mapply rot_inv (tra pose)) in
  mkM4 rot_inv trans_inv vzero 1.

(** comparison.py:185-191 [rotation_error] *)
Definition rotation_error (pose_error : M4) : R :=
  let a := vx (row1 (lin pose_error)) in
  let b := vy (row2 (lin pose_error)) in
  let c := vz (row3 (lin pose_error)) in
  let d := (1 / 2) * (a + b + c - 1) in
  acos (Rmax (Rmin d 1) (-1)).

(** comparison.py:194-199 [translation_error] *)
Definition translation_error (pose_error : M4) : R :=
  let dx := vx (tra pose_error) in
  let dy := vy (tra pose_error) in
  let dz := vz (tra pose_error) in
  sqrt (dx * dx + dy * dy + dz * dz).

(** Division of numpy floats: dividing by zero gives inf or nan, which are not numbers here. *)
Definition np_div (a b : R) : option R := if Reqb b 0 then None else Some (a / b).

(** comparison.py:139-141: pose error of one pair *)
Definition pose_error (ref_i ref_j test_i test_j : M4) : M4 :=
  let pose_delta_gt := mul4 (se3_inv ref_i) ref_j in
  let pose_delta_test := mul4 (se3_inv test_i) test_j in
  mul4 (se3_inv pose_delta_gt) pose_delta_test.

(** One pose pair of a relative comparison: position deviation, rotation deviation (if both
    trajectories have orientations), distance. *)
Record pair_entry := mkEntry { e_pos : option R; e_rot : option (option R); e_dist : R }.

(** deviations.py:17-26 [RelativeTrajectoryDeviations]: the three dictionaries share their keys (the
    pair distances, pairwise different because the step is not zero) and are filled together, so
    they are one list of keys with the entries.  [rpe_result.py:26-32]: the name. *)
Record rpe_result := mkRpe {
  rpe_name : string;
  rpe_pairs : list (R * list pair_entry);
  rpe_unit : unit_kind
}.

Section Relative.
  Context {Q : Type} (ops : rot_ops Q).

  (** comparison.py:131-156: body of the inner loop, [distances] being arc lengths or timestamps *)
  Definition compare_pair (test ref : traj Q) (distances : list R) (pair : nat * nat) : result pair_entry :=
    let i := Z.of_nat (fst pair) in
    let j := Z.of_nat (snd pair) in
    let! d1 := np_get distances j in
    let! d0 := np_get distances i in
    let distance := d1 - d0 in
    if (has_orientation ref && has_orientation test)%bool then
      let! ri := np_get (se3 ops ref) i in
      let! rj := np_get (se3 ops ref) j in
      let! ti := np_get (se3 ops test) i in
      let! tj := np_get (se3 ops test) j in
      let e := pose_error ri rj ti tj in
      Ok (mkEntry (np_div (translation_error e) distance) (Some (np_div (rotation_error e) distance)) distance)
    else
      let! rj := np_get (xyz ref) j in
      let! ri := np_get (xyz ref) i in
      let! tj := np_get (xyz test) j in
      let! ti := np_get (xyz test) i in
      let t_err := Rabs (vnorm (vsub rj ri) - vnorm (vsub tj ti)) in
      Ok (mkEntry (np_div t_err distance) None distance).

  (** comparison.py:117-123: which distances the unit selects *)
  Definition pair_distances (ref : traj Q) (u : unit_kind) : result (list R) :=
    match u with
    | U_METER => Ok (arc ref)
    | U_SECOND => Ok (tstamps ref)
    | _ => Err ValueError
    end.

  (** comparison.py:94-171 [compare_trajectories_relative] *)
  Definition compare_relative (test ref : traj Q) (s : rel_settings) : result rpe_result :=
    if Rltb (pair_max_distance s) (pair_min_distance s) then Err ValueError
    else
      let! pair_dists := np_arange ZeroDivisionError (pair_min_distance s)
                           (pair_max_distance s + pair_distance_step s) (pair_distance_step s) in
      let! blocks := mapM (fun pair_dist =>
          let! distances := pair_distances ref (pair_distance_unit s) in
          let! pair_indices := get_pair_indices distances (use_all_pose_pairs s) pair_dist in
          let! entries := mapM (compare_pair test ref distances) pair_indices in
          Ok (pair_dist, entries)) pair_dists in
      if forallb (fun b => (length (snd b) =? 0)%nat) blocks then Err ValueError
      else Ok (mkRpe (name test ++ " vs. " ++ name ref)%string blocks (pair_distance_unit s)).
End Relative.

(** * Absolute comparison *)

(** evaluation/utils.py:29-58 [nearest_point] *)
Definition nearest_point (p a b : V3) : V3 * R :=
  let r_v := vsub b a in
  let r_v_norm := vnorm r_v in
  if Reqb r_v_norm 0 then (a, 0)
  else
    let r_v := vscale (/ r_v_norm) r_v in
    let t := vdot (vsub p a) r_v in
    (vadd a (vscale t r_v), t).

(** comparison.py:256-271 [_along_track_dev] *)
Definition along_track_dev (p a b : V3) (is_last : bool) : R :=
  let '(p_nearest, t) := nearest_point p a b in
  if negb is_last then Rsign t * vnorm (vsub p_nearest a)
  else if Rltb (vnorm (vsub p_nearest a)) (vnorm (vsub b a))
       then - vnorm (vsub p_nearest b)
       else vnorm (vsub p_nearest b).

(** comparison.py:274-314 [_cross_track_dev] with the default [z_slope_dist=False] (no caller passes
    another value) *)
Definition cross_track_dev (p a b : V3) : R * R :=
  let '(p_nearest, _) := nearest_point p a b in
  let n1 := vy b - vy a in
  let n2 := - (vx b - vx a) in
  let d1 := vx p - vx a in
  let d2 := vy p - vy a in
  let d_sign := - Rsign (d1 * n1 + d2 * n2) in
  let diff := vsub p_nearest p in
  let d_cross_h := d_sign * sqrt (vx diff * vx diff + vy diff * vy diff) in
  (d_cross_h, vz diff).

(** comparison.py:211-237 [derive_dev_directions_no_rot]; the three columns as one vector (along,
    horizontal, vertical).  [xyz_ref[i - 1]] counts from the end for i = 0. *)
Definition dev_directions_no_rot (ref test : list V3) : result (list V3) :=
  mapM (fun ip =>
    let '(i, p) := ip in
    let! p_curr := np_get ref (Z.of_nat i) in
    let is_last := (i =? length test - 1)%nat in
    let! p_next := if is_last then np_get ref (Z.of_nat i - 1) else np_get ref (Z.of_nat i + 1) in
    let '(a, b) := if is_last then (p_next, p_curr) else (p_curr, p_next) in
    let '(h, v) := cross_track_dev p a b in
    Ok (mkV3 (along_track_dev p a b is_last) h v)) (enumerate test).

(** comparison.py:240-253 [derive_dev_directions_with_rot]: rows beyond the reference stay zero, a
    longer reference runs out of range. *)
Definition dev_directions_with_rot (ref test : list V3) (rot_matrices : list M3) : result (list V3) :=
  let! devs := mapM (fun ir =>
    let '(i, r) := ir in
    let! p := np_get test (Z.of_nat i) in
    let! m := np_get rot_matrices (Z.of_nat i) in
    Ok (vmul (vsub p r) m)) (enumerate ref) in
  Ok (devs ++ repeat vzero (length test - length ref)).

(** numpy broadcasting of a binary operation over the rows of two arrays (also scipy Rotation
    products): equally many rows, or one of them has a single row. *)
Definition np_zip {A B D} (f : A -> B -> D) (a : list A) (b : list B) : result (list D) :=
  if (length a =? length b)%nat then Ok (map (fun ab => f (fst ab) (snd ab)) (combine a b))
  else match a, b with
       | [x], _ => Ok (map (f x) b)
       | _, [y] => Ok (map (fun x => f x y) a)
       | _, _ => Err ValueError
       end.

(** deviations.py:28-33 [AbsoluteTrajectoryDeviations] and ate_result.py:31-39 [ATEResult.__init__] *)
Record ate_result (Q : Type) := mkAte {
  ate_name : string;
  ate_trajectory : traj Q;
  pos_dev : list V3;
  directed_pos_dev : list V3;
  rot_dev : option (list Q);
  rotations_used : bool
}.
Arguments mkAte {Q}.  Arguments ate_name {Q}.  Arguments ate_trajectory {Q}.  Arguments pos_dev {Q}.
Arguments directed_pos_dev {Q}.  Arguments rot_dev {Q}.  Arguments rotations_used {Q}.

Section Absolute.
  Context {Q : Type} (ops : rot_ops Q).

  (** [traj_ref.rot or traj_test.rot]: a RotationSet is always true *)
  Definition either_rot (a b : option (list Q)) : option (list Q) :=
    match a with Some q => Some q | None => b end.

  (** rotationset.py:34-35 [RotationSet.__sub__] for one pair *)
  Definition rot_sub (a b : Q) : Q := rmul ops a (rinv ops b).

  (** comparison.py:202-208 [get_directed_deviations] *)
  Definition get_directed_deviations (ref test : list V3) (r : option (list Q)) : result (list V3) :=
    match r with
    | None => dev_directions_no_rot ref test
    | Some q => dev_directions_with_rot ref test (map (as_matrix ops) q)
    end.

  (** comparison.py:24-59 [compare_trajectories_absolute] *)
  Definition compare_absolute (test ref : traj Q) : result (ate_result Q) :=
    let! pd := np_zip vsub (xyz ref) (xyz test) in
    let! dd := get_directed_deviations (xyz ref) (xyz test) (either_rot (rot ref) (rot test)) in
    let! rd := match rot ref, rot test with
               | Some a, Some b => rmap Some (np_zip rot_sub a b)
               | _, _ => Ok None
               end in
    Ok (mkAte (name test ++ " vs. " ++ name ref)%string test pd dd rd
              (match either_rot (rot ref) (rot test) with Some _ => true | None => false end)).
End Absolute.

(** * Statistics *)

(** [np.mean]; the mean of nothing is nan *)
Definition np_mean (l : list R) : option R :=
  match l with [] => None | _ => Some (np_sum l / INR (length l)) end.

(** evaluation/utils.py:16-26 [rms] *)
Definition rms (l : list R) : option R := option_map sqrt (np_mean (map (fun x => x * x) l)).

(** [np.std] (population standard deviation) *)
Definition np_std (l : list R) : option R :=
  match np_mean l with
  | None => None
  | Some m => option_map sqrt (np_mean (map (fun x => (x - m) * (x - m)) l))
  end.

(** [np.max] and [np.min]; ValueError on nothing *)
Definition np_max (l : list R) : result R :=
  match l with [] => Err ValueError | x :: r => Ok (fold_left Rmax r x) end.
Definition np_min (l : list R) : result R :=
  match l with [] => Err ValueError | x :: r => Ok (fold_left Rmin r x) end.

(** [np.median]: mean of the one or two middle elements of the sorted data *)
Definition np_median (l : list R) : option R :=
  let s := np_sort l in
  let n := length l in
  match nth_error s ((n - 1) / 2), nth_error s (n / 2) with
  | Some a, Some b => Some ((a + b) / 2)
  | _, _ => None
  end.

Section Stats.
  Context {Q : Type}.
  Implicit Types r : ate_result Q.

  (** ate_result.py:207-212 [pos_dev_comb] *)
  Definition pos_dev_comb r : list R := map vnorm (pos_dev r).
  (** ate_result.py:223-263: statistics of the norms *)
  Definition pos_dev_rms r : option R := rms (pos_dev_comb r).
  Definition pos_ate r : option R := np_mean (pos_dev_comb r).
  Definition pos_dev_max r : result R := np_max (pos_dev_comb r).
  Definition pos_dev_min r : result R := np_min (pos_dev_comb r).
  Definition pos_dev_median r : option R := np_median (pos_dev_comb r).
  Definition pos_dev_std r : option R := np_std (pos_dev_comb r).
  (** ate_result.py:110-123: component biases *)
  Definition pos_bias_x r : option R := np_mean (map vx (pos_dev r)).
  Definition pos_bias_y r : option R := np_mean (map vy (pos_dev r)).
  Definition pos_bias_z r : option R := np_mean (map vz (pos_dev r)).
  (** ate_result.py:307-347: component RMS *)
  Definition pos_rms_x r : option R := rms (map vx (pos_dev r)).
  Definition pos_rms_y r : option R := rms (map vy (pos_dev r)).
  Definition pos_rms_z r : option R := rms (map vz (pos_dev r)).
  Definition pos_rms_along r : option R := rms (map vx (directed_pos_dev r)).
  Definition pos_rms_cross_h r : option R := rms (map vy (directed_pos_dev r)).
  Definition pos_rms_cross_v r : option R := rms (map vz (directed_pos_dev r)).
End Stats.
