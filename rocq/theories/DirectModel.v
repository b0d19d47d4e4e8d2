(** Closed-form initial values of the alignment: trajectopy_core/alignment/direct.py.
    Not-a-number parameters are [None]; ValueError stands for LinAlgError, and numpy's broadcasting of positions and weights of
    length one is not modelled (the callers pass arrays of the same length). *)
From Verif Require Import Base NumpyModel TrajModel GeomModel LsqModel.

Definition vsum (l : list V3) : V3 := fold_right vadd vzero l.
Definition mzero : M3 := mkM3 vzero vzero vzero.
Definition msum (l : list M3) : M3 := fold_right madd mzero l.

(** Rows of two arrays with their weights: weight, source, target *)
Definition weighted := list (R * (V3 * V3)).
Definition wt (p : R * (V3 * V3)) : R := fst p.
Definition src (p : R * (V3 * V3)) : V3 := fst (snd p).
Definition tgt (p : R * (V3 * V3)) : V3 := snd (snd p).

Section Helmert.
  (** [np.linalg.svd]: for A the orthogonal factors [u], [v] (numpy returns the transposed right factor) and the singular
      values; it may raise *)
  Variable svd : M3 -> result (M3 * V3 * M3).

  (** direct.py:41-63: translation, rotation matrix and scale.  Weights that sum up to zero give not-a-number centroids, for
      which [svd] raises; a weighted square sum of zero gives a not-a-number scale. *)
  Definition procrustes (xyz_from xyz_to : list V3) (weights : list R) : result (option (V3 * M3 * R)) :=
    let weights := match weights with [] => repeat 1 (length xyz_from) | _ => weights end in
    if ((length xyz_to =? length xyz_from) && (length weights =? length xyz_from))%nat then
      let rows := combine weights (combine xyz_from xyz_to) in
      let sum_of_weights := np_sum weights in
      if Reqb sum_of_weights 0 then Err ValueError
      else
        let weighted_centroid_from := vscale (/ sum_of_weights) (vsum (map (fun p => vscale (wt p) (src p)) rows)) in
        let weighted_centroid_to := vscale (/ sum_of_weights) (vsum (map (fun p => vscale (wt p) (tgt p)) rows)) in
        let centered := map (fun p => (wt p, (vsub (src p) weighted_centroid_from, vsub (tgt p) weighted_centroid_to))) rows in
        let moment_matrix := msum (map (fun p => mscale (wt p) (outer (src p) (tgt p))) centered) in
        let square_sum_from := np_sum (map (fun p => wt p * vnorm (src p) * vnorm (src p)) centered) in
        let! uv := svd moment_matrix in
        let '(u, _, v) := uv in
        let estimated_rotation := mmul (mtrans v) (mtrans u) in
        if Reqb square_sum_from 0 then Ok None
        else
          let estimated_scale := np_sum (map (fun p => vdot (vmul (vscale (wt p) (tgt p)) estimated_rotation) (src p)) centered) / square_sum_from in
          let estimated_translation := vsub weighted_centroid_to (mapply (mscale estimated_scale estimated_rotation) weighted_centroid_from) in
          Ok (Some (estimated_translation, estimated_rotation, estimated_scale))
    else Err ValueError.

  (** direct.py:22-72 [direct_helmert_transformation]: translation, Euler angles and scale *)
  Definition direct_helmert {Q} (ops : rot_ops Q) (xyz_from xyz_to : list V3) (weights : list R) : result (option (V3 * V3 * R)) :=
    rmap (option_map (fun p => let '(t, m, s) := p in (t, as_euler ops (from_matrix ops m), s))) (procrustes xyz_from xyz_to weights).
End Helmert.

(** direct.py:156-200 [_leverarm_design_matrix]: the rows of x, then those of y, then those of z; with speeds, these are the
    first column *)
Definition lever_row_x (e : V3) : list R :=
  let a := vx e in let b := vy e in let g := vz e in
  [cos b * cos g; - cos a * sin g + sin a * sin b * cos g; sin a * sin g + cos a * sin b * cos g].
Definition lever_row_y (e : V3) : list R :=
  let a := vx e in let b := vy e in let g := vz e in
  [cos b * sin g; sin a * sin b * sin g + cos a * cos g; - sin a * cos g + cos a * sin b * sin g].
Definition lever_row_z (e : V3) : list R :=
  let a := vx e in let b := vy e in
  [- sin b; sin a * cos b; cos a * cos b].
(** [a.T.reshape(a.size)]: all x, then all y, then all z *)
Definition by_axis (l : list V3) : list R := map vx l ++ map vy l ++ map vz l.
Definition leverarm_design_matrix (rpy : list V3) (speed : option (list V3)) : result mat :=
  let a := map lever_row_x rpy ++ map lever_row_y rpy ++ map lever_row_z rpy in
  match speed with
  | None => Ok a
  | Some v => if (length (by_axis v) =? length a)%nat then Ok (map (fun p => fst p :: snd p) (combine (by_axis v) a)) else Err ValueError
  end.

(** direct.py:129-133, 236-240: target minus source *)
Definition direct_observations (xyz_to xyz_from : list V3) : list R :=
  by_axis (map (fun p => vsub (fst p) (snd p)) (combine xyz_to xyz_from)).

Section Gauss.
  Variable solve : mat -> vec -> result vec.

  (** direct.py:75-153 [direct_leverarm]: lever arm, time shift and residuals; no weights stands for None *)
  Definition direct_leverarm (xyz_to xyz_from rpy_body : list V3) (weights : option (list R)) (speed : option (list V3))
    : result (V3 * R * list R) :=
    if negb ((length xyz_to =? length xyz_from) && (length xyz_from =? length rpy_body))%nat then Err ValueError
    else
      let w := match weights with None => repeat 1 (3 * length xyz_to) | Some w => w end in
      let! a_design := leverarm_design_matrix rpy_body speed in
      let n := match speed with Some _ => 4%nat | None => 3%nat end in
      let! r := least_squares solve n a_design (direct_observations xyz_to xyz_from) (diagonal w) in
      let '(est_params, _, residuals) := r in
      match speed, est_params with
      | Some _, [t; x; y; z] => Ok (mkV3 x y z, t, residuals)
      | None, [x; y; z] => Ok (mkV3 x y z, 0, residuals)
      | _, _ => Err IndexError
      end.

  (** direct.py:203-256 [direct_timeshift]: an empty array is the default of the weights *)
  Definition direct_timeshift (xyz_to xyz_from speed : list V3) (weights : option (list R)) : result (R * list R) :=
    if negb (length xyz_to =? length xyz_from)%nat then Err ValueError
    else
      let w := match weights with None => repeat 1 (3 * length xyz_to) | Some w => w end in
      let! r := least_squares solve 1 (map (fun x => [x]) (by_axis speed)) (direct_observations xyz_to xyz_from) (diagonal w) in
      let '(est_params, _, residuals) := r in
      match est_params with
      | [t] => Ok (t, residuals)
      | _ => Err IndexError
      end.
End Gauss.

(** direct.py:259-271 [align_rotations]: the Euler angles of the mean ([mean] of scipy, which may raise) of the differences
    (rotationset.py:33-34).  With a missing argument a RotationSet is returned instead of parameters ([None] here). *)
Definition align_rotations {Q} (ops : rot_ops Q) (mean : list Q -> result Q) (rot_from rot_to : option (list Q)) : result (option V3) :=
  match rot_to, rot_from with
  | Some b, Some a =>
      let! differences := broadcast (fun q p => rmul ops q (rinv ops p)) b a in
      let! rot_difference := mean differences in
      Ok (Some (as_euler ops rot_difference))
  | _, _ => Ok None
  end.
