(** Exporting to KML: trajectopy_core/kml.py:14-54 [create_kml].
    The XML around the coordinates and their formatting with nine decimals are not modelled; the line is the list of
    (longitude, latitude) in the order of writing.  Position conversion ([PointSet.to_epsg(4326)]) and rounding
    ([PointSet.round_to]) are functions [conv] and [rnd] of the pointset package applied to every position. *)
From Verif Require Import Base NumpyModel TrajModel.

(** [np.sort(np.unique(rows, return_index=True, axis=0)[1])]: numpy reports the first index of every distinct row *)
Definition first_indices {A} (eqb : A -> A -> bool) (l : list A) : list nat :=
  map fst (filter (fun p => negb (existsb (eqb (snd p)) (firstn (fst p) l))) (enumerate l)).

(** Equality of the first two columns *)
Definition xy_eqb (a b : V3) : bool := (Reqb (vx a) (vx b) && Reqb (vy a) (vy b))%bool.

Section Kml.
  Context {Q : Type} (conv rnd : V3 -> V3).

  (** kml.py:14-54 [create_kml].  The trajectory is changed in place: the first component is its state afterwards.  The
      local transformer of a PointSet exists if its epsg code is not 0. *)
  Definition create_kml (t : traj Q) : result (traj Q * list (R * R)) :=
    if Z.eqb (epsg t) 0 then Err ValueError
    else
      let converted := mkTraj (tstamps t) (map conv (xyz t)) (rot t) (arc t) (speed t) (srt t) (name t) 4326 in
      let rounded := set_xyz (map rnd (xyz converted)) converted in
      let! thinned := apply_index rounded (IInt (map Z.of_nat (first_indices xy_eqb (xyz rounded)))) in
      Ok (thinned, map (fun p => (vy p, vx p)) (xyz thinned)).
End Kml.
