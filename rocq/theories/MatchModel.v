(** Matching of two trajectories (trajectopy_core/matching.py) and the 3D line of utils.py. *)
From Verif Require Import Base NumpyModel TrajModel GeomModel.

(** settings/matching.py:15-28 [MatchingMethod], [MatchingSettings] *)
Inductive matching_method := NearestSpatial | NearestTemporal | Interpolation | NearestSpatialInterpolated | UnknownMethod.
Record matching_settings := mkMatching { m_method : matching_method; max_time_diff : R; max_distance : R; k_nearest : nat }.

(** ** Line3D, utils.py:21-74 *)
Record line3d := mkLine { l_mean : V3; l_dir : V3 }.

(** [np.mean(points, axis=0)] *)
Definition vsum (l : list V3) : V3 := fold_right vadd vzero l.
Definition vmean (l : list V3) : V3 := vscale (/ INR (length l)) (vsum l).
(** [np.cov(points, rowvar=False)] *)
Definition msum (l : list M3) : M3 := fold_right madd (mscale 0 mident) l.
Definition covariance (l : list V3) : M3 :=
  mscale (/ (INR (length l) - 1)) (msum (map (fun p => outer (vsub p (vmean l)) (vsub p (vmean l))) l)).

(** utils.py:35-56 [from_points]; [eigh] is the eigenvector of the largest eigenvalue computed by
    [np.linalg.eigh(...)[1][:, -1]]. *)
Definition from_points (eigh : M3 -> V3) (l : list V3) : line3d := mkLine (vmean l) (eigh (covariance l)).

(** utils.py:58-74 [evaluate_at] *)
Definition evaluate_at (l : line3d) (p : V3) : V3 :=
  let tr := (vx p - vx (l_mean l)) * vx (l_dir l) + (vy p - vy (l_mean l)) * vy (l_dir l)
            + (vz p - vz (l_mean l)) * vz (l_dir l) in
  mkV3 (vx (l_mean l) + tr * vx (l_dir l)) (vy (l_mean l) + tr * vy (l_dir l)) (vz (l_mean l) + tr * vz (l_dir l)).

(** ** KDTree, scipy.spatial *)
Section Kd.
  Context {P : Type}.
  (** [KDTree(ref).query(p, k, distance_upper_bound)]: the k nearest entries with their distances;
      missing ones (infinite distance) are [None]. *)
  Variable query : list P -> option R -> nat -> P -> list (option (nat * R)).

  (** The branch on [max_distance == 0] (matching.py:215-218). *)
  Definition bound (max_distance : R) : option R := if Reqb max_distance 0 then None else Some max_distance.

  Definition query1 (ref : list P) (ub : option R) (p : P) : option (nat * R) := hd None (query ref ub 1 p).

  (** The rows of [distance_index_matrix] with a finite distance (matching.py:222-228), with the
      reference index: (test index, reference index). *)
  Definition kd_hits (ref test : list P) (max_distance : R) : list (nat * nat) :=
    flat_map (fun ip => match query1 ref (bound max_distance) (snd ip) with
                        | Some (j, _) => [(fst ip, j)]
                        | None => []
                        end) (enumerate test).

  (** matching.py:204-233 [kd_matcher].  Without test points the matrix has no columns (IndexError). *)
  Definition kd_matcher (ref test : list P) (max_distance : R) : result (list nat * list nat) :=
    match test with
    | [] => Err IndexError
    | _ =>
        let hits := kd_hits ref test max_distance in
        if (length hits =? 0)%nat then Err ValueError
        else
          let unique_indices := map Z.of_nat (map snd (np_unique_index (map (fun h => INR (snd h)) hits))) in
          let! r := np_take (map snd hits) unique_indices in
          let! t := np_take (map fst hits) unique_indices in
          Ok (r, t)
    end.
End Kd.

Section Matching.
  Context {Q : Type}.
  Implicit Types test ref : traj Q.

  (** External code: two- and three-dimensional KD trees, spherical interpolation, eigenvectors. *)
  Variable query2 : list (R * R) -> option R -> nat -> R * R -> list (option (nat * R)).
  Variable query3 : list V3 -> option R -> nat -> V3 -> list (option (nat * R)).
  Variable slerp_seg : Q -> Q -> R -> Q.
  Variable eigh : M3 -> V3.
  (** Local transformation of the new PointSets (see [new_traj] in TrajModel.v). *)
  Variable loc : list V3 -> list V3.

  Definition nat_index (l : list nat) : index := IInt (map Z.of_nat l).

  (** matching.py:92-114 [match_trajectories_temporal]; result (test, ref) *)
  Definition match_temporal (max_distance : R) test ref : result (traj Q * traj Q) :=
    let pts := fun l => map (fun x : R => (x, 0)) l in
    let! ij := kd_matcher query2 (pts (tstamps ref)) (pts (tstamps test)) max_distance in
    let! test' := apply_index test (nat_index (snd ij)) in
    let! ref' := apply_index ref (nat_index (fst ij)) in
    Ok (test', ref').

  (** matching.py:117-138 [match_trajectories_spatial] *)
  Definition match_spatial (max_distance : R) test ref : result (traj Q * traj Q) :=
    let! ij := kd_matcher query3 (xyz ref) (xyz test) max_distance in
    let! test' := apply_index test (nat_index (snd ij)) in
    let! ref' := apply_index ref (nat_index (fst ij)) in
    Ok (test', ref').

  (** matching.py:65-89 [match_trajectories_interpolation]; 2.0 is the default of max_gap_size
      (trajectory.py:522) *)
  Definition match_interpolation test ref : result (traj Q * traj Q) :=
    let! test1 := intersect test (tstamps ref) 2 in
    let! ref1 := intersect ref (tstamps test1) 2 in
    let! test2 := interpolate slerp_seg test1 (tstamps ref1) in
    Ok (set_arc (arc ref1) test2, ref1).

  (** matching.py:168-190: for every test position with k finite neighbours the pair (test position,
      point on the line fitted to the neighbours). *)
  Fixpoint all_some {A} (l : list (option A)) : option (list A) :=
    match l with
    | [] => Some []
    | None :: _ => None
    | Some a :: r => option_map (cons a) (all_some r)
    end.
  Definition neighbour_line (ref_xyz : list V3) (idx : list nat) : result line3d :=
    let! pts := np_take ref_xyz (map Z.of_nat idx) in Ok (from_points eigh pts).
  Fixpoint line_matches (ref_xyz : list V3) (rows : list (V3 * list (option (nat * R)))) : result (list (V3 * V3)) :=
    match rows with
    | [] => Ok []
    | (p, nn) :: rest =>
        match all_some nn with
        | None => line_matches ref_xyz rest
        | Some row =>
            let! l := neighbour_line ref_xyz (map fst row) in
            let! more := line_matches ref_xyz rest in
            Ok ((p, evaluate_at l p) :: more)
        end
    end.

  (** matching.py:141-201 [match_trajectories_spatial_interpolation].  k_nearest=1 makes [dists] a
      scalar (TypeError).  Simplification: an empty list of matched positions, for which the external
      PointSet gets a one-dimensional array, is an IndexError here. *)
  Definition match_spatial_interpolation (max_distance : R) (k : nat) test ref : result (traj Q * traj Q) :=
    let rows := map (fun p => (p, query3 (xyz ref) (bound max_distance) k p)) (xyz test) in
    if forallb (fun r => forallb (fun o => match o with None => true | Some _ => false end) (snd r)) rows
    then Err ValueError
    else if (k =? 1)%nat then Err TypeError
    else
      let! m := line_matches (xyz ref) rows in
      match m with
      | [] => Err IndexError
      | _ =>
          let! test' := new_traj loc (map fst m) 0 None None (name test) None None SortTime in
          let! ref' := new_traj loc (map snd m) 0 None None (name ref) None None SortTime in
          Ok (test', ref')
      end.

  (** matching.py:23-62 [match_trajectories] with inplace=True on two different objects: the state of
      the two argument objects afterwards, and the returned trajectories; both as (test, ref).
      The three index- and interpolation-based methods work on the arguments and return them, the
      fourth returns new objects. *)
  Definition match_trajectories (s : matching_settings) test ref
      : result ((traj Q * traj Q) * (traj Q * traj Q)) :=
    let same r := rmap (fun x => (x, x)) r in
    match m_method s with
    | Interpolation => same (match_interpolation test ref)
    | NearestTemporal => same (match_temporal (max_time_diff s) test ref)
    | NearestSpatial => same (match_spatial (max_distance s) test ref)
    | NearestSpatialInterpolated =>
        rmap (fun x => ((test, ref), x)) (match_spatial_interpolation (max_distance s) (k_nearest s) test ref)
    | UnknownMethod => Err ValueError
    end.

  (** evaluation/metrics.py:31-55: the trajectories [ate] hands to the alignment and the comparison,
      and [rpe] to the comparison, as (estimated, ground truth): the return value of
      match_trajectories is discarded and the argument objects are used. *)
  Definition compared_by_metrics (s : matching_settings) (gt est : traj Q) : result (traj Q * traj Q) :=
    let! m := match_trajectories s est gt in Ok (fst m).
End Matching.
