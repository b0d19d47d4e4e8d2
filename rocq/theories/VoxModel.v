(** Searching in voxels: approximation/voxelizer.py:34-36, 59-61, 90-115 and 133-138. *)
From Verif Require Import Base NumpyModel GeomModel MatchModel ApproxModel.

Section Ball.
  (** scipy's [KDTree(pts).query_ball_point(p, r)]: positions in [pts] *)
  Variable ball : list V3 -> R -> V3 -> list nat.

  (** voxelizer.py:34-36, 90-92 [mean_point], [mean_points] *)
  Definition mean_points (vs : voxel_dict) : list V3 := map (fun v => vmean (snd v)) vs.

  (** voxelizer.py:94-99 [voxel_ids], [index_to_id] *)
  Definition index_to_id (vs : voxel_dict) (index : nat) : result string := np_get (map fst vs) (Z.of_nat index).

  (** voxelizer.py:101-115 [ball_query]; a frozenset of names is a list of names *)
  Definition ball_query (vs : voxel_dict) (xyz : list V3) (r : R) : result (list (list string)) :=
    mapM (mapM (index_to_id vs)) (map (ball (mean_points vs) r) xyz).
End Ball.

(** [self.voxels[voxel].points] *)
Fixpoint voxel_points (vs : voxel_dict) (id : string) : result (list V3) :=
  match vs with
  | [] => Err KeyError
  | (k, ps) :: r => if String.eqb k id then Ok ps else voxel_points r id
  end.

(** voxelizer.py:133-138 [points_from_voxel_set] *)
Definition points_from_voxel_set (vs : voxel_dict) (ids : list string) : result (list V3) :=
  let! sets := mapM (voxel_points vs) ids in Ok (concat sets).
