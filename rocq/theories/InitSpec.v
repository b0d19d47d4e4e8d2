(** Vocabulary of the properties about whole estimations. *)
From Verif Require Import Base TrajModel ParamModel DataModel DataSpec GeomModel GeomSpec DirectSpec.

(** A value that is not estimated is the default *)
Definition unless (estimated : bool) (x default : R) : Prop := estimated = false -> x = default.

(** Settings that estimate a similarity and nothing else, and among the similarities the given one: what is not estimated of it
    has its default value.  The three angles are estimated together or not at all. *)
Record for_similarity (e : est_settings) (t : V3) (m : M3) (s : R) : Prop := mkForSimilarity {
  fs_similarity : helmert_enabled e = true;
  fs_lever : leverarm_enabled e = false;
  fs_shift : time_shift_enabled e = false;
  fs_x : unless (trans_x e) (vx t) 0;
  fs_y : unless (trans_y e) (vy t) 0;
  fs_z : unless (trans_z e) (vz t) 0;
  fs_scale : unless (scale e) s 1;
  fs_angles : rot_x e = rot_y e /\ rot_y e = rot_z e;
  fs_rotation : rot_x e = false -> m = mident
}.

(** Settings that estimate a lever arm or a time shift or both but no similarity, and data that can tell the given one *)
Record for_lever (e : est_settings) (dt : R) (l : V3) (poses : list DirectSpec.pose) : Prop := mkForLever {
  fl_similarity : helmert_enabled e = false;
  fl_some : leverarm_enabled e = true \/ time_shift_enabled e = true;
  fl_shift : unless (time_shift_enabled e) dt 0;
  fl_x : unless (lever_x e) (vx l) 0;
  fl_y : unless (lever_y e) (vy l) 0;
  fl_z : unless (lever_z e) (vz l) 0;
  fl_poses : poses <> [];
  fl_moving : leverarm_enabled e = false -> exists s, In s poses /\ DirectSpec.pose_speed s <> vzero;
  fl_turning : leverarm_enabled e = true -> time_shift_enabled e = true ->
    exists a b, In a poses /\ In b poses /\ body_speed a <> body_speed b
}.

(** Every observation has a standard deviation, and there are thresholds for the iteration *)
Definition weighted_data (e : est_settings) (st : stochastics) : Prop := forall q, observed e q -> std_of st q <> 0.
Definition usable_thresholds (ths : list R) : Prop := ths <> [] /\ Forall (fun t => 0 <= t) ths.
