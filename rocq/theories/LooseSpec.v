(** Vocabulary of the properties of limits. *)
From Verif Require Import Base NumpyModel TrajModel TrajSpec.

(** A limit of a matching is at least as wide as another one; 0 stands for no limit. *)
Definition looser (m m' : R) : Prop := m' = 0 \/ (m <> 0 /\ m <= m').

(** [(test1, ref1)] and [(test2, ref2)] are matched trajectories, the former with the limit [max] and the latter with a looser one: every
    reference pose of the former is one of the latter, in the same order, and there it is paired with the same test pose or with one that is at
    least [max] away from it; and every pair of the latter that is closer than [max] is a pair of the former. *)
Definition loosened {Q} (dist : pose Q -> pose Q -> R) (max : R) (test1 ref1 test2 ref2 : traj Q) : Prop :=
  exists f : nat -> nat,
    (forall a b, (a < b < tlen ref1)%nat -> (f a < f b < tlen ref2)%nat) /\
    (forall m r p, pose_at ref1 m = Some r -> pose_at test1 m = Some p ->
       pose_at ref2 (f m) = Some r /\ exists p', pose_at test2 (f m) = Some p' /\ (p' = p \/ (max <> 0 /\ max <= dist r p'))) /\
    (forall m' r p, pose_at ref2 m' = Some r -> pose_at test2 m' = Some p -> (max <> 0 -> dist r p < max) ->
       exists m, m' = f m /\ pose_at ref1 m = Some r /\ pose_at test1 m = Some p).
