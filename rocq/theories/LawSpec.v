(** Vocabulary of the laws of filtering and merging. *)
From Verif Require Import Base NumpyModel TrajModel TrajSpec.

(** Interpolating between two rotations gives the rotations themselves at the ends. *)
Definition hits_ends {Q} (seg : Q -> Q -> R -> Q) : Prop := forall p q, seg p q 0 = p /\ seg p q 1 = q.

(** Two trajectories with the same timestamps, positions and rotations. *)
Definition same_contents {Q} (m m' : traj Q) : Prop := tstamps m = tstamps m' /\ xyz m = xyz m' /\ rot m = rot m'.

(** No entry of [test] is equally far from two entries of [ref]. *)
Definition untied {P} (dist : P -> P -> R) (ref test : list P) : Prop :=
  forall p i j r s, In p test -> nth_error ref i = Some r -> nth_error ref j = Some s -> i <> j -> dist r p <> dist s p.
