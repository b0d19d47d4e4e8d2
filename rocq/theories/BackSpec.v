(** Vocabulary of C166: centre and spread of weighted points. *)
From Verif Require Import Base NumpyModel TrajModel GeomModel GeomSpec DirectSpec.

(** The weighted mean of points, and the weighted sum of their squared distances from it *)
Definition centre (w : list R) (l : list V3) : V3 :=
  vscale (/ fold_right Rplus 0 w) (fold_right vadd vzero (map (fun p => vscale (fst p) (snd p)) (combine w l))).
Definition spread (w : list R) (l : list V3) : R := fold_right Rplus 0 (map (fun p => fst p * vdist (snd p) (centre w l) ^ 2) (combine w l)).

(** A best rotation of source orientations onto target orientations, and orientations with a single one *)
Definition best_turn {Q} (ops : rot_ops Q) (from to : list Q) (m : M3) : Prop := is_rot m /\ forall k, is_rot k -> misorientation ops m from to <= misorientation ops k from to.
Definition clear_turn {Q} (ops : rot_ops Q) (from to : list Q) : Prop := forall m m', best_turn ops from to m -> best_turn ops from to m' -> m = m'.
