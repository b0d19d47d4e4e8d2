(** Successive calls of the metrics with one reference: trajectopy_core/evaluation/metrics.py.
    Both metrics match their arguments in place, so the next call gets what the previous one has left of the reference. *)
From Verif Require Import Base NumpyModel TrajModel GeomModel MatchModel.

Section Series.
  Context {Q : Type}.
  Variable query2 : list (R * R) -> option R -> nat -> R * R -> list (option (nat * R)).
  Variable query3 : list V3 -> option R -> nat -> V3 -> list (option (nat * R)).
  Variable seg : Q -> Q -> R -> Q.
  Variable eigh : M3 -> V3.
  Variable loc : list V3 -> list V3.

  (** metrics.py:48-55 [rpe], and metrics.py:31 of [ate], called for one estimate after the other with the same object as ground truth: the
      pairs (estimate, ground truth) that are compared, and the ground truth afterwards.  An exception ends the series.  The second
      matching in the alignment of [ate] (alignment/data.py:74) is not part of this definition. *)
  Fixpoint compared_in_turn (s : matching_settings) (gt : traj Q) (ests : list (traj Q)) : result (list (traj Q * traj Q) * traj Q) :=
    match ests with
    | [] => Ok ([], gt)
    | est :: rest =>
        let! p := compared_by_metrics query2 query3 seg eigh loc s gt est in
        let! q := compared_in_turn s (snd p) rest in
        Ok (p :: fst q, snd q)
    end.
End Series.
