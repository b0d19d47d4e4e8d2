(** Names of trajectories: trajectory.py:45 and 79-81, the counter of the class and what the constructor does with it. *)
From Verif Require Import Base NumpyModel TrajModel ApproxModel.

Section Names.
  Context {Q : Type}.

  (** The arguments of the constructor, trajectory.py:47-56 *)
  Record creation := mkCreation {
    cr_pos : list V3; cr_epsg : Z; cr_rot : option (list Q); cr_tstamps : option (list R); cr_name : string;
    cr_arc : option (list R); cr_speed : option (list V3); cr_sorting : sorting }.

  (** trajectory.py:47-81 [__init__] with [Trajectory._counter]: an exception comes before the counter is touched. *)
  Definition create (loc : list V3 -> list V3) (counter : nat) (c : creation) : nat * result (traj Q) :=
    match new_traj loc (cr_pos c) (cr_epsg c) (cr_rot c) (cr_tstamps c)
            (if String.eqb (cr_name c) "" then "Trajectory " ++ show_nat counter else cr_name c)%string (cr_arc c) (cr_speed c) (cr_sorting c) with
    | Ok t => (S counter, Ok t)
    | Err e => (counter, Err e)
    end.

  (** Several trajectories created one after the other in a process *)
  Fixpoint creations (loc : list V3 -> list V3) (counter : nat) (cs : list creation) : list (result (traj Q)) :=
    match cs with
    | [] => []
    | c :: cs => let (counter, r) := create loc counter c in r :: creations loc counter cs
    end.

  (** trajectory.py:45 *)
  Definition first_counter : nat := 1.
End Names.
Arguments creation : clear implicits.
