(** Vocabulary for tables of trajectories, trajectory reports and bar charts. *)
From Verif Require Import Base NumpyModel TrajModel EvalModel ParamModel DataModel EstModel TextModel IoModel.
Local Open Scope string_scope.

Definition table_columns {Q} (t : traj Q) : list string :=
  (["time"; "arc_length"; "pos_x"; "pos_y"; "pos_z"] ++ match rot t with Some _ => ["rot_x"; "rot_y"; "rot_z"; "rot_w"] | None => [] end ++ ["speed_x"; "speed_y"; "speed_z"])%list.

(** [row] holds the components of pose [i] in the order of the columns. *)
Definition table_row {Q} (as_quat : Q -> V4) (t : traj Q) (i : nat) (row : list R) : Prop :=
  exists ts a p v, nth_error (tstamps t) i = Some ts /\ nth_error (arc t) i = Some a /\ nth_error (xyz t) i = Some p /\ nth_error (speed t) i = Some v /\
    match rot t with
    | Some l => exists q, nth_error l i = Some q /\
        row = [ts; a; vx p; vy p; vz p; q_x (as_quat q); q_y (as_quat q); q_z (as_quat q); q_w (as_quat q); vx v; vy v; vz v]
    | None => row = [ts; a; vx p; vy p; vz p; vx v; vy v; vz v]
    end.

(** The column the table is sorted by *)
Definition sort_column {Q} (t : traj Q) (sort_by : string) : string :=
  if String.eqb sort_by "" then match srt t with SortTime => "time" | SortArc => "arc_length" end else sort_by.

Definition least (l : list R) (x : R) : Prop := In x l /\ forall y, In y l -> x <= y.
Definition greatest (l : list R) (x : R) : Prop := In x l /\ forall y, In y l -> y <= x.

(** The two letters occur next to each other. *)
Definition contains (pattern s : string) : Prop := exists a b, s = a ++ pattern ++ b.

(** [p] lists the positions in the order of the sorting keys of the trajectory. *)
Definition in_sorting_order {Q} (t : traj Q) (p : list V3) : Prop :=
  exists idx, Permutation idx (seq 0 (length (xyz t))) /\ length p = length (xyz t) /\ (forall k i, nth_error idx k = Some i -> nth_error p k = nth_error (xyz t) i) /\
    (forall k l i j a b, (k < l)%nat -> nth_error idx k = Some i -> nth_error idx l = Some j ->
       nth_error (match srt t with SortTime => tstamps t | SortArc => arc t end) i = Some a -> nth_error (match srt t with SortTime => tstamps t | SortArc => arc t end) j = Some b -> (a <= b)%R).

(** The axis letters and the coordinate they stand for *)
Definition is_axis (c : ascii) : Prop := c = "x"%char \/ c = "y"%char \/ c = "z"%char.
Definition coordinate (c : ascii) (v : V3) (x : R) : Prop := (c = "x"%char /\ x = vx v) \/ (c = "y"%char /\ x = vy v) \/ (c = "z"%char /\ x = vz v).
