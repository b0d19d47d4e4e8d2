(** Interrupted writing of a trajectory file: what is on the disk if [Trajectory.to_file] (trajectory.py:298-328) is stopped
    at some point, by the operating system, a full disk or a loss of power. *)
From Verif Require Import Base EstModel TextModel HeaderModel NumpyModel TrajModel GeomModel IoModel.
Local Open Scope string_scope.

(** The argument [mode] of [to_file] *)
Inductive open_mode := Write | Append.

(** trajectory.py:310 [open(filename, mode=mode)]: mode "w" empties the file, mode "a" keeps its content. *)
Definition opened (m : open_mode) (before : string) : string := match m with Write => "" | Append => before end.

(** trajectory.py:310-314 and 328: nothing is written at point 0; at point 1 the file is open; at point [S k] the first [k]
    characters of the header and the table are written.  The second [open], by [to_csv], keeps what the header has left.
    Simplification: characters reach the disk in the order in which they are written. *)
Definition on_disk (m : open_mode) (before text : string) (n : nat) : string :=
  match n with O => before | S k => opened m before ++ take k text end.

(** trajectory.py:298-328 [to_file], stopped at point [n].  The table is made before the file is opened (316-325), so if that
    raises the file is as it was. *)
Definition interrupted {Q} (qops : quat_ops Q) (T : text_ops) (m : open_mode) (before : string) (t : traj Q) (n : nat) : string :=
  match to_file qops T "" t with
  | Ok text => on_disk m before text n
  | Err _ => before
  end.

(** The number of the last point: everything is written. *)
Definition last_point {Q} (qops : quat_ops Q) (T : text_ops) (t : traj Q) : nat :=
  match to_file qops T "" t with Ok text => S (String.length text) | Err _ => O end.
