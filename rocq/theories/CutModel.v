(** Interrupted writing of result files: what is on the disk if [RPEResult.to_file] (rpe_result.py:238-246) or
    [ATEResult.to_file] (ate_result.py:457-464) is stopped at some point. *)
From Verif Require Import Base EstModel TextModel HeaderModel NumpyModel TrajModel GeomModel IoModel EvalModel RpeModel AteModel TornModel.
Local Open Scope string_scope.

(** rpe_result.py:238-246 [to_file], stopped at point [n]: nothing is done at point 0, at point 1 the file is open, at point
    [S k] the first [k] characters are written.  The second [open], by [to_csv], has mode "a" and keeps the header.
    Simplification: as in TornModel, and the file is left alone if the table cannot be made. *)
Definition rpe_interrupted (T : text_ops) (show12 : R -> string) (m : open_mode) (before : string) (r : rpe) (n : nat) : string :=
  match rpe_to_file T show12 "" r with
  | Ok text => on_disk m before text n
  | Err _ => before
  end.

(** ate_result.py:457-464 [to_file], stopped at point [n] *)
Definition ate_interrupted {Q} (qops : quat_ops Q) (T : text_ops) (show12 : R -> string) (m : open_mode) (before : string) (r : ate_result Q) (n : nat) : string :=
  match ate_to_file qops T show12 "" r with
  | Ok text => on_disk m before text n
  | Err _ => before
  end.
