(** Vocabulary for names of parameters. *)
From Verif Require Import Base ParamModel DictModel.

(** The i-th step of a history makes a parameter without being told a name. *)
Definition nameless (ms : list making) (i : nat) : Prop :=
  match nth_error ms i with
  | Some (MNew _ _ _ _ name _) => name = ""%string
  | Some (MSub _ _) | Some (MAdd _ _) => True
  | _ => False
  end.
(** What a dictionary has under a name *)
Fixpoint lookup {A} (d : list (string * A)) (k : string) : option A :=
  match d with [] => None | (k', v) :: r => if String.eqb k' k then Some v else lookup r k end.
