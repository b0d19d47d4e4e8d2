(** Vocabulary of the estimation properties. *)
From Verif Require Import Base ParamModel DataModel EstModel.

(** The update is small: a number of absolute value at most the threshold. *)
Definition within (d : num) (th : R) : Prop := exists r, d = Fin r /\ Rabs r <= th.
(** Not large: the update is within the threshold, or no number at all. *)
Definition not_beyond (d : num) (th : R) : Prop := within d th \/ d = NaN.

(** The positions of the estimated parameters among the eleven, in order. *)
Definition positions (flags : list bool) : list nat :=
  map fst (filter snd (enumerate flags)).

(** Every update is not beyond the threshold at the same place. *)
Definition settled (ths : list R) (u : list num) : Prop :=
  forall i d th, nth_error u i = Some d -> nth_error ths i = Some th -> not_beyond d th.

Definition last_of {A} (l : list A) (x : A) : Prop := exists r, l = r ++ [x].
