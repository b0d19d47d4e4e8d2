(** Vocabulary of the properties of standard deviations. *)
From Verif Require Import Base DataModel EstModel.

(** Quantiles grow with the probability; they exist for probabilities from 0 on and below 1 if there is something to test. *)
Definition quantiles (ppf : R -> Z -> option R) : Prop :=
  forall a b k, 0 <= a <= b -> b < 1 -> (0 < k)%Z -> exists x y, ppf a k = Some x /\ ppf b k = Some y /\ x <= y.

(** Standard deviations multiplied by a number. *)
Definition stretched (c : R) (l : list (group * num)) : list (group * num) :=
  map (fun gs => (fst gs, match snd gs with Fin x => Fin (c * x) | n => n end)) l.
