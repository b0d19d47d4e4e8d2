(** Vocabulary of the properties of the summary of an absolute comparison. *)
From Verif Require Import Base NumpyModel EvalModel EvalSpec.

Fixpoint entry (d : list (string * string)) (k : string) : option string :=
  match d with [] => None | (k', v) :: d => if String.eqb k' k then Some v else entry d k end.

Definition total (l : list R) : R := fold_right Rplus 0 l.

(** The values [hi], [mean], [med], [lo], [q], [s] are the greatest element, the mean, a median, the least element, the root mean square and the standard
    deviation of [l]. *)
Definition statistics (l : list R) (hi mean med lo q s : R) : Prop :=
  is_greatest l hi /\ is_least l lo /\ mean * INR (length l) = total l /\
  (length l <= 2 * count (fun y => Rleb y med) l)%nat /\ (length l <= 2 * count (fun y => Rleb med y) l)%nat /\
  0 <= q /\ q * q * INR (length l) = total (map (fun x => x * x) l) /\
  0 <= s /\ s * s * INR (length l) = total (map (fun x => (x - mean) * (x - mean)) l).
(** [b] is the mean and [q] the root mean square of [l]. *)
Definition component (l : list R) (b q : R) : Prop :=
  b * INR (length l) = total l /\ 0 <= q /\ q * q * INR (length l) = total (map (fun x => x * x) l).

Definition in_degrees (x : R) : R := x * 180 / PI.
