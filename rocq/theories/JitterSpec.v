(** Words for C161: time stamps that differ a little, or by whole samples. *)
From Verif Require Import Base TrajModel TrajSpec.

(** Neighbouring values are more than [g] apart. *)
Definition apart_by (g : R) (l : list R) : Prop := forall a b, neighbours l a b -> g < b - a.

(** Entry i of [late] is entry i + k of [l], up to [e]. *)
Definition lagging (k : nat) (e : R) (late l : list R) : Prop :=
  forall i x y, nth_error late i = Some x -> nth_error l (i + k) = Some y -> Rabs (x - y) <= e.
