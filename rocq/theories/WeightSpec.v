(** Vocabulary of C168: what weights stand for. *)
From Verif Require Import Base NumpyModel TrajModel GeomModel.

(** The weighted total of any quantity [g] of the pairs. *)
Fixpoint total (g : V3 -> V3 -> R) (w : list R) (from to : list V3) : R :=
  match w, from, to with
  | x :: w', p :: from', q :: to' => x * g p q + total g w' from' to'
  | _, _, _ => 0
  end.

(** The entries of [l] whose weight is not zero. *)
Fixpoint kept_by {A} (w : list R) (l : list A) : list A :=
  match w, l with
  | x :: w', a :: l' => if Reqb x 0 then kept_by w' l' else a :: kept_by w' l'
  | _, _ => []
  end.
