(** Vocabulary of the properties of the smoothing of deviations. *)
From Verif Require Import Base NumpyModel.

(** The data from position [i - w/2] up to and including position [i + (w-1)/2], as far as they exist *)
Definition window (w : nat) (data : list R) (i : nat) : list R := skipn (i + (w - 1) / 2 + 1 - w) (firstn (i + (w - 1) / 2 + 1) data).
(** All [w] positions exist. *)
Definition interior (w n i : nat) : Prop := (w / 2 <= i /\ i + (w - 1) / 2 < n)%nat.
Definition mean_of (l : list R) : R := fold_right Rplus 0 l / INR (length l).

(** [f], [d] are the entries of [l], [s] at the positions [idx]. *)
Definition entries_at {A B} (l : list A) (s : list B) (idx : list nat) (f : list A) (d : list B) : Prop :=
  forall p, nth_error f p = match nth_error idx p with Some i => nth_error l i | None => None end /\
            nth_error d p = match nth_error idx p with Some i => nth_error s i | None => None end.
