(** Vocabulary of C162: approximation in another frame. *)
From Verif Require Import Base NumpyModel GeomModel LsqModel.

(** A solver of linear systems that fails or not depending on the matrix only *)
Definition matrix_decides (solve : mat -> vec -> result vec) : Prop :=
  forall N b b' x, length b = length b' -> solve N b = Ok x -> exists x', solve N b' = Ok x'.

(** A position in other axes: any matrix (rotation, scale, mirror image, shear) and any shift *)
Definition reframed (M : M3) (t p : V3) : V3 := vadd t (mapply M p).

(** Sum of the squared distances between positions of the same index *)
Definition apart_squared (a b : list V3) : R := np_sum (map (fun p => vdist (fst p) (snd p) ^ 2) (combine a b)).
