(** Vocabulary of the least squares properties. *)
From Verif Require Import Base LsqModel.

(** Contract of the linear solvers: a returned solution solves the system (they may also raise). *)
Definition solve_contract (solve : mat -> vec -> result vec) : Prop :=
  forall N b x, solve N b = Ok x -> length x = length b /\ mv N x = b.

(** Sum of squares, weighted with a matrix *)
Definition weighted_square (P : mat) (v : vec) : R := dot v (mv P v).
Definition sum_square (v : vec) : R := dot v v.

(** A symmetric matrix without negative directions *)
Definition weight_matrix (m : nat) (P : mat) : Prop :=
  length P = m /\ Forall (fun r => length r = m) P /\
  (forall u v, length u = m -> length v = m -> dot u (mv P v) = dot v (mv P u)) /\
  (forall u, length u = m -> 0 <= weighted_square P u).

(** Weighted sum of squared vertical distances of the points (x_i, y_i) to the line y = a x + b *)
Fixpoint line_error (x y w : vec) (a b : R) : R :=
  match x, y, w with
  | xi :: x', yi :: y', wi :: w' => wi * (a * xi + b - yi) ^ 2 + line_error x' y' w' a b
  | _, _, _ => 0
  end.
