(** Least squares adjustment (trajectopy_core/utils.py, with the identical copy in trajectopy_core/alignment/utils.py).

    A matrix is the list of its rows.  numpy's dimension checks become one test of the shapes. *)
From Verif Require Import Base.

Notation vec := (list R).
Notation mat := (list (list R)).

(** Scalar product, sums and multiples of vectors of the same length *)
Fixpoint dot (u v : vec) : R :=
  match u, v with x :: u', y :: v' => x * y + dot u' v' | _, _ => 0 end.
Fixpoint vplus (u v : vec) : vec :=
  match u, v with x :: u', y :: v' => (x + y) :: vplus u' v' | _, _ => [] end.
Fixpoint vminus (u v : vec) : vec :=
  match u, v with x :: u', y :: v' => (x - y) :: vminus u' v' | _, _ => [] end.
Definition vtimes (s : R) (u : vec) : vec := map (fun x => s * x) u.

(** Matrix times vector, transpose (of a matrix with [n] columns), product of two matrices (the second with [n] columns) *)
Definition mv (A : mat) (x : vec) : vec := map (fun r => dot r x) A.
Definition column_of (A : mat) (j : nat) : vec := map (fun r => nth j r 0) A.
Definition transpose (n : nat) (A : mat) : mat := map (column_of A) (seq 0 n).
Definition mm (n : nat) (A B : mat) : mat := map (fun r => map (fun c => dot r c) (transpose n B)) A.

(** Shape test: [m] rows with [n] entries each *)
Definition shaped (m n : nat) (A : mat) : bool := (length A =? m)%nat && forallb (fun r => (length r =? n)%nat) A.

(** [spdiags(w, 0, len(w), len(w))] and [identity(len(w))] *)
Definition diagonal (w : vec) : mat :=
  map (fun p => map (fun j => if (j =? fst p)%nat then snd p else 0) (seq 0 (length w))) (enumerate w).

Section Lsq.
  (** [np.linalg.solve] / [scipy.sparse.linalg.spsolve]: ValueError stands for LinAlgError, and for the not-a-number
      solution scipy returns for a singular matrix. *)
  Variable solve : mat -> vec -> result vec.

  (** utils.py:271-304 [least_squares] (identical: alignment/utils.py:10-43) for a design matrix with [n] columns;
      an empty [sigma_ll] stands for the identity matrix. *)
  Definition least_squares (n : nat) (A : mat) (obs : vec) (sigma : mat) : result (vec * vec * vec) :=
    let m := length obs in
    let P := match sigma with [] => diagonal (repeat 1 m) | _ => sigma end in
    if shaped m n A && shaped m m P then
      let AtP := mm m (transpose n A) P in
      let! x := solve (mm n AtP A) (mv AtP obs) in
      let l := mv A x in
      Ok (x, l, vminus l obs)
    else Err ValueError.

  (** utils.py:246-268 [sparse_least_squares] *)
  Definition sparse_least_squares (n : nat) (A : mat) (obs : vec) : result (vec * vec * vec) :=
    if shaped (length obs) n A then
      let! x := solve (mm n (transpose n A) A) (mv (transpose n A) obs) in
      let l := mv A x in
      Ok (x, l, vminus l obs)
    else Err ValueError.

  (** utils.py:218-243 [fit_line_2d].  No weights stands for an empty array. *)
  Definition fit_line_2d (x y weights : vec) : result (vec * vec * vec) :=
    let A := map (fun a => [a; 1]) x in
    let w := match weights with [] => repeat 1 (length y) | _ => weights end in
    least_squares 2 A y (diagonal w).
End Lsq.
