(** Common vocabulary of the model: results with exceptions, boolean comparisons
    on reals, 3D vectors.  No Python code is modelled here. *)
From Coq Require Export String List Arith ZArith Reals Lra Lia Bool Permutation Sorted.
Export ListNotations.
Open Scope R_scope.

(** Python exceptions that can surface in the modelled functions. *)
Inductive err :=
| IndexError | ValueError | KeyError | TypeError | AttributeError
| UnboundLocalError | ZeroDivisionError | AssertionError | AlignmentParametersError.

(** A Python call either returns a value or raises. *)
Inductive result (A : Type) := Ok (a : A) | Err (e : err).
Arguments Ok {A} a.
Arguments Err {A} e.

Definition bind {A B} (r : result A) (f : A -> result B) : result B :=
  match r with Ok a => f a | Err e => Err e end.
Notation "'let!' x ':=' r 'in' k" := (bind r (fun x => k))
  (at level 200, x pattern, r at level 100, k at level 200).

Definition rmap {A B} (f : A -> B) (r : result A) : result B :=
  match r with Ok a => Ok (f a) | Err e => Err e end.

(** Map that stops at the first exception (a Python comprehension). *)
Fixpoint mapM {A B} (f : A -> result B) (l : list A) : result (list B) :=
  match l with
  | [] => Ok []
  | a :: r => let! b := f a in let! bs := mapM f r in Ok (b :: bs)
  end.

(** Boolean comparisons of reals (the idealisation of float comparisons). *)
Definition Rleb (x y : R) : bool := if Rle_dec x y then true else false.
Definition Rltb (x y : R) : bool := if Rlt_dec x y then true else false.
Definition Reqb (x y : R) : bool := if Req_EM_T x y then true else false.

(** Sign function of numpy. *)
Definition Rsign (x : R) : R := if Rlt_dec 0 x then 1 else if Rlt_dec x 0 then -1 else 0.

(** A point or vector in R^3. *)
Record V3 := mkV3 { vx : R; vy : R; vz : R }.

Definition vadd (a b : V3) : V3 := mkV3 (vx a + vx b) (vy a + vy b) (vz a + vz b).
Definition vsub (a b : V3) : V3 := mkV3 (vx a - vx b) (vy a - vy b) (vz a - vz b).
Definition vscale (s : R) (a : V3) : V3 := mkV3 (s * vx a) (s * vy a) (s * vz a).
Definition vdot (a b : V3) : R := vx a * vx b + vy a * vy b + vz a * vz b.
Definition vzero : V3 := mkV3 0 0 0.
Definition vnorm (a : V3) : R := sqrt (vdot a a).
Definition vdist (a b : V3) : R := vnorm (vsub a b).

(** Enumeration [0; 1; ...] zipped with a list. *)
Definition enumerate {A} (l : list A) : list (nat * A) := combine (seq 0 (length l)) l.
