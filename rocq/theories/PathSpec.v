(** Vocabulary for the direction and the shape of spatially sorted tracks. *)
From Verif Require Import Base NumpyModel SortModel.

(** How often an angle grows and how often it shrinks from one point to the next *)
Fixpoint ups (f : V3 -> R) (l : list V3) : nat :=
  match l with a :: ((b :: _) as r) => ((if Rltb (f a) (f b) then 1 else 0) + ups f r)%nat | _ => 0%nat end.
Fixpoint downs (f : V3 -> R) (l : list V3) : nat :=
  match l with a :: ((b :: _) as r) => ((if Rltb (f b) (f a) then 1 else 0) + downs f r)%nat | _ => 0%nat end.
Definition anticlockwise f l : Prop := (downs f l < ups f l)%nat.
Definition clockwise f l : Prop := (ups f l < downs f l)%nat.

(** [a] is the polar angle of the point. *)
Definition polar (a : R) (p : V3) : Prop :=
  let n := sqrt (vx p * vx p + vy p * vy p) in - PI < a <= PI /\ vx p = n * cos a /\ vy p = n * sin a.

(** The edges of a path, without directions *)
Fixpoint links (path : list nat) : list (nat * nat) :=
  match path with a :: ((b :: _) as r) => (a, b) :: links r | _ => [] end.
Definition undirected (e : nat * nat) : nat * nat := (Nat.min (fst e) (snd e), Nat.max (fst e) (snd e)).
Definition is_path (path : list nat) (E : list (nat * nat)) : Prop := NoDup path /\ Permutation (map undirected E) (map undirected (links path)).

(** A search visits the root first, and then always a neighbour of a vertex visited before; it visits no vertex twice and leaves
    no neighbour of a visited vertex out. *)
Definition linked (E : list (nat * nat)) (u v : nat) : Prop := In (u, v) E \/ In (v, u) E.
Definition search_contract (search : list (nat * nat) -> nat -> list nat) (E : list (nat * nat)) : Prop :=
  forall root, exists rest, search E root = root :: rest /\ NoDup (root :: rest) /\
    (forall l v r, rest = l ++ v :: r -> exists u, In u (root :: l) /\ linked E u v) /\
    (forall u v, In u (root :: rest) -> linked E u v -> In v (root :: rest)).

(** The triangulation connects all points, and the spanning tree is the path. *)
Definition path_contract (env : sort_env) (pts : list V3) (path : list nat) : Prop :=
  exists edges, triangulation env pts = Ok edges /\ (forall v, (v < length pts)%nat -> exists e, In e edges /\ (fst e = v \/ snd e = v)) /\
    is_path path (spanning_tree env pts edges) /\ search_contract (bfs env) (spanning_tree env pts edges).
