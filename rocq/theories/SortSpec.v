(** Vocabulary of the spatial sorting properties. *)
From Verif Require Import Base NumpyModel TrajModel TrajSpec SortModel.

(** [tree V E]: the edges [E] form a tree on the vertices [V] (every finite tree arises by adding
    leaves to a single vertex). *)
Inductive tree : list nat -> list (nat * nat) -> Prop :=
| tree_one v : tree [v] []
| tree_leaf V E V' E' u v : tree V E -> In u V -> ~ In v V ->
    Permutation V' (v :: V) -> (Permutation E' ((u, v) :: E) \/ Permutation E' ((v, u) :: E)) -> tree V' E'.

(** [v] can be reached from [u] along edges, in either direction. *)
Inductive reachable (E : list (nat * nat)) (u : nat) : nat -> Prop :=
| reach_refl : reachable E u u
| reach_step v w : reachable E u v -> (In (v, w) E \/ In (w, v) E) -> reachable E u w.

(** Breadth-first search visits every reachable vertex once and starts at the root. *)
Definition bfs_contract (search : list (nat * nat) -> nat -> list nat) (E : list (nat * nat)) : Prop :=
  forall root, NoDup (search E root) /\ (forall v, In v (search E root) <-> reachable E root v).

(** The triangulation of [pts] yields edges between points, at least one between different points, and the spanning tree is a
    tree on the points that have an edge. *)
Definition mst_contract (env : sort_env) (pts : list V3) : Prop :=
  exists edges V, triangulation env pts = Ok edges /\ (exists a b, In (a, b) edges /\ a <> b) /\
    (forall v, In v V <-> exists e, In e edges /\ (fst e = v \/ snd e = v)) /\
    (forall v, In v V -> (v < length pts)%nat) /\
    tree V (spanning_tree env pts edges) /\
    bfs_contract (bfs env) (spanning_tree env pts edges).

(** The point has an edge in the triangulation. *)
Definition triangulated (env : sort_env) (pts : list V3) (v : nat) : Prop :=
  exists edges e, triangulation env pts = Ok edges /\ In e edges /\ (fst e = v \/ snd e = v).

(** [i] is the first point of maximal height. *)
Definition highest (pts : list V3) (i : nat) : Prop :=
  exists p, nth_error pts i = Some p /\ (forall q, In q pts -> vz q <= vz p) /\
    (forall j q, (j < i)%nat -> nth_error pts j = Some q -> vz q < vz p).

(** [idx] is the path, started at [v], or the reverse of that. *)
Definition started_at (v : nat) (path idx : list nat) : Prop :=
  exists a b, path = a ++ v :: b /\ (idx = v :: b ++ a \/ idx = rev (v :: b ++ a)).

(** A pose with another arc length. *)
Definition with_arc {Q} (l : R) (p : pose Q) : pose Q := mkPose (p_t p) (p_xyz p) (p_rot p) l (p_speed p).
