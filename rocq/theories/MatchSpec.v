(** Vocabulary of the matching properties. *)
From Verif Require Import Base NumpyModel TrajModel TrajSpec GeomModel MatchModel.

(** Contract of a KD tree query for k neighbours under the distance [dist]: k rows; rows with a hit
    name distinct entries closer than the bound with their distance; an entry closer than the bound
    that is not named is no closer than any of the k named ones. *)
Definition within (ub : option R) (d : R) : Prop := match ub with Some m => d < m | None => True end.
Definition valid_bound (ub : option R) : Prop := match ub with Some m => 0 < m | None => True end.

Record knn_contract {P} (dist : P -> P -> R) (query : list P -> option R -> nat -> P -> list (option (nat * R))) : Prop := {
  knn_length : forall ref ub k p, valid_bound ub -> length (query ref ub k p) = k;
  knn_sound : forall ref ub k p i d, valid_bound ub -> In (Some (i, d)) (query ref ub k p) ->
    exists r, nth_error ref i = Some r /\ d = dist r p /\ within ub d;
  knn_distinct : forall ref ub k p a b i d e, valid_bound ub ->
    nth_error (query ref ub k p) a = Some (Some (i, d)) -> nth_error (query ref ub k p) b = Some (Some (i, e)) -> a = b;
  knn_nearest : forall ref ub k p i r, valid_bound ub ->
    nth_error ref i = Some r -> within ub (dist r p) -> (forall d, ~ In (Some (i, d)) (query ref ub k p)) ->
    forall row, In row (query ref ub k p) -> exists j d, row = Some (j, d) /\ d <= dist r p
}.

(** Euclidean distance in the plane. *)
Definition dist2 (a b : R * R) : R := sqrt ((fst a - fst b) * (fst a - fst b) + (snd a - snd b) * (snd a - snd b)).

(** Entry [j] of [ref] is a nearest one of [p], and closer than [max] unless [max] is 0. *)
Definition nearest {P} (dist : P -> P -> R) (ref : list P) (max : R) (p : P) (j : nat) : Prop :=
  exists r, nth_error ref j = Some r /\ (forall r', In r' ref -> dist r p <= dist r' p) /\ (max <> 0 -> dist r p < max).

(** The nearest entry the KD tree reports for [p] (ties are broken by the tree). *)
Definition reported {P} (query : list P -> option R -> nat -> P -> list (option (nat * R)))
    (ref : list P) (max : R) (p : P) (j : nat) : Prop :=
  exists d, query1 query ref (bound max) p = Some (j, d).

(** [js] and [is] pair reference entries with test entries: same length, at least one pair, reference
    indices ascending (so none is used twice); the test entry of a pair is the first one whose
    reported nearest reference entry is the one of the pair; every reported reference entry occurs. *)
Definition pairing {P} (dist : P -> P -> R) query (ref test : list P) (max : R) (js is : list nat) : Prop :=
  length js = length is /\ js <> [] /\ StronglySorted lt js /\
  (forall m i j, nth_error is m = Some i -> nth_error js m = Some j ->
     exists p, nth_error test i = Some p /\ nearest dist ref max p j /\ reported query ref max p j /\
       (forall i' p', (i' < i)%nat -> nth_error test i' = Some p' -> ~ reported query ref max p' j)) /\
  (forall p j, In p test -> reported query ref max p j -> In j js).

(** The poses of [t'] are the poses of [t] at the given indices. *)
Definition selected {Q} (t : traj Q) (idx : list nat) (t' : traj Q) : Prop :=
  consistent t' /\ same_meta t t' /\ tlen t' = length idx /\
  (forall m i, nth_error idx m = Some i -> pose_at t' m = pose_at t i /\ pose_at t i <> None).

(** [d] is a unit vector that maximises the quadratic form of [C]: an eigenvector of the largest
    eigenvalue, if [C] is symmetric. *)
Definition top_direction (C : M3) (d : V3) : Prop :=
  vdot d d = 1 /\ forall u, vdot u u = 1 -> vdot u (mapply C u) <= vdot d (mapply C d).

(** Points of the line. *)
Definition on_line (l : line3d) (q : V3) : Prop := exists s, q = vadd (l_mean l) (vscale s (l_dir l)).

(** Sum of squared distances between corresponding points. *)
Definition squared_distances (l : list (V3 * V3)) : R :=
  np_sum (map (fun pq => vdist (fst pq) (snd pq) * vdist (fst pq) (snd pq)) l).
