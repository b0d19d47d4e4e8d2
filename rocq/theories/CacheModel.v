(** Moving least squares with its cache of lines: approximation/mls_approximation.py:22-103.  The cache of
    [functools.lru_cache(maxsize=None)] belongs to the process; its keys are a Voxelizer, compared by identity, and a frozenset. *)
From Verif Require Import Base NumpyModel GeomModel MatchModel ApproxModel VoxModel.

(** The Voxelizers in memory by their addresses, and what the cache holds: address and names of a call and the line returned *)
Record process := mkProcess { objects : list (nat * voxel_dict); entries : list (nat * list string * option line3d) }.

(** [a == b] of frozensets *)
Definition same_set (a b : list string) : bool :=
  forallb (fun x => existsb (String.eqb x) b) a && forallb (fun x => existsb (String.eqb x) a) b.

(** The entry of the cache for a call *)
Definition cached (st : process) (a : nat) (voxel_set : list string) : option (option line3d) :=
  option_map snd (find (fun e => ((fst (fst e) =? a)%nat && same_set (snd (fst e)) voxel_set)) (entries st)).

(** The object at an address; every reference points to an object in memory *)
Definition deref (st : process) (a : nat) : result voxel_dict :=
  match find (fun o => (fst o =? a)%nat) (objects st) with Some o => Ok (snd o) | None => Err AttributeError end.

(** The Voxelizer goes out of scope: its memory is free unless the cache refers to it. *)
Definition release (a : nat) (st : process) : process :=
  mkProcess (filter (fun o => negb (fst o =? a)%nat || existsb (fun e => (fst (fst e) =? a)%nat) (entries st)) (objects st)) (entries st).

Section Cache.
  Variable query : list V3 -> option R -> nat -> V3 -> list (option (nat * R)).
  Variable eigh : M3 -> V3.
  (** The address of a new object, given those in use *)
  Variable fresh : list nat -> nat.
  (** The order in which a frozenset is iterated over *)
  Variable iterate : list string -> list string.

  (** mls_approximation.py:102-103 *)
  Definition line_of_points (points : list V3) : option line3d :=
    if (1 <? length points)%nat then Some (from_points eigh points) else None.

  (** mls_approximation.py:86-103 [cached_line_approximator]; a call that raises is not stored *)
  Definition cached_line_approximator (a : nat) (voxel_set : list string) (st : process) : process * result (option line3d) :=
    match cached st a voxel_set with
    | Some l => (st, Ok l)
    | None =>
        match (let! vs := deref st a in points_from_voxel_set vs (iterate voxel_set)) with
        | Ok points => let l := line_of_points points in (mkProcess (objects st) ((a, voxel_set, l) :: entries st), Ok l)
        | Err e => (st, Err e)
        end
    end.

  (** voxelizer.py:117-131 [k_nearest_query] for one position; for k = 1 scipy returns a plain index that cannot be iterated
      over, and a missing neighbour has the index one behind the last voxel *)
  Definition neighbour_set (vs : voxel_dict) (k : nat) (p : V3) : result (list string) :=
    if (k =? 1)%nat then Err TypeError
    else mapM (fun n => match n with Some (j, _) => index_to_id vs j | None => Err IndexError end) (query (mean_points vs) None k p).

  (** mls_approximation.py:78-80 *)
  Fixpoint smooth_all (a : nat) (rows : list (V3 * list string)) (st : process) : process * result (list V3) :=
    match rows with
    | [] => (st, Ok [])
    | (p, voxel_set) :: rows =>
        match cached_line_approximator a voxel_set st with
        | (st, Err e) => (st, Err e)
        | (st, Ok line) =>
            let q := match line with Some l => evaluate_at l p | None => p end in
            let (st, r) := smooth_all a rows st in (st, rmap (cons q) r)
        end
    end.

  (** mls_approximation.py:62-83 [mls_single] *)
  Definition mls_single_cached (pts : list V3) (voxel_size : R) (k : nat) (st : process) : process * result (list V3 * R) :=
    match create_voxels pts voxel_size with
    | Err e => (st, Err e)
    | Ok vs =>
        let a := fresh (map fst (objects st)) in
        let st := mkProcess ((a, vs) :: objects st) (entries st) in
        match mapM (neighbour_set vs k) pts with
        | Err e => (release a st, Err e)
        | Ok sets =>
            let (st, r) := smooth_all a (combine pts sets) st in
            (release a st, rmap (fun out => (out, np_sum (map (fun pq => vnorm (vsub (fst pq) (snd pq))) (combine pts out)) / INR (length pts))) r)
        end
    end.

  (** mls_approximation.py:22-59 [mls_iterative]; [n] is the number of iterations left. *)
  Fixpoint mls_loop_cached (n : nat) (pts : list V3) (voxel_size : R) (k : nat) (movement_threshold : R) (st : process) : process * result (list V3) :=
    match n with
    | O => (st, Ok pts)
    | S n' =>
        match mls_single_cached pts voxel_size k st with
        | (st, Err e) => (st, Err e)
        | (st, Ok (pts', movement)) =>
            if Rltb movement_threshold movement then mls_loop_cached n' pts' voxel_size k movement_threshold st else (st, Ok pts')
        end
    end.
  Definition mls_iterative_cached (pts : list V3) (voxel_size : R) (k : nat) (movement_threshold : R) (st : process) : process * result (list V3) :=
    mls_loop_cached 10 pts voxel_size k movement_threshold st.

  (** The arguments of a call *)
  Record smoothing_call := mkCall { c_points : list V3; c_size : R; c_nearest : nat; c_threshold : R }.

  (** Several calls in one process, and what each of them returned or raised *)
  Fixpoint smoothing_calls (calls : list smoothing_call) (st : process) : process * list (result (list V3)) :=
    match calls with
    | [] => (st, [])
    | c :: calls =>
        let (st, r) := mls_iterative_cached (c_points c) (c_size c) (c_nearest c) (c_threshold c) st in
        let (st, rs) := smoothing_calls calls st in (st, r :: rs)
    end.
End Cache.
