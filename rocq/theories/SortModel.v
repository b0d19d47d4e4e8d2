(** Spatial sorting (trajectopy_core/sorting.py) and Trajectory.sort_spatially. *)
From Verif Require Import Base NumpyModel TrajModel.

(** ** External code *)
Record sort_env := mkSortEnv {
  (** approximation/mls_approximation.py [mls_iterative] with the settings of the caller *)
  mls : list V3 -> list V3;
  (** [mtri.Triangulation(x, y).edges]; raises for unsuitable point sets *)
  triangulation : list V3 -> result (list (nat * nat));
  (** [nx.minimum_spanning_tree] of the weighted edges *)
  spanning_tree : list V3 -> list (nat * nat) -> list (nat * nat);
  (** [root] followed by the targets of [nx.bfs_edges] (sorting.py:280-291) *)
  bfs : list (nat * nat) -> nat -> list nat;
  (** indices returned by [KDTree(xyz_sorted).query(point, k=2)] *)
  two_nearest : list V3 -> V3 -> nat * nat;
  (** [np.arctan2(y, x)] *)
  angle : V3 -> R;
  (** [np.argsort] *)
  np_argsort : list R -> list nat
}.

Definition endpoint (v : nat) (e : nat * nat) : bool := (fst e =? v)%nat || (snd e =? v)%nat.
Definition degree (edges : list (nat * nat)) (v : nat) : nat := length (filter (endpoint v) edges).

(** Python's [idx.index(begin)] *)
Fixpoint index_of (v : nat) (l : list nat) : result nat :=
  match l with
  | [] => Err ValueError
  | a :: r => if (a =? v)%nat then Ok O else rmap S (index_of v r)
  end.

(** sorting.py:221-236 [_begin_with] *)
Definition begin_with (idx : list nat) (begin : nat) : result (list nat) :=
  let! idx_start := index_of begin idx in
  Ok (skipn idx_start idx ++ firstn idx_start idx).

(** Python's [list.insert(i, x)] for i >= 0 *)
Definition py_insert {A} (i : nat) (x : A) (l : list A) : list A := firstn i l ++ x :: skipn i l.

(** Python's [sorted] on a list of integers *)
Fixpoint insert_sorted (a : nat) (l : list nat) : list nat :=
  match l with
  | [] => [a]
  | b :: r => if (a <=? b)%nat then a :: l else b :: insert_sorted a r
  end.
Definition py_sorted (l : list nat) : list nat := fold_right insert_sorted [] l.

(** [np.argmax(xyz[:, 2])]: the first maximum; ValueError for no points *)
Fixpoint argmax_from (i best : nat) (m : R) (l : list R) : nat :=
  match l with
  | [] => best
  | x :: r => if Rltb m x then argmax_from (S i) i x r else argmax_from (S i) best m r
  end.
Definition argmax (l : list R) : result nat :=
  match l with [] => Err ValueError | x :: r => Ok (argmax_from 1 O x r) end.

Section Sort.
  Variable env : sort_env.

  (** sorting.py:108-161 [_insert_point] *)
  Definition insert_point (m : nat) (p : V3) (acc : list nat * list V3) : list nat * list V3 :=
    let (idx_sort, xyz_sorted) := acc in
    let (i, j) := two_nearest env xyz_sorted p in
    let min_idx := Nat.min i j in
    let max_idx := Nat.max i j in
    let idx_diff := (max_idx - min_idx)%nat in
    let at_ := if (idx_diff =? 1)%nat then (min_idx + 1)%nat else (min_idx + idx_diff / 2)%nat in
    (py_insert at_ m idx_sort, py_insert at_ p xyz_sorted).

  (** sorting.py:239-277 [_compute_mst]: spanning tree and the indices without an edge *)
  Definition compute_mst (pts : list V3) : result (list (nat * nat) * list nat) :=
    let! edges := triangulation env pts in
    let missing := filter (fun v => negb (existsb (endpoint v) edges)) (seq 0 (length pts)) in
    Ok (spanning_tree env pts edges, missing).

  Definition last_of (l : list nat) : result nat := match rev l with [] => Err IndexError | a :: _ => Ok a end.

  (** sorting.py:164-218 [_mst_sorting].  The length of the path between the end nodes is only logged
      and is dropped. *)
  Definition mst_sorting (pts : list V3) : result (list nat * list nat) :=
    let! tm := compute_mst pts in
    let (mst, missing) := tm in
    let d1_nodes := filter (fun v => (degree mst v =? 1)%nat) (seq 0 (length pts)) in
    let! root :=
      match d1_nodes with
      | [a; b] => Ok a
      | [] => Err IndexError
      | a :: _ =>
          let! far := last_of (bfs env mst a) in
          last_of (bfs env mst far)
      end in
    Ok (bfs env mst root, missing).

  (** sorting.py:294-311 [detect_direction] *)
  Definition detect_direction (pts : list V3) : Z :=
    let d := np_diff (map (angle env) pts) in
    let pos := length (filter (fun x => Rltb 0 x) d) in
    let neg := length (filter (fun x => Rltb x 0) d) in
    Z.sgn (Z.of_nat pos - Z.of_nat neg).

  (** sorting.py:57-79 [sort] *)
  Definition sort (pts : list V3) (discard_missing : bool) : result (list nat) :=
    let! sm := mst_sorting pts in
    let (idx_sort, missing) := sm in
    let! idx1 :=
      if negb (length missing =? 0)%nat && negb discard_missing then
        let! missing_points := np_take pts (map Z.of_nat missing) in
        let! xyz_sorted := np_take pts (map Z.of_nat idx_sort) in
        Ok (fst (fold_left (fun acc mp => insert_point (fst mp) (snd mp) acc)
                           (combine missing missing_points) (idx_sort, xyz_sorted)))
      else Ok idx_sort in
    let! begin := argmax (map vz pts) in
    let! idx2 := begin_with idx1 begin in
    let! xyz_sorted := np_take pts (map Z.of_nat idx2) in
    if (detect_direction xyz_sorted =? detect_direction pts)%Z then Ok idx2 else Ok (rev idx2).

  (** sorting.py:29-54 [sort_mls] *)
  Definition sort_mls (pts : list V3) (discard_missing : bool) : result (list nat * list R) :=
    let mls_unsorted := mls env pts in
    let! sort_index := sort mls_unsorted discard_missing in
    let! mls_sorted := np_take mls_unsorted (map Z.of_nat sort_index) in
    Ok (sort_index, lengths_from_xyz mls_sorted).

  (** trajectory.py:694-713 [sort_spatially] *)
  Definition sort_spatially {Q} (t : traj Q) (discard_missing : bool) : result (traj Q) :=
    let! r := sort_mls (xyz t) discard_missing in
    let (sort_idx, arc_lengths) := r in
    let arg_sort_sort_idx := np_argsort env (map INR sort_idx) in
    let! t1 := apply_index t (IInt (map Z.of_nat (py_sorted sort_idx))) in
    let! al := np_take arc_lengths (map Z.of_nat arg_sort_sort_idx) in
    Ok (set_srt SortArc (set_arc al t1)).
End Sort.
