(** The numpy / scipy primitives used by trajectopy-core, on lists.
    Nothing here is repository code: these are the documented contracts of the
    array primitives the repository calls. *)
From Verif Require Import Base.

(** ** Indexing *)

(** Position addressed by a Python index [z] in a sequence of length [n]:
    negative indices count from the end, anything else is out of range. *)
Definition py_index (n : nat) (z : Z) : option nat :=
  if (0 <=? z)%Z then (if (z <? Z.of_nat n)%Z then Some (Z.to_nat z) else None)
  else if (- Z.of_nat n <=? z)%Z then Some (Z.to_nat (z + Z.of_nat n)) else None.

(** [a[z]] *)
Definition np_get {A} (l : list A) (z : Z) : result A :=
  match py_index (length l) z with
  | Some k => match nth_error l k with Some a => Ok a | None => Err IndexError end
  | None => Err IndexError
  end.

(** [a[[z1, z2, ...]]] *)
Definition np_take {A} (l : list A) (idx : list Z) : result (list A) := mapM (np_get l) idx.

(** [a[[True, False, ...]]]: the mask must have the length of the array. *)
Definition np_mask {A} (l : list A) (m : list bool) : result (list A) :=
  if (length m =? length l)%nat then Ok (map fst (filter snd (combine l m))) else Err IndexError.

(** A fancy index: list of integers or list of booleans.  numpy reads the empty
    list as an empty integer index, whatever the length of the array. *)
Inductive index := IInt (i : list Z) | IMask (m : list bool).
Definition np_index {A} (l : list A) (ix : index) : result (list A) :=
  match ix with
  | IInt i => np_take l i
  | IMask [] => Ok []
  | IMask m => np_mask l m
  end.

(** ** Sorting *)

Fixpoint insert (x : R) (l : list R) : list R :=
  match l with
  | [] => [x]
  | y :: r => if Rleb x y then x :: l else y :: insert x r
  end.
(** [np.sort]: the sorted rearrangement of the values (unique, so any algorithm will do). *)
Definition np_sort (l : list R) : list R := fold_right insert [] l.

(** Contract of [np.argsort]: a permutation of the indices along which the keys do
    not decrease.  The order of equal keys is not specified (numpy's default
    introsort is unstable). *)
Definition is_argsort (keys : list R) (idx : list nat) : Prop :=
  Permutation idx (seq 0 (length keys)) /\
  (forall p q i j ki kj, (p < q)%nat ->
     nth_error idx p = Some i -> nth_error idx q = Some j ->
     nth_error keys i = Some ki -> nth_error keys j = Some kj -> ki <= kj).
Definition argsort_contract (argsort : list R -> list nat) : Prop :=
  forall keys, is_argsort keys (argsort keys).

Fixpoint insert_key (x : R * nat) (l : list (R * nat)) : list (R * nat) :=
  match l with
  | [] => [x]
  | y :: r => if Rleb (fst x) (fst y) then x :: l else y :: insert_key x r
  end.
(** One implementation of the contract: stable insertion sort. *)
Definition stable_argsort (keys : list R) : list nat :=
  map snd (fold_right insert_key [] (map (fun p => (snd p, fst p)) (enumerate keys))).

(** Number of elements satisfying a test. *)
Definition count {A} (p : A -> bool) (l : list A) : nat := length (filter p l).
(** [np.searchsorted(a, x, side="left")] / [side="right"] on a sorted array: the number
    of elements smaller than (not larger than) [x]. *)
Definition searchsorted_left (a : list R) (x : R) : nat := count (fun y => Rltb y x) a.
Definition searchsorted_right (a : list R) (x : R) : nat := count (fun y => Rleb y x) a.

(** [np.unique(a, return_index=True)]: the distinct values ascending, each with the index of
    its first occurrence. *)
Fixpoint insert_unique (x : R) (i : nat) (l : list (R * nat)) : list (R * nat) :=
  match l with
  | [] => [(x, i)]
  | (y, j) :: r =>
      if Rltb x y then (x, i) :: l
      else if Reqb x y then (x, i) :: r
      else (y, j) :: insert_unique x i r
  end.
Definition np_unique_index (l : list R) : list (R * nat) :=
  fold_right (fun p acc => insert_unique (snd p) (fst p) acc) [] (enumerate l).

(** First component of the index pair returned by
    [np.intersect1d(a, b, return_indices=True)]: for every value occurring in both
    arrays, ascending, the index of its first occurrence in [a].
    Simplification: numpy finds the common values by merging the two arrays of unique
    values; here membership of the value in [b] is tested directly. *)
Definition intersect1d_idx (a b : list R) : list nat :=
  map snd (filter (fun p => existsb (Reqb (fst p)) b) (np_unique_index a)).

(** ** Arithmetic on arrays *)

(** Consecutive pairs [(a0,a1); (a1,a2); ...] *)
Definition pairs {A} (l : list A) : list (A * A) := combine l (tl l).
(** [np.diff] *)
Definition np_diff (l : list R) : list R := map (fun p => snd p - fst p) (pairs l).
(** [np.cumsum] started from an accumulator. *)
Fixpoint cumsum_from (acc : R) (l : list R) : list R :=
  match l with [] => [] | x :: r => (acc + x) :: cumsum_from (acc + x) r end.
Definition np_cumsum (l : list R) : list R := cumsum_from 0 l.
Definition np_sum (l : list R) : R := fold_right Rplus 0 l.

(** [np.interp] for one query point: [pts] are the (sample, value) pairs.  The last sample not
    larger than [x] decides the segment; queries before the first / after the last sample
    return the first / last value.  *)
Fixpoint interp_at (pts : list (R * R)) (x : R) : R :=
  match pts with
  | [] => 0
  | (t, v) :: rest =>
      match rest with
      | [] => v
      | (t', v') :: _ =>
          if Rltb x t' then (if Rleb x t then v else (v' - v) / (t' - t) * (x - t) + v)
          else interp_at rest x
      end
  end.
(** [np.interp(x, xp, fp)]: ValueError for no sample points or different lengths. *)
Definition np_interp (x xp fp : list R) : result (list R) :=
  if (length xp =? 0)%nat then Err ValueError
  else if negb (length xp =? length fp)%nat then Err ValueError
  else Ok (map (interp_at (combine xp fp)) x).

(** [np.arange(start, stop, step)] for step <> 0: ceil((stop-start)/step) values. *)
Definition Rceil (x : R) : Z := (- (up (- x) - 1))%Z.
Definition np_arange (start stop step : R) : list R :=
  map (fun k => start + INR k * step) (seq 0 (Z.to_nat (Rceil ((stop - start) / step)))).

(** ** scipy Slerp *)
Section Slerp.
  Context {Q : Type}.
  (** Interpolation between two rotations at the fraction given last. *)
  Variable slerp_seg : Q -> Q -> R -> Q.

  Fixpoint slerp_at (pts : list (R * Q)) (x : R) : result Q :=
    match pts with
    | (t, v) :: rest =>
        match rest with
        | [] => Err ValueError
        | (t', v') :: _ =>
            if Rltb x t then Err ValueError
            else if Rleb x t' then Ok (slerp_seg v v' ((x - t) / (t' - t)))
            else slerp_at rest x
        end
    | [] => Err ValueError
    end.

  (** [Slerp(times, rotations)(x)]: needs at least two rotations, equal lengths, strictly
      increasing times and queries inside the time range, else ValueError. *)
  Definition slerp (times : list R) (rots : list Q) (x : list R) : result (list Q) :=
    if (length rots <=? 1)%nat then Err ValueError
    else if negb (length times =? length rots)%nat then Err ValueError
    else if negb (forallb (fun p => Rltb (fst p) (snd p)) (pairs times)) then Err ValueError
    else mapM (slerp_at (combine times rots)) x.
End Slerp.
