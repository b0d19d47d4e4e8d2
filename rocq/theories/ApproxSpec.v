(** Vocabulary of the smoothing properties. *)
From Verif Require Import Base NumpyModel LsqModel GeomModel MatchModel MatchSpec ApproxModel.

(** The elements of [l] whose index satisfies [P], in order *)
Definition at_indices {A} (P : nat -> bool) (l : list A) : list A :=
  map snd (filter (fun jx => P (fst jx)) (enumerate l)).
(** The centred window around [i]: at most [ext] positions before or after *)
Definition centred (i ext j : nat) : bool := ((i <=? j + ext) && (j <=? i + ext))%nat.

(** [x] lies in cell [k] of the grid with origin [lo]: above the (k-1)-th and not above the k-th grid line *)
Definition in_cell (lo size x : R) (k : nat) : Prop := lo + (INR k - 1) * size < x <= lo + INR k * size.
(** The point [p] lies in the cell with the three coordinates [b]. *)
Definition in_cell3 (lo : V3) (size : R) (p : V3) (b : nat * nat * nat) : Prop :=
  in_cell (vx lo) size (vx p) (fst (fst b)) /\ in_cell (vy lo) size (vy p) (snd (fst b)) /\ in_cell (vz lo) size (vz p) (snd b).
(** The corner of the bounding box with the smallest coordinates *)
Definition lower_corner (pts : list V3) (lo : V3) : Prop :=
  (forall p, In p pts -> vx lo <= vx p /\ vy lo <= vy p /\ vz lo <= vz p) /\
  (exists p, In p pts /\ vx p = vx lo) /\ (exists p, In p pts /\ vy p = vy lo) /\ (exists p, In p pts /\ vz p = vz lo).
(** [p] and [q] are in the same voxel. *)
Definition share_voxel (vs : voxel_dict) (p q : V3) : Prop := exists id ps, In (id, ps) vs /\ In p ps /\ In q ps.

(** The polynomial a + b t + c t^2 + d t^3 *)
Definition cubic_poly (a b c d t : R) : R := a + b * t + c * t ^ 2 + d * t ^ 3.

(** [nb] is the union of [k] different voxels, and no other voxel is closer to [p] than one of them (distances are those of
    the mean points). *)
Definition nearest_voxels (vs : voxel_dict) (k : nat) (p : V3) (nb : list V3) : Prop :=
  exists js : list nat, length js = k /\ NoDup js /\
    nb = concat (map (fun j => match nth_error vs j with Some v => snd v | None => [] end) js) /\
    (forall j, In j js -> exists v, nth_error vs j = Some v) /\
    (forall j i v w, In j js -> ~ In i js -> nth_error vs j = Some v -> nth_error vs i = Some w ->
       vdist (vmean (snd v)) p <= vdist (vmean (snd w)) p).
(** [q] is [p] projected on the line of [nb], or [p] itself if [nb] has fewer than two points. *)
Definition smoothed (eigh : M3 -> V3) (nb : list V3) (p q : V3) : Prop :=
  ((length nb < 2)%nat /\ q = p) \/ ((2 <= length nb)%nat /\ q = evaluate_at (from_points eigh nb) p).
(** One iteration moves every point of [pts] to the corresponding one of [out]. *)
Definition smoothing_step (eigh : M3 -> V3) (size : R) (k : nat) (pts out : list V3) : Prop :=
  exists vs, create_voxels pts size = Ok vs /\
    Forall2 (fun p q => exists nb, nearest_voxels vs k p nb /\ smoothed eigh nb p q) pts out.
(** Average movement of the points *)
Definition average_distance (pts out : list V3) : R :=
  np_sum (map (fun pq => vdist (fst pq) (snd pq)) (combine pts out)) / INR (length pts).
(** [m] iterations lead from [pts] to [out]; all but the last one moved the points by more than [threshold] on average. *)
Inductive smoothing_run (step : list V3 -> list V3 -> Prop) (threshold : R) : nat -> list V3 -> list V3 -> Prop :=
| run_one pts out : step pts out -> smoothing_run step threshold 1 pts out
| run_more m pts mid out : step pts mid -> threshold < average_distance pts mid ->
    smoothing_run step threshold m mid out -> smoothing_run step threshold (S m) pts out.

(** The cubic with values [f0], [f1] and slopes [d0], [d1] at [a] and [b] *)
Definition hermite (a b f0 d0 f1 d1 x : R) : R :=
  let h := b - a in
  let t := (x - a) / h in
  f0 * (1 - t) ^ 2 * (1 + 2 * t) + d0 * h * t * (1 - t) ^ 2 + f1 * t ^ 2 * (3 - 2 * t) - d1 * h * t ^ 2 * (1 - t).

(** An interval of the approximation: the observations in it and the position its cubic starts from.  It ends with its last
    observation. *)
Record piece := mkPiece { p_start : R; p_obs : list R }.
Definition p_first (p : piece) : R := hd 0 (p_obs p).
Definition p_last (p : piece) : R := last (p_obs p) 0.

(** A list of observations that is closed as an interval: it has [min_obs] observations and spans [size], and it did not
    before its last observation. *)
Definition closed_at (size : R) (min_obs : nat) (l : list R) : Prop := (min_obs <= length l)%nat /\ size <= last l 0 - hd 0 l.
Definition open_before (size : R) (min_obs : nat) (l : list R) : Prop :=
  forall l' m, l' <> [] -> m <> [] -> l = l' ++ m -> ~ closed_at size min_obs l'.
Definition closed_first (size : R) (min_obs : nat) (l : list R) : Prop := closed_at size min_obs l /\ open_before size min_obs l.

(** The intervals of the approximation: all but the last are closed as early as possible and start at their first
    observation.  The last one is what remains; too few remaining observations are added to the interval before, whose cubic
    then starts at its last own observation. *)
Inductive pieces_of (size : R) (min_obs : nat) : list piece -> Prop :=
| pieces_last p : p_obs p <> [] -> (min_obs <= length (p_obs p))%nat -> open_before size min_obs (p_obs p) -> p_start p = p_first p -> pieces_of size min_obs [p]
| pieces_merged p l m : p_obs p = l ++ m -> l <> [] -> m <> [] -> closed_first size min_obs l -> (length m < min_obs)%nat ->
    p_start p = last l 0 -> pieces_of size min_obs [p]
| pieces_next p ps : p_obs p <> [] -> closed_first size min_obs (p_obs p) -> p_start p = p_first p ->
    pieces_of size min_obs ps -> pieces_of size min_obs (p :: ps).

(** The fitted value of each observation, from the values and slopes at the nodes: [params] is f0, d0, f1, d1, ... *)
Fixpoint fitted (params : list R) (ps : list piece) : list R :=
  match ps, params with
  | p :: ps', f0 :: d0 :: f1 :: d1 :: rest =>
      map (hermite (p_start p) (p_last p) f0 d0 f1 d1) (p_obs p) ++ fitted (f1 :: d1 :: rest) ps'
  | _, _ => []
  end.

(** [y] is the value at [x] of the curve through the nodes: [steps] are their positions and [params] their values and
    slopes. *)
Definition curve_value (steps params : list R) (x y : R) : Prop :=
  (nth_error steps 0 = Some x /\ nth_error params 0 = Some y) \/
  exists k a b f0 d0 f1 d1,
    nth_error steps k = Some a /\ nth_error steps (S k) = Some b /\ a < x <= b /\
    nth_error params (2 * k) = Some f0 /\ nth_error params (2 * k + 1) = Some d0 /\
    nth_error params (2 * k + 2) = Some f1 /\ nth_error params (2 * k + 3) = Some d1 /\
    y = hermite a b f0 d0 f1 d1 x.
