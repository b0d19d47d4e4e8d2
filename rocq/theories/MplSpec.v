(** What the figures of matplotlib should show. *)
From Verif Require Import Base TrajModel TrajSpec EvalModel EstModel GeomModel AngModel MplModel PageSpec.

(** The values larger than 1e-6 are counted in half-open bins (the last one is closed); the cuts are strictly increasing, enclose the values
    and are drawn in the unit of the figure. *)
Definition significant (x : R) : bool := Rltb (1 / 1000000) (Rabs x).
Definition in_bin (is_last : bool) (a b x : R) : bool := (Rleb a x && (if is_last then Rleb x b else Rltb x b))%bool.
Definition histogram_of (unit : R) (values : list R) (edges : list R) (heights : list num) : Prop :=
  exists cuts, edges = map (fun c => c * unit) cuts /\ encloses cuts (filter significant values) /\ length cuts = S (length heights) /\
    forall k a b, nth_error cuts k = Some a -> nth_error cuts (S k) = Some b ->
      nth_error heights k = Some (Fin (INR (length (filter (fun x => significant x && in_bin (S (S k) =? length cuts)%nat a b x)%bool values)))).

(** The deviations a name in a legend stands for *)
Definition component {Q} (ops : rot_ops Q) (r : ate_result Q) (name : string) : option (list R) :=
  let angle f := match rot_dev r with Some d => Some (map (fun q => f (as_euler ops q) * (180 / PI)) d) | None => None end in
  (if String.eqb name "x" then Some (map vx (pos_dev r))
   else if String.eqb name "y" then Some (map vy (pos_dev r))
   else if String.eqb name "z" then Some (map vz (pos_dev r))
   else if String.eqb name "along" then Some (map vx (directed_pos_dev r))
   else if String.eqb name "horizontal" then Some (map vy (directed_pos_dev r))
   else if String.eqb name "vertical" then Some (map vz (directed_pos_dev r))
   else if String.eqb name "roll" then angle vx
   else if String.eqb name "pitch" then angle vy
   else if String.eqb name "yaw" then angle vz
   else None)%string.

(** Every histogram of a figure counts the deviations its name stands for. *)
Definition legend_right {Q} (ops : rot_ops Q) (unit : R) (r : ate_result Q) (fig : list (string * (list R * list num))) : Prop :=
  forall label edges heights, In (label, (edges, heights)) fig -> exists values, component ops r label = Some values /\ histogram_of unit values edges heights.

(** A coloured point per pose: at the position of the pose, with its value cut off at the ends of the colour bar *)
Definition coloured_right (positions : list V3) (values : list R) (fig : scatter_fig) : Prop :=
  length (sf_points fig) = length positions /\ sf_lower fig <= sf_upper fig /\
  forall i p v, nth_error positions i = Some p -> nth_error values i = Some v ->
    exists c, nth_error (sf_points fig) i = Some ((vx p, vy p), c) /\ sf_lower fig <= c <= sf_upper fig /\
      (sf_lower fig <= v <= sf_upper fig -> c = v) /\ (v < sf_lower fig -> c = sf_lower fig) /\ (sf_upper fig < v -> c = sf_upper fig).

(** A curve that shows the value of every pose at its time (or arc length), from left to right *)
Definition shows {Q A} (t : traj Q) (values : list A) (curve : list (R * A)) : Prop :=
  Permutation curve (combine (sort_key t) values) /\ StronglySorted Rle (map fst curve).

(** Reference systems: code 0 has none; the others have at least two axes, none of them with the unit "unknown". *)
Definition crs_contract (crs : Z -> option (list axis)) : Prop :=
  crs 0%Z = None /\ forall e, e <> 0%Z -> exists x y rest, crs e = Some (x :: y :: rest) /\ axis_unit x <> "unknown"%string.
