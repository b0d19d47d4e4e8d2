(** Vocabulary of the trajectory properties, independent of how the operations are modelled:
    the poses of a trajectory as records, and what it means for its components to fit together. *)
From Verif Require Import Base NumpyModel TrajModel.

Section Spec.
  Context {Q : Type}.

  (** One pose: everything a trajectory stores for one instant. *)
  Record pose := mkPose { p_t : R; p_xyz : V3; p_rot : option Q; p_arc : R; p_speed : V3 }.

  (** All five components have the length of the positions. *)
  Definition consistent (t : traj Q) : Prop :=
    length (tstamps t) = length (xyz t) /\
    match rot t with Some q => length q = length (xyz t) | None => True end /\
    length (arc t) = length (xyz t) /\
    length (speed t) = length (xyz t).

  (** The i-th pose of a trajectory: its i-th entry in every component. *)
  Definition pose_at (t : traj Q) (i : nat) : option pose :=
    match nth_error (tstamps t) i, nth_error (xyz t) i, nth_error (arc t) i, nth_error (speed t) i with
    | Some a, Some p, Some l, Some v =>
        match rot t with
        | None => Some (mkPose a p None l v)
        | Some q => match nth_error q i with Some r => Some (mkPose a p (Some r) l v) | None => None end
        end
    | _, _, _, _ => None
    end.

  (** The list of poses, in storage order. *)
  Definition rots_of (t : traj Q) : list (option Q) :=
    match rot t with Some q => map Some q | None => map (fun _ => None) (xyz t) end.
  Definition poses (t : traj Q) : list pose :=
    map (fun x => match x with (a, p, q, l, v) => mkPose a p q l v end)
        (combine (combine (combine (combine (tstamps t) (xyz t)) (rots_of t)) (arc t)) (speed t)).

  (** The attributes that describe the trajectory as a whole. *)
  Definition same_meta (t t' : traj Q) : Prop :=
    srt t' = srt t /\ name t' = name t /\ epsg t' = epsg t /\
    (rot t' = None <-> rot t = None).

  Definition time_sorted (t : traj Q) : Prop := StronglySorted Rle (tstamps t).
  Definition strictly_time_sorted (t : traj Q) : Prop := StronglySorted Rlt (tstamps t).
End Spec.
Arguments pose Q : clear implicits.

(** [x] is the smallest / largest element of [l]. *)
Definition is_min (l : list R) (x : R) : Prop := In x l /\ forall y, In y l -> x <= y.
Definition is_max (l : list R) (x : R) : Prop := In x l /\ forall y, In y l -> y <= x.

(** [a] and [b] are neighbouring values of [l]: both occur, a < b and nothing lies between. *)
Definition neighbours (l : list R) (a b : R) : Prop :=
  In a l /\ In b l /\ a < b /\ forall y, In y l -> ~ (a < y < b).

(** The operations a user chains on one trajectory. *)
Inductive op :=
| OpIndex (ix : index)
| OpCrop (a b : R) (inverse : bool)
| OpMatch (ts : list R)
| OpIntersect (ts : list R) (gap : R)
| OpInterpolate (ts : list R).

Section History.
  Context {Q : Type}.
  Variable slerp_seg : Q -> Q -> R -> Q.

  Definition apply_op (t : traj Q) (o : op) : result (traj Q) :=
    match o with
    | OpIndex ix => apply_index t ix
    | OpCrop a b inv => crop t a b inv
    | OpMatch ts => match_timestamps t ts
    | OpIntersect ts gap => intersect t ts gap
    | OpInterpolate ts => interpolate slerp_seg t ts
    end.

  Definition is_interpolate (o : op) : Prop := match o with OpInterpolate _ => True | _ => False end.
  Definition is_index (o : op) : Prop := match o with OpIndex _ => True | _ => False end.

  (** [history t ops t']: the calls [ops], in this order, all succeed and lead from [t] to [t'],
      and no interpolation left the trajectory without timestamps. *)
  Inductive history : traj Q -> list op -> traj Q -> Prop :=
  | history_nil t : history t [] t
  | history_step t o t1 ops t' :
      apply_op t o = Ok t1 -> (is_interpolate o -> tstamps t1 <> []) ->
      history t1 ops t' -> history t (o :: ops) t'.
End History.

(** [kept P l l']: [l'] consists of exactly the elements of [l] that satisfy [P], in order. *)
Inductive kept {A} (P : A -> Prop) : list A -> list A -> Prop :=
| kept_nil : kept P [] []
| kept_yes a l l' : P a -> kept P l l' -> kept P (a :: l) (a :: l')
| kept_no a l l' : ~ P a -> kept P l l' -> kept P (a :: l) l'.

(** [supported ts gap x]: [x] is an entry of [ts] or lies strictly between two neighbouring
    entries of [ts] that are at most [gap] apart. *)
Definition supported (ts : list R) (gap x : R) : Prop :=
  In x ts \/ exists a b, neighbours ts a b /\ a < x < b /\ b - a <= gap.

(** The point at fraction [w] of the straight segment from [a] to [b]. *)
Definition lerp (a b : V3) (w : R) : V3 := vadd a (vscale w (vsub b a)).

(** Length of the polygonal path through the points. *)
Fixpoint path_length (p : list V3) : R :=
  match p with
  | a :: ((b :: _) as r) => vdist a b + path_length r
  | _ => 0
  end.

(** What the views of a trajectory are ordered by. *)
Definition sort_key {Q} (t : traj Q) : list R := match srt t with SortTime => tstamps t | SortArc => arc t end.
