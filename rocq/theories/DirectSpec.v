(** Vocabulary of the closed-form alignment. *)
From Verif Require Import Base NumpyModel TrajModel GeomModel GeomSpec LsqModel LsqSpec.

(** Matrices with orthonormal columns: rotations and reflections *)
Definition orthogonal (m : M3) : Prop := mmul (mtrans m) m = mident.

(** Contract of the singular value decomposition: if it returns, A = u diag(s) v with orthogonal factors and non-negative
    singular values. *)
Definition diag3 (s : V3) : M3 := mkM3 (mkV3 (vx s) 0 0) (mkV3 0 (vy s) 0) (mkV3 0 0 (vz s)).
Definition decomposed (A u : M3) (s : V3) (v : M3) : Prop :=
  orthogonal u /\ orthogonal v /\ 0 <= vx s /\ 0 <= vy s /\ 0 <= vz s /\ A = mmul u (mmul (diag3 s) v).
Definition svd_contract (svd : M3 -> result (M3 * V3 * M3)) : Prop :=
  forall A u s v, svd A = Ok (u, s, v) -> decomposed A u s v.

(** The weights in force: ones for an empty list *)
Definition used_weights (n : nat) (w : list R) : list R := match w with [] => repeat 1 n | _ => w end.

(** The similarity p |-> t + s m p, and the weighted sum of squared distances it leaves *)
Definition similar (t : V3) (m : M3) (s : R) (p : V3) : V3 := vadd t (vscale s (mapply m p)).
Fixpoint misfit (t : V3) (m : M3) (s : R) (w : list R) (from to : list V3) : R :=
  match w, from, to with
  | wi :: w', p :: from', q :: to' => wi * vdist q (similar t m s p) ^ 2 + misfit t m s w' from' to'
  | _, _, _ => 0
  end.

(** Points that are not all on one line; points that are not all in one plane *)
Definition not_collinear (l : list V3) : Prop :=
  exists a b c, In a l /\ In b l /\ In c l /\ vcross (vsub b a) (vsub c a) <> vzero.
Definition not_coplanar (l : list V3) : Prop :=
  exists a b c d, In a l /\ In b l /\ In c l /\ In d l /\ mdet (mkM3 (vsub b a) (vsub c a) (vsub d a)) <> 0.

(** What a lever arm [l] and a time shift [dt] leave of the differences between target and source: predicted minus observed,
    for poses with attitude [e] and speed [v] *)
Definition lever_rest (dt : R) (l : V3) (q p e v : V3) : V3 := vsub (vadd (vscale dt v) (mapply (euler_matrix e) l)) (vsub q p).
Fixpoint lever_rests (dt : R) (l : V3) (to from rpy v : list V3) : list V3 :=
  match to, from, rpy, v with
  | q :: to', p :: from', e :: rpy', s :: v' => lever_rest dt l q p e s :: lever_rests dt l to' from' rpy' v'
  | _, _, _, _ => []
  end.

(** Weighted sum of squares of a list of vectors, with one list of weights per axis *)
Fixpoint weighted_sum (w d : list R) : R := match w, d with x :: w', y :: d' => x * y ^ 2 + weighted_sum w' d' | _, _ => 0 end.
Definition axis_error (wx wy wz : list R) (d : list V3) : R :=
  weighted_sum wx (map vx d) + weighted_sum wy (map vy d) + weighted_sum wz (map vz d).

(** Weights of [n] vectors: ones, or given per axis *)
Definition axis_weights (n : nat) (weights : option (list R)) (wx wy wz : list R) : Prop :=
  length wx = n /\ length wy = n /\ length wz = n /\
  match weights with
  | None => wx = repeat 1 n /\ wy = repeat 1 n /\ wz = repeat 1 n
  | Some w => w = wx ++ wy ++ wz
  end.

(** The speeds in force: none means standing still *)
Definition used_speed (n : nat) (speed : option (list V3)) : list V3 := match speed with Some v => v | None => repeat vzero n end.

(** Squared chordal distance of two matrices, and the contract of the mean of rotations: if it returns, no rotation has a
    smaller sum of squared chordal distances *)
Definition chordal (a b : M3) : R :=
  let d := madd a (mscale (-1) b) in vdot (row1 d) (row1 d) + vdot (row2 d) (row2 d) + vdot (row3 d) (row3 d).
Definition chordal_sum (m : M3) (l : list M3) : R := fold_right Rplus 0 (map (chordal m) l).
Definition mean_contract {Q} (ops : rot_ops Q) (mean : list Q -> result Q) : Prop :=
  forall qs q m, mean qs = Ok q -> is_rot m -> chordal_sum (as_matrix ops q) (map (as_matrix ops) qs) <= chordal_sum m (map (as_matrix ops) qs).

(** A pose: position, attitude angles and speed; and where the lever arm and the time shift move it *)
Definition pose := (V3 * V3 * V3)%type.
Definition pose_at (s : pose) : V3 := fst (fst s).
Definition pose_rpy (s : pose) : V3 := snd (fst s).
Definition pose_speed (s : pose) : V3 := snd s.
Definition levered (dt : R) (l : V3) (s : pose) : V3 :=
  vadd (pose_at s) (vadd (vscale dt (pose_speed s)) (mapply (euler_matrix (pose_rpy s)) l)).
(** Its speed in the frame of the platform *)
Definition body_speed (s : pose) : V3 := mapply (mtrans (euler_matrix (pose_rpy s))) (pose_speed s).

(** What a time shift leaves of the differences between target and source *)
Fixpoint shift_rests (dt : R) (to from v : list V3) : list V3 :=
  match to, from, v with
  | q :: to', p :: from', s :: v' => vsub (vscale dt s) (vsub q p) :: shift_rests dt to' from' v'
  | _, _, _ => []
  end.
(** Weights of the time shift: an empty array, the default, means ones as well *)
Definition shift_weights (n : nat) (weights : option (list R)) : list R -> list R -> list R -> Prop :=
  axis_weights n (match weights with Some [] => None | w => w end).

(** Sum of the squared chordal distances between the target orientations and the source orientations turned by [m] *)
Definition misorientation {Q} (ops : rot_ops Q) (m : M3) (from to : list Q) : R :=
  fold_right Rplus 0 (map (fun p => chordal (mmul m (as_matrix ops (fst p))) (as_matrix ops (snd p))) (combine from to)).
