(** Linearisation of the adjustment: alignment/egrad_interface.py and the matrices of alignment/estimation.py. *)
From Verif Require Import Base NumpyModel TrajModel ParamModel DataModel LsqModel GeomModel.

(** equations.py:12-155: the three observation equations as functions of their positional arguments; any other number of
    arguments is a TypeError in Python, 0 here (every call below has the right number, see JacFacts.v) *)
Definition fr_x (a : list R) : R :=
  match a with
  | [x; y; z; x_to; ex; ey; ez; sx; sy; sz; trans; rx; ry; rz; scale; time; lx; ly; lz] =>
      - x_to + helmert_x (x + leverarm_x ex ey ez lx ly lz time sx) (y + leverarm_y ex ey ez lx ly lz time sy)
                         (z + leverarm_z ex ey lx ly lz time sz) trans rx ry rz scale
  | _ => 0
  end.
Definition fr_y (a : list R) : R :=
  match a with
  | [x; y; z; y_to; ex; ey; ez; sx; sy; sz; trans; rx; ry; rz; scale; time; lx; ly; lz] =>
      - y_to + helmert_y (x + leverarm_x ex ey ez lx ly lz time sx) (y + leverarm_y ex ey ez lx ly lz time sy)
                         (z + leverarm_z ex ey lx ly lz time sz) trans rx ry rz scale
  | _ => 0
  end.
Definition fr_z (a : list R) : R :=
  match a with
  | [x; y; z; z_to; ex; ey; ez; sx; sy; sz; trans; rx; ry; scale; time; lx; ly; lz] =>
      - z_to + helmert_z (x + leverarm_x ex ey ez lx ly lz time sx) (y + leverarm_y ex ey ez lx ly lz time sy)
                         (z + leverarm_z ex ey lx ly lz time sz) trans rx ry scale
  | _ => 0
  end.

(** One epoch of adjusted observations: source and target position, attitude angles, speed *)
Record epoch := mkEpoch { e_from : V3; e_to : V3; e_rpy : V3; e_speed : V3 }.

(** egrad_interface.py:98-165 [eval] for one epoch: the positional arguments for x, y and z *)
Definition args_x (p : align_params) (o : epoch) : list R :=
  coords (e_from o) ++ [vx (e_to o)] ++ coords (e_rpy o) ++ coords (e_speed o) ++
  [vx (sim_trans p); vx (sim_rot p); vy (sim_rot p); vz (sim_rot p); sim_scale p; time_shift p] ++ coords (lever p).
Definition args_y (p : align_params) (o : epoch) : list R :=
  coords (e_from o) ++ [vy (e_to o)] ++ coords (e_rpy o) ++ coords (e_speed o) ++
  [vy (sim_trans p); vx (sim_rot p); vy (sim_rot p); vz (sim_rot p); sim_scale p; time_shift p] ++ coords (lever p).
Definition args_z (p : align_params) (o : epoch) : list R :=
  coords (e_from o) ++ [vz (e_to o)] ++ coords (e_rpy o) ++ coords (e_speed o) ++
  [vz (sim_trans p); vx (sim_rot p); vy (sim_rot p); sim_scale p; time_shift p] ++ coords (lever p).

(** data.py:345-455: the adjusted observations by columns, [est_x_from] and so on; zeros for what is not estimated *)
Definition est_column (e : est_settings) (vector : list R) (i : nat) : list R := strided vector i (num_obs_per_epoch e).
Definition est_columns (e : est_settings) (vector : list R) : list (list R) :=
  let n := number_of_epochs e vector in
  map (est_column e vector) (seq 0 6) ++
  (if leverarm_enabled e then map (est_column e vector) (seq 6 3) else repeat (repeat 0 n) 3) ++
  (if time_shift_enabled e then map (est_column e vector) (seq (if leverarm_enabled e then 9 else 6) 3) else repeat (repeat 0 n) 3).
(** Row [i] of the columns (all of them have one entry per epoch) *)
Definition est_epoch (e : est_settings) (vector : list R) (i : nat) : epoch :=
  let at_ c := nth i (nth c (est_columns e vector) []) 0 in
  mkEpoch (mkV3 (at_ 0%nat) (at_ 1%nat) (at_ 2%nat)) (mkV3 (at_ 3%nat) (at_ 4%nat) (at_ 5%nat))
          (mkV3 (at_ 6%nat) (at_ 7%nat) (at_ 8%nat)) (mkV3 (at_ 9%nat) (at_ 10%nat) (at_ 11%nat)).
Definition est_epochs (e : est_settings) (vector : list R) : list epoch := map (est_epoch e vector) (seq 0 (number_of_epochs e vector)).

(** [m[0::3] = x], [m[1::3] = y], [m[2::3] = z] *)
Definition interleave {A} (x y z : list A) : list A :=
  flat_map (fun p => [fst (fst p); snd (fst p); snd p]) (combine (combine x y) z).

(** estimation.py:523-529 [_eval_functional_relationship] *)
Definition eval_functional_relationship (p : align_params) (os : list epoch) : list R :=
  interleave (map (fun o => fr_x (args_x p o)) os) (map (fun o => fr_y (args_y p o)) os) (map (fun o => fr_z (args_z p o)) os).

Section Jacobians.
  (** [autograd.elementwise_grad(func, k)]: the derivative with respect to the [k]-th argument *)
  Variable egrad : (list R -> R) -> nat -> list R -> R.
  Variable p : align_params.

  (** estimation.py:482-521 [_get_design_x] with egrad_interface.py:41-49 *)
  Definition design_x (o : epoch) : list R :=
    let d k := egrad fr_x k (args_x p o) in
    [d 10; 0%R; 0%R; d 11; d 12; d 13; d 14; d 15; d 16; d 17; d 18]%nat.
  (** estimation.py:431-480 [_get_design_y] with egrad_interface.py:62-70 *)
  Definition design_y (o : epoch) : list R :=
    let d k := egrad fr_y k (args_y p o) in
    [0%R; d 10; 0%R; d 11; d 12; d 13; d 14; d 15; d 16; d 17; d 18]%nat.
  (** estimation.py:374-429 [_get_design_z] with egrad_interface.py:83-90: no rotation about z *)
  Definition design_z (o : epoch) : list R :=
    let d k := egrad fr_z k (args_z p o) in
    [0%R; 0%R; d 10; d 11; d 12; 0%R; d 13; d 14; d 15; d 16; d 17]%nat.
  (** estimation.py:367-372 [_get_design_matrix] *)
  Definition design_matrix (os : list epoch) : mat := interleave (map design_x os) (map design_y os) (map design_z os).

  (** estimation.py:718-772 [_get_condition_xyz_from], 663-716 [_get_condition_rpy_body], 797-850 [_get_condition_speed_to]:
      for each equation three columns *)
  Definition condition_from (o : epoch) : list (list R) :=
    [map (fun k => egrad fr_x k (args_x p o)) [0; 1; 2]; map (fun k => egrad fr_y k (args_y p o)) [0; 1; 2];
     map (fun k => egrad fr_z k (args_z p o)) [0; 1; 2]]%nat.
  Definition condition_rpy (o : epoch) : list (list R) :=
    [map (fun k => egrad fr_x k (args_x p o)) [4; 5; 6]; map (fun k => egrad fr_y k (args_y p o)) [4; 5; 6];
     map (fun k => egrad fr_z k (args_z p o)) [4; 5; 6]]%nat.
  Definition condition_speed (o : epoch) : list (list R) :=
    [map (fun k => egrad fr_x k (args_x p o)) [7; 8; 9]; map (fun k => egrad fr_y k (args_y p o)) [7; 8; 9];
     map (fun k => egrad fr_z k (args_z p o)) [7; 8; 9]]%nat.
  (** estimation.py:774-795 [_condition_xyz_to] *)
  Definition condition_to : list (list R) := [[-1; 0; 0]; [0; -1; 0]; [0; 0; -1]].

  (** estimation.py:581-661 [_get_condition_stack]: for one epoch the data of its three rows, one after the other *)
  Definition condition_stack (e : est_settings) (o : epoch) : list R :=
    let part (l : list (list R)) i := nth i l [] in
    let rows :=
      if (leverarm_enabled e && negb (time_shift_enabled e))%bool
      then map (fun i => part (condition_from o) i ++ part condition_to i ++ part (condition_rpy o) i) (seq 0 3)
      else if (time_shift_enabled e && negb (leverarm_enabled e))%bool
      then map (fun i => part (condition_from o) i ++ part condition_to i ++ part (condition_speed o) i) (seq 0 3)
      else if (leverarm_enabled e && time_shift_enabled e)%bool
      then map (fun i => part (condition_from o) i ++ part condition_to i ++ part (condition_rpy o) i ++ part (condition_speed o) i) (seq 0 3)
      else map (fun i => part (condition_from o) i ++ part condition_to i) (seq 0 3) in
    concat rows.

  (** estimation.py:531-579 [_get_condition_matrix]: the triplets (row, column, value) of the sparse matrix *)
  Definition condition_matrix (e : est_settings) (os : list epoch) : list (nat * (nat * R)) :=
    let k := num_obs_per_epoch e in
    let n := length os in
    let row_idx := flat_map (fun r => repeat r k) (seq 0 (n * 3)) in
    let starts := flat_map (fun s => repeat s 3) (map (fun i => i * k)%nat (seq 0 n)) in
    let col_idx := flat_map (fun s => map (fun c => (c + s)%nat) (seq 0 k)) starts in
    combine row_idx (combine col_idx (flat_map (condition_stack e) os)).
End Jacobians.

(** [csc_matrix((data, (row, col)))]: entries with the same indices are summed up, all others are zero *)
Definition sparse_entry (m : list (nat * (nat * R))) (r c : nat) : R :=
  np_sum (map (fun t => if ((fst t =? r) && (fst (snd t) =? c))%nat%bool then snd (snd t) else 0) m).
