(** Vocabulary of the linearisation properties. *)
From Verif Require Import Base TrajModel ParamModel DataModel GeomModel GeomSpec JacModel.

(** Contract of the automatic differentiation: if the function has a derivative with respect to its [k]-th argument, it
    is returned. *)
Definition replace_nth {A} (k : nat) (t : A) (l : list A) : list A := firstn k l ++ t :: skipn (S k) l.
Definition egrad_contract (egrad : (list R -> R) -> nat -> list R -> R) : Prop :=
  forall f k xs d, (k < length xs)%nat -> derivable_pt_lim (fun t => f (replace_nth k t xs)) (nth k xs 0) d -> egrad f k xs = d.

(** The parameters in the order of the AlignmentParameters class *)
Definition params_list (p : align_params) : list R :=
  [vx (sim_trans p); vy (sim_trans p); vz (sim_trans p); vx (sim_rot p); vy (sim_rot p); vz (sim_rot p); sim_scale p; time_shift p;
   vx (lever p); vy (lever p); vz (lever p)].
Definition params_of (l : list R) : align_params :=
  mkAlign (mkV3 (nth 0 l 0) (nth 1 l 0) (nth 2 l 0)) (mkV3 (nth 3 l 0) (nth 4 l 0) (nth 5 l 0)) (nth 6 l 0) (nth 7 l 0)
          (mkV3 (nth 8 l 0) (nth 9 l 0) (nth 10 l 0)).

(** The misclosure of one epoch: aligned source minus target; and one of its three components *)
Definition misclosed (p : align_params) (o : epoch) : V3 := vsub (aligned p (e_from o) (e_speed o) (euler_matrix (e_rpy o))) (e_to o).
Definition component (a : nat) (v : V3) : R := match a with 0 => vx v | 1 => vy v | _ => vz v end%nat.

(** The observation vector holds the epochs one after the other: source position, target position, then the attitude angles
    if a lever arm is estimated, then the speed if a time shift is estimated. *)
Definition observed_epoch (e : est_settings) (vector : list R) (i : nat) : epoch :=
  let at_ c := nth (i * num_obs_per_epoch e + c) vector 0 in
  let three c := mkV3 (at_ c) (at_ (c + 1)%nat) (at_ (c + 2)%nat) in
  let nothing := mkV3 0 0 0 in
  mkEpoch (three 0%nat) (three 3%nat) (if leverarm_enabled e then three 6%nat else nothing)
          (if time_shift_enabled e then three (if leverarm_enabled e then 9%nat else 6%nat) else nothing).

(** The misclosures of all [n] epochs, x, y, z of one epoch after the other *)
Definition misclosures (e : est_settings) (p : align_params) (n : nat) (vector : list R) : list R :=
  flat_map (fun i => coords (misclosed p (observed_epoch e vector i))) (seq 0 n).

(** The partial derivative of a vector valued function of a list: component [r] with respect to entry [c] *)
Definition partial (f : list R -> list R) (xs : list R) (r c : nat) (d : R) : Prop :=
  derivable_pt_lim (fun t => nth r (f (replace_nth c t xs)) 0) (nth c xs 0) d.
