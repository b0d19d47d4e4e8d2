(** Proofs about the initial values: the derivatives of the equations. *)
From Coq Require Import Ranalysis1.
From Coquelicot Require Import Coquelicot.
From Verif Require Import Base BaseFacts NumpyModel TrajModel ParamModel DataModel GeomModel GeomSpec GeomFacts JacModel JacSpec JacFacts GhmSpec GhmCase.

(** The derivatives of the rotation matrix with respect to its three angles *)
Definition dRx (e : V3) : M3 :=
  let sa := sin (vx e) in let ca := cos (vx e) in let sb := sin (vy e) in let cb := cos (vy e) in let sg := sin (vz e) in let cg := cos (vz e) in
  mkM3 (mkV3 0 (ca * sb * cg + sa * sg) (- sa * sb * cg + ca * sg)) (mkV3 0 (ca * sb * sg - sa * cg) (- sa * sb * sg - ca * cg))
       (mkV3 0 (ca * cb) (- sa * cb)).
Definition dRy (e : V3) : M3 :=
  let sa := sin (vx e) in let ca := cos (vx e) in let sb := sin (vy e) in let cb := cos (vy e) in let sg := sin (vz e) in let cg := cos (vz e) in
  mkM3 (mkV3 (- sb * cg) (sa * cb * cg) (ca * cb * cg)) (mkV3 (- sb * sg) (sa * cb * sg) (ca * cb * sg))
       (mkV3 (- cb) (- sa * sb) (- ca * sb)).
Definition dRz (e : V3) : M3 :=
  let sa := sin (vx e) in let ca := cos (vx e) in let sb := sin (vy e) in let cb := cos (vy e) in let sg := sin (vz e) in let cg := cos (vz e) in
  mkM3 (mkV3 (- cb * sg) (- sa * sb * sg - ca * cg) (- ca * sb * sg + sa * cg)) (mkV3 (cb * cg) (sa * sb * cg - ca * sg) (ca * sb * cg + sa * sg))
       (mkV3 0 0 0).

(** The source with lever arm and time shift, before the similarity *)
Definition sensed (p : align_params) (o : epoch) : V3 :=
  vadd (e_from o) (vadd (mapply (euler_matrix (e_rpy o)) (lever p)) (vscale (time_shift p) (e_speed o))).

(** The derivative of the misclosure of an epoch with respect to parameter [j] *)
Definition slope (p : align_params) (o : epoch) (j : nat) : V3 :=
  let Rm := euler_matrix (sim_rot p) in
  let y := sensed p o in
  match j with
  | 0 => mkV3 1 0 0 | 1 => mkV3 0 1 0 | 2 => mkV3 0 0 1
  | 3 => vscale (sim_scale p) (mapply (dRx (sim_rot p)) y)
  | 4 => vscale (sim_scale p) (mapply (dRy (sim_rot p)) y)
  | 5 => vscale (sim_scale p) (mapply (dRz (sim_rot p)) y)
  | 6 => mapply Rm y
  | 7 => vscale (sim_scale p) (mapply Rm (e_speed o))
  | 8 => vscale (sim_scale p) (mapply Rm (col1 (euler_matrix (e_rpy o))))
  | 9 => vscale (sim_scale p) (mapply Rm (col2 (euler_matrix (e_rpy o))))
  | _ => vscale (sim_scale p) (mapply Rm (col3 (euler_matrix (e_rpy o))))
  end%nat.

Lemma euler_entries e : euler_matrix e =
  let sa := sin (vx e) in let ca := cos (vx e) in let sb := sin (vy e) in let cb := cos (vy e) in let sg := sin (vz e) in let cg := cos (vz e) in
  mkM3 (mkV3 (cb * cg) (sa * sb * cg - ca * sg) (ca * sb * cg + sa * sg)) (mkV3 (cb * sg) (sa * sb * sg + ca * cg) (ca * sb * sg - sa * cg))
       (mkV3 (- sb) (sa * cb) (ca * cb)).
Proof.
  destruct e as [a b g]. unfold euler_matrix, mmul, vmul, Rz, Ry, Rx, col1, col2, col3, vdot. cbn. repeat apply f_equal3; ring.
Qed.

Lemma slope_rot p o a j : (j = 3 \/ j = 4 \/ j = 5)%nat -> (a < 3)%nat ->
  derivable_pt_lim (fun t => component a (misclosed (params_of (replace_nth j t (params_list p))) o)) (nth j (params_list p) 0) (component a (slope p o j)).
Proof.
  intros Hj Ha. destruct p as [tr rot s dt l]. set (y := sensed (mkAlign tr rot s dt l) o).
  assert (K : forall r, misclosed (mkAlign tr r s dt l) o = vsub (vadd tr (vscale s (mapply (euler_matrix r) y))) (e_to o)) by reflexivity.
  destruct tr as [t1 t2 t3], rot as [a1 a2 a3], l as [l1 l2 l3].
  destruct Hj as [-> | [-> | ->]]; unfold replace_nth, params_list; cbn [firstn skipn app sim_trans sim_rot sim_scale time_shift lever vx vy vz];
    (eapply D_ext; [intro t; unfold params_of; cbn [nth]; rewrite K; reflexivity|]); cbn [nth];
    unfold slope; fold y; cbn [sim_rot sim_scale];
    destruct y as [y1 y2 y3], (e_to o) as [q1 q2 q3]; apply is_derive_Reals;
    (destruct a as [|[|[|a]]]; [| | |lia]);
    (eapply is_derive_ext; [intro t; rewrite euler_entries; cbv [component vsub vadd vscale mapply vdot row1 row2 row3 vx vy vz]; reflexivity|]);
    cbv [component vscale mapply vdot row1 row2 row3 vx vy vz dRx dRy dRz]; auto_derive; trivial; ring.
Qed.

Lemma slope_affine p o a j : (j < 11)%nat -> (j <> 3 /\ j <> 4 /\ j <> 5)%nat -> (a < 3)%nat ->
  derivable_pt_lim (fun t => component a (misclosed (params_of (replace_nth j t (params_list p))) o)) (nth j (params_list p) 0) (component a (slope p o j)).
Proof.
  intros Hj Nj Ha. apply D_affine. intro t. destruct p as [[t1 t2 t3] rot s dt [l1 l2 l3]].
  do 3 (destruct j as [|j]; [unfold replace_nth, params_list, params_of; cbn [firstn skipn app nth sim_trans sim_rot sim_scale time_shift lever];
    destruct a as [|[|[|a]]]; [| | |lia]; cbv [slope component misclosed aligned vsub vadd sim_trans sim_rot sim_scale time_shift lever vx vy vz]; ring|]).
  do 3 (destruct j as [|j]; [lia|]).
  assert (Er : mkV3 (vx rot) (vy rot) (vz rot) = rot) by (destruct rot; reflexivity).
  destruct o as [[x1 x2 x3] [q1 q2 q3] rpy [v1 v2 v3]].
  do 5 (destruct j as [|j]; [unfold replace_nth, params_list, params_of; cbn [firstn skipn app nth sim_trans sim_rot sim_scale time_shift lever vx vy vz];
    rewrite ?Er; unfold slope, misclosed, aligned, sensed; cbn [sim_trans sim_rot sim_scale time_shift lever e_from e_to e_rpy e_speed];
    destruct (euler_matrix rot) as [[m11 m12 m13] [m21 m22 m23] [m31 m32 m33]]; destruct (euler_matrix rpy) as [[n11 n12 n13] [n21 n22 n23] [n31 n32 n33]];
    destruct a as [|[|[|a]]]; [| | |lia]; cbv [component vsub vadd vscale mapply vdot row1 row2 row3 vx vy vz col1 col2 col3]; ring|]).
  lia.
Qed.

Lemma slope_partial p o a j : (j < 11)%nat -> (a < 3)%nat ->
  derivable_pt_lim (fun t => component a (misclosed (params_of (replace_nth j t (params_list p))) o)) (nth j (params_list p) 0) (component a (slope p o j)).
Proof.
  intros Hj Ha. destruct (Nat.eq_dec j 3); [apply slope_rot; auto|]. destruct (Nat.eq_dec j 4); [apply slope_rot; auto|].
  destruct (Nat.eq_dec j 5); [apply slope_rot; auto|]. apply slope_affine; auto.
Qed.
