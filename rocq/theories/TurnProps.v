(** C163: smoothing a transformed trajectory is transforming the smoothed trajectory. *)
From Coq Require Import Permutation Sorting.
From Verif Require Import Base BaseFacts VecFacts NumpyModel NumpyFacts TrajModel TrajSpec TrajFacts TrajFacts2 TrajFacts3 GeomModel GeomSpec GeomFacts GeomFacts2 LsqModel LsqSpec LsqFacts LsqProps
  DirectModel DirectSpec DirectFacts DirectProps3 MatchModel MatchSpec ApproxModel ApproxSpec ApproxFacts ApproxFacts8 ApproxProps DirectProps SolveSpec SolveFacts EvalFacts2 FitSpec FitProps TurnSpec DrawProps.

(** Distances of rotations do not depend on the frame. *)
Lemma chordal_frame m a b : is_rot m -> chordal (mmul m a) (mmul m b) = chordal a b.
Proof.
  intro RM. assert (T : forall x y, chordal x y = let d := madd x (mscale (-1) y) in vx (row1 (mmul (mtrans d) d)) + vy (row2 (mmul (mtrans d) d)) + vz (row3 (mmul (mtrans d) d))).
  { intros x y. unfold chordal. cbv zeta. set (d := madd x (mscale (-1) y)). clearbody d. destruct d as [[d1 d2 d3] [e1 e2 e3] [f1 f2 f3]]. munf. ring. }
  rewrite !T. cbv zeta. set (d := madd a (mscale (-1) b)). assert (E : madd (mmul m a) (mscale (-1) (mmul m b)) = mmul m d).
  { unfold d. clear. m3; ring. }
  rewrite E, mtrans_mmul, mmul_assoc, <- (mmul_assoc (mtrans m) m d), (is_rot_left m RM), mmul_ident_l. reflexivity.
Qed.
Lemma chordal_sum_frame m k l : is_rot m -> chordal_sum (mmul m k) (map (mmul m) l) = chordal_sum k l.
Proof. intro RM. unfold chordal_sum. rewrite map_map. f_equal. apply map_ext. intro a. apply chordal_frame, RM. Qed.

Section Turn.
  Context {Q : Type} (ops : rot_ops Q) (RC : rot_contract ops).
  Definition turned_by (m : M3) (a b : Q) : Prop := as_matrix ops b = mmul m (as_matrix ops a).

  Lemma turned_matrices m l l' : Forall2 (turned_by m) l l' -> map (as_matrix ops) l' = map (mmul m) (map (as_matrix ops) l).
  Proof. induction 1 as [|a b l l' E F IH]; [reflexivity|]. cbn. rewrite E, IH. reflexivity. Qed.

  (** The mean of turned orientations is the turned mean. *)
  Lemma mean_turned mean m l l' q q' : mean_contract ops mean -> is_rot m -> clear_mean ops l -> Forall2 (turned_by m) l l' -> mean l = Ok q -> mean l' = Ok q' -> turned_by m q q'.
  Proof.
    intros MC RM CL F M M'. assert (RT := is_rot_mtrans m RM). assert (E : mmul (mtrans m) (as_matrix ops q') = as_matrix ops q).
    { apply CL.
      - split; [apply is_rot_mmul; [exact RT|apply (rc_rot _ RC)]|]. intros k RK. rewrite <- (chordal_sum_frame m _ _ RM), <- (chordal_sum_frame m k _ RM).
        rewrite <- mmul_assoc, (is_rot_right m RM), mmul_ident_l, <- (turned_matrices m l l' F). apply MC; [exact M'|apply is_rot_mmul; assumption].
      - split; [apply (rc_rot _ RC)|]. intros k RK. apply MC; assumption. }
    unfold turned_by. rewrite <- E, <- mmul_assoc, (is_rot_right m RM), mmul_ident_l. reflexivity.
  Qed.

  (** The mean of orientations that agree is what they agree in. *)
  Lemma same_clear l m : l <> [] -> (forall q, In q l -> as_matrix ops q = m) -> is_rot m -> forall k, best_mean ops l k -> k = m.
  Proof.
    intros NE AG RM k [RK B]. specialize (B m RM). assert (Z : chordal_sum m (map (as_matrix ops) l) = 0).
    { clear NE B. unfold chordal_sum. induction l as [|q l IH]; [reflexivity|]. cbn [map fold_right]. rewrite IH by (intros x I; apply AG; right; exact I).
      rewrite (AG q (or_introl eq_refl)), chordal_same. ring. }
    rewrite Z in B. destruct l as [|q l]; [congruence|]. unfold chordal_sum in B. cbn [map fold_right] in B. rewrite (AG q (or_introl eq_refl)) in B.
    assert (N : 0 <= fold_right Rplus 0 (map (chordal k) (map (as_matrix ops) l))) by (clear; induction l as [|q l IH]; cbn; [lra|]; pose proof (chordal_nonneg k (as_matrix ops q)); lra).
    apply chordal_zero. pose proof (chordal_nonneg k m). lra.
  Qed.

  Lemma related_length {A B} (P : A -> B -> Prop) l l' : Forall2 P l l' -> length l = length l'.
  Proof. induction 1; cbn; congruence. Qed.
  Lemma Forall2_firstn {A B} (P : A -> B -> Prop) n l l' : Forall2 P l l' -> Forall2 P (firstn n l) (firstn n l').
  Proof. intro F. revert n. induction F as [|a b l l' H F IH]; intros [|n]; cbn; constructor; auto. Qed.
  Lemma Forall2_skipn {A B} (P : A -> B -> Prop) n l l' : Forall2 P l l' -> Forall2 P (skipn n l) (skipn n l').
  Proof. intro F. revert n. induction F as [|a b l l' H F IH]; intros [|n]; cbn; try constructor; auto. Qed.

  Lemma slice_part {A} (l : list A) a b : exists x y, l = x ++ slice l a b ++ y.
  Proof. exists (firstn a l), (skipn (b - a) (skipn a l)). unfold slice. rewrite firstn_skipn, firstn_skipn. reflexivity. Qed.

  (** Smoothing, where [P] relates the windows' means *)
  Lemma window_related mean zero f quat quat2 w r r2 (P : Q -> Q -> Prop) : length quat = length f -> Forall2 P quat quat2 ->
    (forall a b q q', slice quat a b <> [] -> mean (slice quat a b) = Ok q -> mean (slice quat2 a b) = Ok q' -> P q q') ->
    rot_average_window mean zero f quat w = Ok r -> rot_average_window mean zero f quat2 w = Ok r2 -> Forall2 P r r2.
  Proof.
    intros L F M H H2. assert (L2 := related_length _ _ _ F). unfold rot_average_window in *. destruct (window_ext f w) as [ext|] eqn:E; [|discriminate]. cbn [bind] in *.
    destruct (Nat.eqb_spec ext 0) as [Z|Z]; [injection H as <-; injection H2 as <-; exact F|]. assert (T := window_two f w ext E Z).
    rewrite <- L2 in H2. rewrite L in *. rewrite Nat.sub_diag in *. apply bind_ok in H as (rows & H & X). apply bind_ok in H2 as (rows2 & H2 & X2). injection X as <-. injection X2 as <-. rewrite !app_nil_r.
    apply mapM_Forall2 in H, H2. assert (G : forall l, (forall i, In i l -> (i < length f)%nat) -> forall u v,
      Forall2 (fun i b => (let! q := mean (slice quat (i - ext) (Nat.min (length f - 1) (i + ext))) in if (i <? length f)%nat then Ok q else Err IndexError) = Ok b) l u ->
      Forall2 (fun i b => (let! q := mean (slice quat2 (i - ext) (Nat.min (length f - 1) (i + ext))) in if (i <? length f)%nat then Ok q else Err IndexError) = Ok b) l v -> Forall2 P u v).
    { clear H H2 rows rows2. induction l as [|i l IH]; intros B u v U V; inversion U as [|? x ? u' HX U']; inversion V as [|? y ? v' HY V']; subst; constructor.
      - assert (I := B i (or_introl eq_refl)). apply bind_ok in HX as (q & MQ & HX). apply bind_ok in HY as (q' & MQ' & HY). apply Nat.ltb_lt in I. rewrite I in HX, HY. injection HX as <-. injection HY as <-. apply Nat.ltb_lt in I.
        refine (M _ _ _ _ _ MQ MQ'). intro EM. apply (f_equal (@length Q)) in EM. unfold slice in EM. rewrite firstn_length, skipn_length, L in EM. cbn in EM. lia.
      - apply IH; [intros j J; apply B; right; exact J|exact U'|exact V']. }
    apply (G (seq 0 (length f))); [intros i I; apply in_seq in I; lia|exact H|exact H2].
  Qed.

  Lemma take_related {A B} (P : A -> B -> Prop) l l' idx r r' : Forall2 P l l' -> np_take l idx = Ok r -> np_take l' idx = Ok r' -> Forall2 P r r'.
  Proof.
    intros F H H'. assert (L := related_length _ _ _ F). unfold np_take in *. apply mapM_Forall2 in H, H'. revert r r' H H'. induction idx as [|z idx IH]; intros r r' H H'; inversion H; inversion H'; subst; constructor.
    - unfold np_get in *. rewrite <- L in *. destruct (py_index (length l) z) as [k|]; [|discriminate]. destruct (nth_error l k) as [u|] eqn:U; [|discriminate]. destruct (nth_error l' k) as [v|] eqn:V; [|discriminate].
      match goal with X : Ok u = Ok _, Y : Ok v = Ok _ |- _ => injection X as <-; injection Y as <- end.
      clear - F U V. revert k U V. induction F as [|a b l l' H F IH]; intros [|k] U V; cbn in *; try discriminate; [congruence|]. eapply IH; eassumption.
    - apply IH; assumption.
  Qed.
End Turn.

Theorem C163 : forall (Q : Type) (ops : rot_ops Q) argsort solve mean zero size mo w T (t t' t'' : traj Q),
  rot_contract ops -> argsort_contract argsort -> solve_contract solve -> matrix_decides solve -> mean_contract ops mean -> is_rot (lin T) -> consistent t ->
  (rot t <> None -> clear_windows ops argsort t) ->
  let smooth := approximate argsort (fun f p => piecewise_cubic solve f p size mo) (fun f q => rot_average_window mean zero f q w) in
  smooth t = Ok t' -> smooth (apply_transformation ops T t) = Ok t'' -> traj_equiv ops (apply_transformation ops T t') t''.
Proof.
  intros Q ops argsort solve mean zero size mo w T t t' t'' RC AC SC MD MC RT CT CW smooth H H2. unfold smooth in *. clear smooth.
  set (t2 := apply_transformation ops T t) in *. assert (C2 : consistent t2) by (apply apply_transformation_consistent; exact CT).
  destruct (apply_transformation_rest ops T t) as (E1 & E2 & E3 & E4 & E5 & E6). fold t2 in E1, E2, E3, E4, E5, E6.
  assert (XY : xyz t2 = map (reframed (lin T) (tra T)) (xyz t)).
  { unfold t2. rewrite (apply_transformation_xyz ops T t CT). apply map_ext. intro p. unfold reframed. apply V3_eq; munf; ring. }
  assert (SI : sorting_index argsort t2 = sorting_index argsort t) by (unfold sorting_index; rewrite E1, E2, E4; reflexivity).
  unfold approximate in H, H2. apply bind_ok in H as (f & F & H). apply bind_ok in H as (p & P & H). apply bind_ok in H as (pa & PA & H). apply bind_ok in H as (p' & P' & H).
  apply bind_ok in H2 as (f2 & F2 & H2). apply bind_ok in H2 as (p2 & P2 & H2). apply bind_ok in H2 as (pa2 & PA2 & H2). apply bind_ok in H2 as (p2' & P2' & H2).
  assert (f2 = f) by (unfold function_of in F, F2; rewrite SI, E1, E2, E4 in F2; congruence). subst f2.
  assert (p2 = map (reframed (lin T) (tra T)) p) by (unfold xyz_sorted in P, P2; rewrite SI, XY, (take_map _ _ _ _ P) in P2; congruence). subst p2.
  assert (L : length p = length f) by (rewrite (np_take_length _ _ _ P), (np_take_length _ _ _ F); reflexivity).
  rewrite (C162_frame solve f p size mo _ _ pa SC MD L PA) in PA2. injection PA2 as <-.
  assert (SW : sort_switching_index argsort t2 = sort_switching_index argsort t) by (unfold sort_switching_index; rewrite SI; reflexivity).
  rewrite SW, (take_map _ _ _ _ P') in P2'. injection P2' as <-.
  assert (LI : length (sorting_index argsort t) = length f) by (rewrite (np_take_length _ _ _ F), map_length; reflexivity).
  assert (LS : length (sort_switching_index argsort t) = length f).
  { unfold sort_switching_index. destruct (AC (map INR (sorting_index argsort t))) as [PM _]. rewrite (Permutation_length PM), seq_length, map_length. exact LI. }
  assert (LT : length f = length (xyz t)).
  { destruct (sorted_view argsort t (xyz t) AC CT eq_refl) as (p1 & V1 & PP & _). unfold xyz_sorted in P. assert (p1 = p) by congruence. subst p1. rewrite <- L. apply Permutation_length, PP. }
  assert (LP' : length p' = length (xyz t)) by (rewrite (np_take_length _ _ _ P'), map_length; lia).
  (* what smoothing returns *)
  assert (X : xyz t' = p' /\ tstamps t' = tstamps t /\ arc t' = arc t /\ speed t' = speed t /\ srt t' = srt t /\ name t' = name t /\ epsg t' = epsg t /\
    match rot t with None => rot t' = None | Some r => if (length r =? 0)%nat then rot t' = Some r else exists q qa q', quat_sorted argsort t = Ok q /\ rot_average_window mean zero f q w = Ok qa /\
      np_take qa (map Z.of_nat (sort_switching_index argsort t)) = Ok q' /\ rot t' = Some q' end).
  { unfold has_orientation in H. cbn [rot set_xyz] in H. destruct (rot t) as [r|] eqn:RR.
    - destruct (length r =? 0)%nat eqn:Z; cbn [negb] in H; [injection H as <-; cbn; rewrite RR; repeat split|].
      apply bind_ok in H as (q & G & H). apply bind_ok in H as (qa & G' & H). apply bind_ok in H as (q' & G'' & H). injection H as <-. do 7 (split; [reflexivity|]). exists q, qa, q'. auto.
    - cbn [negb] in H. injection H as <-. cbn. rewrite RR. repeat split. }
  assert (Y : xyz t'' = map (reframed (lin T) (tra T)) p' /\ tstamps t'' = tstamps t /\ arc t'' = arc t /\ speed t'' = speed t /\ srt t'' = srt t /\ name t'' = name t /\ epsg t'' = epsg t /\
    match rot t2 with None => rot t'' = None | Some r => if (length r =? 0)%nat then rot t'' = Some r else exists q qa q', np_take r (map Z.of_nat (sorting_index argsort t)) = Ok q /\ rot_average_window mean zero f q w = Ok qa /\
      np_take qa (map Z.of_nat (sort_switching_index argsort t)) = Ok q' /\ rot t'' = Some q' end).
  { rewrite <- E1, <- E2, <- E3, <- E4, <- E5, <- E6, <- SI, <- SW. unfold has_orientation in H2. cbn [rot set_xyz] in H2. destruct (rot t2) as [r|] eqn:RR.
    - destruct (length r =? 0)%nat eqn:Z; cbn [negb] in H2; [injection H2 as <-; repeat split; exact RR|].
      apply bind_ok in H2 as (q & G & H2). apply bind_ok in H2 as (qa & G' & H2). apply bind_ok in H2 as (q' & G'' & H2). injection H2 as <-. do 7 (split; [reflexivity|]). exists q, qa, q'.
      unfold quat_sorted in G. rewrite RR in G. auto.
    - cbn [negb] in H2. injection H2 as <-. repeat split; exact RR. }
  clear H H2. destruct X as (X0 & X1 & X2 & X3 & X4 & X5 & X6 & XR). destruct Y as (Y0 & Y1 & Y2 & Y3 & Y4 & Y5 & Y6 & YR).
  assert (CT' : consistent t').
  { destruct CT as (K1 & K2 & K3 & K4). unfold consistent. rewrite X0, X1, X2, X3, LP'. split; [exact K1|]. split; [|split; assumption].
    destruct (rot t) as [r|]; [|rewrite XR; exact I]. destruct (Nat.eqb_spec (length r) 0) as [Z|Z]; [rewrite XR; exact K2|].
    destruct XR as (q & qa & q' & _ & _ & G & ->). rewrite (np_take_length _ _ _ G), map_length. lia. }
  destruct (apply_transformation_rest ops T t') as (A1 & A2 & A3 & A4 & A5 & A6).
  unfold traj_equiv. rewrite A1, A2, A3, A4, A5, A6. split; [congruence|]. split.
  { rewrite (apply_transformation_xyz ops T t' CT'), X0, Y0. apply map_ext. intro v. unfold reframed. apply V3_eq; munf; ring. }
  split; [|repeat split; congruence]. unfold same_rotations.
  destruct (rot t) as [r|] eqn:RR.
  - unfold t2 in YR. rewrite (apply_transformation_rot ops T t r CT RR) in YR. rewrite map_length in YR. destruct (Nat.eqb_spec (length r) 0) as [Z|Z].
    + rewrite (apply_transformation_rot ops T t' r CT' XR), YR. reflexivity.
    + destruct XR as (q & qa & q' & G1 & G2 & G3 & XR). destruct YR as (q2 & qa2 & q2' & K1 & K2 & K3 & YR).
      rewrite (apply_transformation_rot ops T t' q' CT' XR), YR. cbn [option_map]. f_equal.
      assert (TT : forall a, turned_by ops (lin T) a (from_matrix ops (mmul (lin T) (as_matrix ops a)))) by (intro a; unfold turned_by; apply (rc_from _ RC), is_rot_mmul; [exact RT|apply (rc_rot _ RC)]).
      assert (G1' := G1). unfold quat_sorted in G1. rewrite RR in G1. rewrite (take_map _ _ _ _ G1) in K1. injection K1 as <-.
      assert (F0 : Forall2 (turned_by ops (lin T)) q (map (fun r => from_matrix ops (mmul (lin T) (as_matrix ops r))) q)) by (clear - TT; induction q; constructor; auto).
      assert (FW : Forall2 (turned_by ops (lin T)) qa qa2).
      { refine (window_related mean zero f q _ w qa qa2 _ _ F0 _ G2 K2); [rewrite (np_take_length _ _ _ G1), (np_take_length _ _ _ F); reflexivity|].
        intros a b u v NE MU MV. refine (mean_turned ops RC mean (lin T) _ _ u v MC RT _ _ MU MV); [|unfold slice; apply Forall2_firstn, Forall2_skipn, F0].
        destruct (slice_part q a b) as (x & y & EQ). refine (CW ltac:(discriminate) x _ y _ NE). rewrite <- EQ. exact G1'. }
      assert (FT := take_related _ _ _ _ _ _ FW G3 K3). rewrite (turned_matrices ops (lin T) q' q2' FT), !map_map. apply map_ext. intro a. apply TT.
  - unfold t2 in YR. rewrite (apply_transformation_rot_none ops T t RR) in YR. rewrite map_length in YR. rewrite (apply_transformation_rot_none ops T t' XR). rewrite X0.
    set (g := from_matrix ops (mmul (lin T) mident)) in *. assert (GM : as_matrix ops g = lin T) by (unfold g; rewrite mmul_ident_r; apply (rc_from _ RC), RT).
    assert (CONST : forall l : list Q, (forall a, In a l -> as_matrix ops a = lin T) -> length l = length p' -> Some (map (as_matrix ops) (map (fun _ => g) p')) = Some (map (as_matrix ops) l)).
    { clear - GM. intros l AG LL. f_equal. rewrite map_map. revert p' LL. induction l as [|a l IH]; intros [|v p'] LL; cbn in LL; try lia; [reflexivity|]. cbn [map]. apply (f_equal2 cons); [rewrite GM; symmetry; apply AG; left; reflexivity|]. apply IH; [intros b I; apply AG; right; exact I|lia]. }
    destruct (Nat.eqb_spec (length (xyz t)) 0) as [Z|Z].
    + rewrite YR. apply CONST; [|rewrite map_length; lia]. intros a I. apply in_map_iff in I as (v & <- & _). exact GM.
    + destruct YR as (q2 & qa2 & q2' & K1 & K2 & K3 & YR). rewrite YR. apply CONST; [|rewrite (np_take_length _ _ _ K3), map_length; lia].
      assert (Q2 : forall a, In a q2 -> as_matrix ops a = lin T).
      { intros a I. apply In_nth_error in I as [i I]. destruct (sorted_view argsort t (map (fun _ => g) (xyz t)) AC CT ltac:(rewrite map_length; reflexivity)) as (q1 & V1 & PP & _). assert (q1 = q2) by congruence. subst q1.
        apply nth_error_In in I. apply (Permutation_in _ PP) in I. apply in_map_iff in I as (v & <- & _). exact GM. }
      assert (QA : Forall2 (fun a b => as_matrix ops a = lin T /\ a = b) qa2 qa2).
      { assert (F0 : Forall2 (fun a b => as_matrix ops a = lin T /\ a = b) q2 q2) by (clear - Q2; induction q2 as [|a l IH]; constructor; [split; [apply Q2; left; reflexivity|reflexivity]|apply IH; intros b I; apply Q2; right; exact I]).
        refine (window_related mean zero f q2 q2 w qa2 qa2 _ _ F0 _ K2 K2); [rewrite (np_take_length _ _ _ K1), (np_take_length _ _ _ F); reflexivity|].
        intros a b u v NE MU MV. split; [|congruence]. apply (same_clear ops (slice q2 a b)); [exact NE| |exact RT|].
        - intros x I. apply Q2. destruct (slice_part q2 a b) as (x0 & y0 & EQ). rewrite EQ. apply in_or_app. right. apply in_or_app. left. exact I.
        - split; [apply (rc_rot _ RC)|]. intros k RK. apply MC; assumption. }
      assert (FT := take_related _ _ _ _ _ _ QA K3 K3). intros a I. clear - FT I. induction FT as [|x y l l' [H HE] F IH]; [destruct I|]. destruct I as [<- |I]; [rewrite <- HE; exact H|]. apply IH. exact I.
Qed.
Print Assumptions C163.

(** Eight poses on a line, which look ahead, seen in a frame that is turned by a quarter and shifted *)
Definition cruising (r : option (list RotM)) : traj RotM := mkTraj ex_f on_line r ex_f (repeat (mkV3 1 0 0) 8) SortTime EmptyString 0%Z.
Definition seen_from : M4 := mkM4 DirectProps.quarter (mkV3 7 0 2) vzero 1.
Lemma cruising_takes {A} (l : list A) r : length l = 8%nat -> np_take l (map Z.of_nat (sorting_index stable_argsort (cruising r))) = Ok l /\
  np_take l (map Z.of_nat (sort_switching_index stable_argsort (cruising r))) = Ok l.
Proof.
  intro L. assert (SO : StronglySorted Rlt ex_f) by (apply increasing_sorted; unfold ex_f; repeat (constructor; [|constructor; lra]); constructor; constructor).
  assert (E : sorting_index stable_argsort (cruising r) = seq 0 8) by (unfold sorting_index, cruising; cbn [srt tstamps]; exact (argsort_sorted _ _ stable_argsort_contract SO)).
  assert (E' : sort_switching_index stable_argsort (cruising r) = seq 0 8).
  { unfold sort_switching_index. rewrite E. rewrite argsort_sorted; [reflexivity|exact stable_argsort_contract|]. apply increasing_sorted. cbn [map seq]. repeat (constructor; [|constructor; apply lt_INR; lia]). constructor; constructor. }
  rewrite E, E'. split; apply take_all; symmetry; exact L.
Qed.
Lemma equal_windows q zero f w : f <> [] -> exists r, rot_average_window mean_equal zero f (repeat q (length f)) w = Ok r.
Proof.
  intro NE. unfold rot_average_window. assert (X : exists ext, window_ext f w = Ok ext).
  { unfold window_ext. set (b := distinct _). assert (N : b <> 0%nat) by (unfold b, distinct; destruct f as [|x f]; [congruence|]; cbn; destruct (in_dec _ _ _) as [I|]; cbn; [|lia]; intro Z; apply length_zero_iff_nil in Z; apply (nodup_In Z.eq_dec) in I; rewrite Z in I; destruct I).
    apply Nat.eqb_neq in N. rewrite N. eexists. reflexivity. }
  destruct X as [ext E]. rewrite E. cbn [bind]. destruct (Nat.eqb_spec ext 0) as [Z|Z]; [eexists; reflexivity|]. assert (T := window_two f w ext E Z). rewrite repeat_length.
  match goal with |- context [mapM ?g ?l] => destruct (mapM_total g l) as [rows R] end; [|rewrite R; eexists; reflexivity].
  intros i I. apply in_seq in I. set (l := slice _ _ _). assert (A : forall x, In x l -> x = q).
  { intros x J. destruct (slice_part (repeat q (length f)) (i - ext) (Nat.min (length f - 1) (i + ext))) as (u & v & EQ). fold l in EQ. apply (repeat_spec (length f) q). rewrite EQ. apply in_or_app. right. apply in_or_app. left. exact J. }
  assert (N : l <> []) by (intro EM; apply (f_equal (@length _)) in EM; unfold l, slice in EM; rewrite firstn_length, skipn_length, repeat_length in EM; cbn in EM; lia).
  destruct l as [|y l]; [congruence|]. exists y. assert (L : (i <? length f)%nat = true) by (apply Nat.ltb_lt; lia). cbn [mean_equal]. rewrite (proj2 (forallb_forall _ _)); [cbn [bind]; rewrite L; reflexivity|].
  intros x J. apply M3eqb_true. rewrite (A x (or_intror J)), (A y (or_introl eq_refl)). reflexivity.
Qed.
Lemma cruising_smooth q w : exists t', approximate stable_argsort (fun f p => piecewise_cubic gauss f p 4 4) (fun f q => rot_average_window mean_equal ident_q f q w) (cruising (Some (repeat q 8))) = Ok t'.
Proof.
  unfold approximate, function_of, xyz_sorted, quat_sorted. cbn [srt cruising tstamps xyz rot]. rewrite (proj1 (cruising_takes ex_f _ eq_refl)), (proj1 (cruising_takes on_line _ eq_refl)). cbn [bind].
  destruct C162_case as (_ & _ & _ & P & _). rewrite P. cbn [bind]. rewrite (proj2 (cruising_takes smoothed _ eq_refl)). cbn [bind]. unfold has_orientation. cbn [rot set_xyz cruising length repeat Nat.eqb negb].
  rewrite (proj1 (cruising_takes (repeat q 8) _ eq_refl)). cbn [bind]. destruct (equal_windows q ident_q ex_f w) as [r R]; [discriminate|]. change (length ex_f) with 8%nat in R. rewrite R. cbn [bind].
  apply (C52_constant RotM mean_equal ident_q ex_f q w) in R; [|intros l N A; destruct l as [|y l]; [congruence|]; cbn [mean_equal]; rewrite (proj2 (forallb_forall _ _)); [rewrite (A y (or_introl eq_refl)); reflexivity|];
    intros x J; apply M3eqb_true; rewrite (A x (or_intror J)), (A y (or_introl eq_refl)); reflexivity].
  rewrite R, (proj2 (cruising_takes (repeat q (length ex_f)) _ eq_refl)). eexists. reflexivity.
Qed.
Example C163_case : exists t' t'', rot_contract rot_impl /\ argsort_contract stable_argsort /\ mean_contract rot_impl mean_equal /\ is_rot (lin seen_from) /\ consistent (cruising (Some (repeat ident_q 8))) /\
  clear_windows rot_impl stable_argsort (cruising (Some (repeat ident_q 8))) /\
  let smooth := approximate stable_argsort (fun f p => piecewise_cubic gauss f p 4 4) (fun f q => rot_average_window mean_equal ident_q f q 4) in
  smooth (cruising (Some (repeat ident_q 8))) = Ok t' /\ smooth (apply_transformation rot_impl seen_from (cruising (Some (repeat ident_q 8)))) = Ok t''.
Proof.
  destruct (cruising_smooth ident_q 4) as [t' H]. 
  assert (CC : consistent (cruising (Some (repeat ident_q 8)))) by (repeat split).
  assert (E : exists t'', approximate stable_argsort (fun f p => piecewise_cubic gauss f p 4 4) (fun f q => rot_average_window mean_equal ident_q f q 4) (apply_transformation rot_impl seen_from (cruising (Some (repeat ident_q 8)))) = Ok t'').
  { set (t2 := apply_transformation _ _ _). assert (E2 : t2 = set_xyz (map (reframed quarter_turn (mkV3 7 0 2)) on_line) (cruising (Some (repeat (from_matrix rot_impl (mmul (lin seen_from) mident)) 8)))).
    { assert (X1 : xyz t2 = map (reframed quarter_turn (mkV3 7 0 2)) on_line).
      { unfold t2. rewrite (apply_transformation_xyz rot_impl seen_from _ CC). apply map_ext. intro p. unfold reframed, quarter_turn, seen_from, DirectProps.quarter. cbn [lin tra]. apply V3_eq; munf; ring. }
      assert (X2 : rot t2 = Some (repeat (from_matrix rot_impl (mmul (lin seen_from) mident)) 8)) by (unfold t2; rewrite (apply_transformation_rot rot_impl seen_from _ _ CC eq_refl); reflexivity).
      transitivity (mkTraj (tstamps t2) (xyz t2) (rot t2) (arc t2) (speed t2) (srt t2) (name t2) (epsg t2)); [destruct t2; reflexivity|]. rewrite X1, X2. reflexivity. }
    rewrite E2. destruct (cruising_smooth (from_matrix rot_impl (mmul (lin seen_from) mident)) 4) as [t'' H2]. eexists.
    exact (C162_trajectory RotM stable_argsort gauss _ 4 4 quarter_turn (mkV3 7 0 2) _ t'' gauss_contract gauss_decides H2). }
  destruct E as [t'' H2]. exists t', t''. split; [exact rot_impl_contract|]. split; [exact stable_argsort_contract|]. split; [exact mean_equal_contract|]. split; [exact DirectProps.quarter_rot|]. split; [exact CC|].
  split; [|split; [exact H|exact H2]]. intros a l b QS NE m m' M M'.
  assert (A : forall q, In q l -> as_matrix rot_impl q = mident).
  { intros q I. unfold quat_sorted in QS. cbn [rot cruising] in QS. rewrite (proj1 (cruising_takes (repeat ident_q 8) _ eq_refl)) in QS. injection QS as QS.
    assert (J : In q (repeat ident_q 8)) by (change (repeat ident_q 8) with [ident_q; ident_q; ident_q; ident_q; ident_q; ident_q; ident_q; ident_q]; rewrite QS; apply in_or_app; right; apply in_or_app; left; exact I).
    apply repeat_spec in J. subst q. reflexivity. }
  transitivity mident; [|symmetry]; apply (same_clear rot_impl l mident NE A is_rot_ident); assumption.
Qed.
