(** Reading back a written trajectory file. *)
From Verif Require Import Base BaseFacts EstModel TextModel TextFacts HeaderModel NumpyModel TrajModel TrajSpec GeomModel GeomSpec IoModel IoSpec HeaderFacts IoFacts.
Local Open Scope string_scope.
Local Arguments Ascii.eqb : simpl never.
Local Opaque newline return_char.

Definition rd3 (T : text_ops) (v : V3) : V3 := mkV3 (rd T (vx v)) (rd T (vy v)) (rd T (vz v)).
Definition rd4 (T : text_ops) (v : V4) : V4 := mkV4 (rd T (q_x v)) (rd T (q_y v)) (rd T (q_z v)) (rd T (q_w v)).

Lemma zip_fin T (l : list V3) :
  all_some (map fin_v3 (zip_v3 [map (fun x => Fin (rd T x)) (map vx l); map (fun x => Fin (rd T x)) (map vy l);
                                map (fun x => Fin (rd T x)) (map vz l)])) = Some (map (rd3 T) l).
Proof.
  unfold zip_v3. induction l as [|v l IH]; [reflexivity|]. cbn [map zip3]. cbn [map all_some]. unfold fin_v3 at 1.
  rewrite IH. reflexivity.
Qed.
Lemma zip4_fin T (l : list V4) :
  all_some (zip_v4 (map (fun x => Fin (rd T x)) (map q_x l)) (map (fun x => Fin (rd T x)) (map q_y l))
                   (map (fun x => Fin (rd T x)) (map q_z l)) (map (fun x => Fin (rd T x)) (map q_w l)))
  = Some (map (rd4 T) l).
Proof. induction l as [|v l IH]; [reflexivity|]. cbn [map zip_v4 all_some]. rewrite IH. reflexivity. Qed.

(** ** Quaternions after reading *)

Lemma dot4_bound a b c d x y z w : a * a + b * b + c * c + d * d = 1 ->
  (a * x + b * y + c * z + d * w) * (a * x + b * y + c * z + d * w) <= x * x + y * y + z * z + w * w.
Proof.
  intro N.
  assert (x * x + y * y + z * z + w * w - (a * x + b * y + c * z + d * w) * (a * x + b * y + c * z + d * w) =
          (a * y - b * x) * (a * y - b * x) + (a * z - c * x) * (a * z - c * x) + (a * w - d * x) * (a * w - d * x) +
          (b * z - c * y) * (b * z - c * y) + (b * w - d * y) * (b * w - d * y) + (c * w - d * z) * (c * w - d * z)) as E.
  { replace (x * x + y * y + z * z + w * w) with ((a * a + b * b + c * c + d * d) * (x * x + y * y + z * z + w * w)) by (rewrite N; ring).
    ring. }
  pose proof (Rle_0_sqr (a * y - b * x)). pose proof (Rle_0_sqr (a * z - c * x)). pose proof (Rle_0_sqr (a * w - d * x)).
  pose proof (Rle_0_sqr (b * z - c * y)). pose proof (Rle_0_sqr (b * w - d * y)). pose proof (Rle_0_sqr (c * w - d * z)).
  unfold Rsqr in *. lra.
Qed.

Lemma abs_sq (x e : R) : Rabs x <= e -> x * x <= e * e.
Proof.
  intro H. assert (0 <= e) as E by (apply Rle_trans with (2 := H); apply Rabs_pos).
  apply Rsqr_le_abs_1. rewrite (Rabs_right e) by lra. exact H.
Qed.

Lemma norm_near (v w : V4) e : qnorm v = 1 -> 0 <= e < 1/4 ->
  Rabs (q_x w - q_x v) <= e -> Rabs (q_y w - q_y v) <= e -> Rabs (q_z w - q_z v) <= e -> Rabs (q_w w - q_w v) <= e ->
  1 - 2 * e <= qnorm w <= 1 + 2 * e.
Proof.
  intros N E X Y Z W. destruct v as [a b c d], w as [a' b' c' d']. cbn [q_x q_y q_z q_w] in *.
  unfold qnorm in *. cbn [q_x q_y q_z q_w] in *.
  assert (a * a + b * b + c * c + d * d = 1) as N1.
  { assert (0 <= a * a + b * b + c * c + d * d) as P.
    { pose proof (Rle_0_sqr a). pose proof (Rle_0_sqr b). pose proof (Rle_0_sqr c). pose proof (Rle_0_sqr d). unfold Rsqr in *. lra. }
    rewrite <- (sqrt_sqrt _ P), N. ring. }
  pose proof (dot4_bound a b c d (a' - a) (b' - b) (c' - c) (d' - d) N1) as CS.
  apply abs_sq in X, Y, Z, W.
  set (p := a * (a' - a) + b * (b' - b) + c * (c' - c) + d * (d' - d)) in *.
  set (s := (a' - a) * (a' - a) + (b' - b) * (b' - b) + (c' - c) * (c' - c) + (d' - d) * (d' - d)) in *.
  assert (a' * a' + b' * b' + c' * c' + d' * d' = 1 + 2 * p + s) as EQ.
  { rewrite <- N1. unfold p, s. ring. }
  assert (s <= 4 * (e * e)) as SB by (unfold s; lra).
  assert (0 <= s) as S0.
  { unfold s. pose proof (Rle_0_sqr (a' - a)). pose proof (Rle_0_sqr (b' - b)). pose proof (Rle_0_sqr (c' - c)).
    pose proof (Rle_0_sqr (d' - d)). unfold Rsqr in *. lra. }
  assert (Rabs p <= sqrt s) as PB.
  { rewrite <- sqrt_Rsqr_abs. apply sqrt_le_1_alt. exact CS. }
  assert (sqrt s <= 2 * e) as SE.
  { rewrite <- (sqrt_square (2 * e)) by lra. apply sqrt_le_1_alt. lra. }
  pose proof (sqrt_pos s) as Q0. pose proof (sqrt_sqrt s S0) as QS.
  assert (- sqrt s <= p <= sqrt s) as PB' by (unfold Rabs in PB; destruct (Rcase_abs p); lra).
  all: rewrite EQ; split.
  all: try (apply Rle_trans with (1 - sqrt s); [lra|];
    rewrite <- (sqrt_square (1 - sqrt s)) by lra; apply sqrt_le_1_alt; lra).
  all: apply Rle_trans with (1 + sqrt s); [|lra];
    rewrite <- (sqrt_square (1 + sqrt s)) by lra; apply sqrt_le_1_alt; lra.
Qed.

Lemma component_le_norm (v : V4) (x : R) : In x [q_x v; q_y v; q_z v; q_w v] -> Rabs x <= qnorm v.
Proof.
  intro I. unfold qnorm. rewrite <- sqrt_Rsqr_abs. apply sqrt_le_1_alt. unfold Rsqr.
  pose proof (Rle_0_sqr (q_x v)). pose proof (Rle_0_sqr (q_y v)). pose proof (Rle_0_sqr (q_z v)). pose proof (Rle_0_sqr (q_w v)).
  unfold Rsqr in *. cbn in I. destruct I as [<-|[<-|[<-|[<-|[]]]]]; lra.
Qed.

Lemma scaled_component n x y : 0 < n -> Rabs y <= n -> 1 - 2 * (5 / 10 ^ 10) <= n <= 1 + 2 * (5 / 10 ^ 10) ->
  Rabs (y - x) <= 5 / 10 ^ 10 -> Rabs (/ n * y - x) <= 15 / 10 ^ 10.
Proof.
  intros P B N D.
  replace (/ n * y - x) with (/ n * y * (1 - n) + (y - x)) by (field; lra).
  apply Rle_trans with (Rabs (/ n * y * (1 - n)) + Rabs (y - x)); [apply Rabs_triang|].
  rewrite Rabs_mult.
  assert (Rabs (/ n * y) <= 1) as U.
  { rewrite Rabs_mult, Rabs_right by (apply Rle_ge; left; apply Rinv_0_lt_compat; exact P).
    apply Rmult_le_reg_l with n; [exact P|]. rewrite <- Rmult_assoc, Rinv_r, Rmult_1_l, Rmult_1_r by lra. exact B. }
  assert (Rabs (1 - n) <= 2 * (5 / 10 ^ 10)) as W by (apply Rabs_le; lra).
  assert (Rabs (/ n * y) * Rabs (1 - n) <= 1 * (2 * (5 / 10 ^ 10))) as M.
  { apply Rmult_le_compat; try apply Rabs_pos; assumption. }
  lra.
Qed.

Lemma forall2_length {A B} (P : A -> B -> Prop) l l' : Forall2 P l l' -> length l = length l'.
Proof. induction 1; cbn; congruence. Qed.
Lemma forall2_map_r {A B C} (P : A -> C -> Prop) (f : B -> C) l l' : Forall2 (fun a b => P a (f b)) l l' -> Forall2 P l (map f l').
Proof. induction 1; constructor; assumption. Qed.

Section Quat.
  Context {Q : Type} (ops : rot_ops Q) (qops : quat_ops Q) (QC : quat_contract ops qops) (T : text_ops) (TC : text_contract T).

  Lemma quat_read q : exists q', from_quat qops (rd4 T (as_quat qops q)) = Some q' /\ near_quat (as_quat qops q) (as_quat qops q').
  Proof.
    set (v := as_quat qops q). assert (qnorm v = 1) as U by apply (qc_unit ops qops QC).
    assert (1 - 2 * (5 / 10 ^ 10) <= qnorm (rd4 T v) <= 1 + 2 * (5 / 10 ^ 10)) as N.
    { apply norm_near with (v := v); [exact U|lra|..]; cbn [rd4 q_x q_y q_z q_w]; apply rd_near; exact TC. }
    assert (0 < qnorm (rd4 T v)) as P by lra.
    destruct (qc_from ops qops QC (rd4 T v)) as [q' [F E]]; [lra|].
    exists q'. split; [exact F|]. rewrite E. unfold near_quat, qscale. cbn [q_x q_y q_z q_w].
    assert (forall x, In x [q_x (rd4 T v); q_y (rd4 T v); q_z (rd4 T v); q_w (rd4 T v)] -> Rabs x <= qnorm (rd4 T v)) as C
      by (intros x I; apply component_le_norm; exact I).
    repeat split; apply scaled_component; try assumption; try (apply C; cbn; tauto); cbn [rd4 q_x q_y q_z q_w]; apply rd_near; exact TC.
  Qed.

  Lemma quats_read (l : list Q) : exists l',
    mapM (fun v => match from_quat qops v with Some q => Ok q | None => Err ValueError end) (map (fun q => rd4 T (as_quat qops q)) l) = Ok l' /\
    Forall2 (fun q q' => near_quat (as_quat qops q) (as_quat qops (rmul ops (from_matrix ops mident) q'))) l l'.
  Proof.
    induction l as [|q l [l' [E F]]]; [exists []; split; [reflexivity|constructor]|].
    destruct (quat_read q) as [q' [A B]]. exists (q' :: l'). split.
    - cbn [map mapM]. rewrite A. cbn [bind]. rewrite E. reflexivity.
    - constructor; [|exact F]. rewrite (qc_ident ops qops QC). exact B.
  Qed.

  (** ** Columns of the written table *)

  Definition std_header (h : header) (fields : string) : Prop :=
    h_fields h = split_on "," fields /\ h_nframe h = "enu" /\ h_time_format h = Ok UNIX /\ h_time_offset h = Fin 0.

  Lemma col n rows j l : (j < n)%nat -> Forall (fun r => length r = n) rows -> map (fun r => nth j r 0) rows = l ->
    column (Table n (map (shown T) rows)) j = Ok (map (fun x => Some (show9 T x)) l).
  Proof. intros L F <-. apply column_shown; assumption. Qed.

  Lemma enu_ident : get_rot_matrix "enu" = Ok mident.
  Proof. reflexivity. Qed.

  Lemma shift_zero (l : list R) : map (fun x => num_add x (Fin 0)) (map (fun x => Fin (rd T x)) l) = map (fun x => Fin (rd T x)) l.
  Proof. rewrite map_map. apply map_ext. intro x. cbn. rewrite Rplus_0_r. reflexivity. Qed.

  Lemma new_traj_given loc ps ep ro ts nm al sp so : length ts = length ps -> length al = length ps -> length sp = length ps ->
    (forall q, ro = Some q -> length q = length ps) ->
    new_traj (Q := Q) loc ps ep ro (Some ts) nm (Some al) (Some sp) so = Ok (mkTraj ts ps ro al sp so nm ep).
  Proof.
    intros A B C D. unfold new_traj. rewrite C, B, !Nat.eqb_refl.
    destruct ro as [q|]; [rewrite (D q eq_refl), Nat.eqb_refl|]; reflexivity.
  Qed.

  Definition read_name (counted : string) (h : header) : string := if String.eqb (h_name h) "" then counted else h_name h.

  Lemma read_plain C loc counted h ts al ps vs n :
    std_header h "t,l,px,py,pz,vx,vy,vz" ->
    length ts = n -> length al = n -> length ps = n -> length vs = n ->
    from_read ops qops T C loc counted (Ok (h, Table 8 (map (shown T) (rows_of ts al ps (map (fun _ => []) ps) vs)))) =
    Ok (Some (mkTraj (map (rd T) ts) (map (rd3 T) ps) None (map (rd T) al) (map (rd3 T) vs) SortTime (read_name counted h) (h_epsg h))).
  Proof.
    intros [HF [HN [HT HO]]] L1 L2 L3 L4.
    set (rows := rows_of ts al ps (map (fun _ => []) ps) vs).
    assert (Forall (fun q : list R => length q = 0%nat) (map (fun _ => []) ps)) as FQ.
    { apply Forall_forall. intros q I. apply in_map_iff in I as [x [<- _]]. reflexivity. }
    pose proof (rows_of_length 0 ts al ps _ vs FQ) as FR. fold rows in FR. cbn [plus] in FR.
    assert (eqlen ts al ps (map (fun _ => []) ps) vs) as EL by (apply eqlen_of with n; try assumption; rewrite map_length; exact L3).
    assert (forall j (g : R -> R -> V3 -> list R -> V3 -> R)
       (P : list R -> list R -> list V3 -> list (list R) -> list V3 -> list R),
       (forall t a p v, nth j ([t; a] ++ v3_values p ++ [] ++ v3_values v)%list 0 = g t a p [] v) ->
       P [] [] [] [] [] = [] ->
       (forall t a p q v ts al ps qs vs, P (t :: ts) (a :: al) (p :: ps) (q :: qs) (v :: vs) = g t a p q v :: P ts al ps qs vs) ->
       map (fun r => nth j r 0) rows = P ts al ps (map (fun _ => []) ps) vs) as COL.
    { intros j g P F P0 PS. apply rows_of_map with (g := g); [exact EL| |exact P0|exact PS].
      intros t a p q v I. apply in_map_iff in I as [x [<- _]]. apply F. }
    assert (map (fun r => nth 0 r 0) rows = ts) as C0 by
      (apply (COL 0%nat (fun t _ _ _ _ => t) (fun ts _ _ _ _ => ts)); reflexivity).
    assert (map (fun r => nth 1 r 0) rows = al) as C1 by
      (apply (COL 1%nat (fun _ a _ _ _ => a) (fun _ al _ _ _ => al)); reflexivity).
    assert (map (fun r => nth 2 r 0) rows = map vx ps) as C2 by
      (apply (COL 2%nat (fun _ _ p _ _ => vx p) (fun _ _ ps _ _ => map vx ps)); reflexivity).
    assert (map (fun r => nth 3 r 0) rows = map vy ps) as C3 by
      (apply (COL 3%nat (fun _ _ p _ _ => vy p) (fun _ _ ps _ _ => map vy ps)); reflexivity).
    assert (map (fun r => nth 4 r 0) rows = map vz ps) as C4 by
      (apply (COL 4%nat (fun _ _ p _ _ => vz p) (fun _ _ ps _ _ => map vz ps)); reflexivity).
    assert (map (fun r => nth 5 r 0) rows = map vx vs) as C5 by
      (apply (COL 5%nat (fun _ _ _ _ v => vx v) (fun _ _ _ _ vs => map vx vs)); reflexivity).
    assert (map (fun r => nth 6 r 0) rows = map vy vs) as C6 by
      (apply (COL 6%nat (fun _ _ _ _ v => vy v) (fun _ _ _ _ vs => map vy vs)); reflexivity).
    assert (map (fun r => nth 7 r 0) rows = map vz vs) as C7 by
      (apply (COL 7%nat (fun _ _ _ _ v => vz v) (fun _ _ _ _ vs => map vz vs)); reflexivity).
    unfold from_read. cbn [bind].
    set (d := Table 8 (map (shown T) rows)).
    assert (forall j l, (j < 8)%nat -> map (fun r => nth j r 0) rows = l ->
      column d j = Ok (map (fun x => Some (show9 T x)) l)) as CD by (intros j l J E; apply col; assumption).
    assert (extract_timestamps T C h d = Ok (map (fun x => Fin (rd T x)) ts)) as ET.
    { unfold extract_timestamps. rewrite HF, HT, HO. cbn [bind].
      replace (index_of "t" (split_on "," "t,l,px,py,pz,vx,vy,vz")) with (Ok 0%nat) by (vm_compute; reflexivity). cbn [bind].
      replace (length (time_columns (split_on "," "t,l,px,py,pz,vx,vy,vz")) =? 1)%nat with true by (vm_compute; reflexivity). cbv iota.
      rewrite (CD 0%nat ts) by (lia || exact C0). cbn [bind]. rewrite to_nums_shown by exact TC.
      cbn [rmap]. rewrite shift_zero. reflexivity. }
    rewrite ET. cbn [bind].
    assert (extract_pointset T h d = Ok (zip_v3 [map (fun x => Fin (rd T x)) (map vx ps); map (fun x => Fin (rd T x)) (map vy ps); map (fun x => Fin (rd T x)) (map vz ps)])) as EP.
    { unfold extract_pointset, columns. rewrite HF.
      replace (mapM (fun a => index_of a (split_on "," "t,l,px,py,pz,vx,vy,vz")) ["px"; "py"; "pz"]) with (@Ok (list nat) [2; 3; 4]%nat) by (vm_compute; reflexivity).
      cbn [bind mapM]. rewrite (CD 2%nat _ ltac:(lia) C2), (CD 3%nat _ ltac:(lia) C3), (CD 4%nat _ ltac:(lia) C4). cbn [bind mapM].
      rewrite !to_nums_shown by exact TC. reflexivity. }
    rewrite EP. cbn [bind].
    assert (extract_arc_lengths T h d = Ok (Some (map (fun x => Fin (rd T x)) al))) as EA.
    { unfold extract_arc_lengths. rewrite HF.
      replace (member "l" (split_on "," "t,l,px,py,pz,vx,vy,vz")) with true by (vm_compute; reflexivity). cbv iota.
      replace (index_of "l" (split_on "," "t,l,px,py,pz,vx,vy,vz")) with (Ok 1%nat) by (vm_compute; reflexivity). cbn [bind].
      rewrite (CD 1%nat _ ltac:(lia) C1). cbn [bind]. rewrite to_nums_shown by exact TC. reflexivity. }
    rewrite EA. cbn [bind].
    assert (extract_speed T h d = Ok (Some (zip_v3 [map (fun x => Fin (rd T x)) (map vx vs); map (fun x => Fin (rd T x)) (map vy vs); map (fun x => Fin (rd T x)) (map vz vs)]))) as EV.
    { unfold extract_speed, columns. rewrite HF.
      replace (forallb (fun a => member a (split_on "," "t,l,px,py,pz,vx,vy,vz")) ["vx"; "vy"; "vz"]) with true by (vm_compute; reflexivity). cbv iota.
      replace (mapM (fun a => index_of a (split_on "," "t,l,px,py,pz,vx,vy,vz")) ["vx"; "vy"; "vz"]) with (@Ok (list nat) [5; 6; 7]%nat) by (vm_compute; reflexivity).
      cbn [bind mapM]. rewrite (CD 5%nat _ ltac:(lia) C5), (CD 6%nat _ ltac:(lia) C6), (CD 7%nat _ ltac:(lia) C7). cbn [bind mapM].
      rewrite !to_nums_shown by exact TC. reflexivity. }
    rewrite EV. cbn [bind].
    assert (extract_rotations ops qops T h d = Ok None) as ER.
    { unfold extract_rotations. rewrite HF. reflexivity. }
    rewrite ER. cbn [bind]. unfold from_parts.
    rewrite <- (map_map (rd T) Fin ts), all_finite_fin, zip_fin. cbn [opt_finite].
    rewrite <- (map_map (rd T) Fin al), all_finite_fin, zip_fin. cbn [opt_finite].
    rewrite new_traj_given; [reflexivity|..]; rewrite ?map_length; congruence.
  Qed.

  Lemma read_quats C loc counted h ts al ps (qs : list Q) vs n :
    std_header h "t,l,px,py,pz,qx,qy,qz,qw,vx,vy,vz" ->
    length ts = n -> length al = n -> length ps = n -> length qs = n -> length vs = n ->
    exists qs',
    from_read ops qops T C loc counted (Ok (h, Table 12 (map (shown T) (rows_of ts al ps (map (fun q => quat_values (as_quat qops q)) qs) vs)))) =
    Ok (Some (mkTraj (map (rd T) ts) (map (rd3 T) ps) (Some qs') (map (rd T) al) (map (rd3 T) vs) SortTime (read_name counted h) (h_epsg h))) /\
    Forall2 (fun q q' => near_quat (as_quat qops q) (as_quat qops q')) qs qs'.
  Proof.
    intros [HF [HN [HT HO]]] L1 L2 L3 L5 L4.
    set (rows := rows_of ts al ps (map (fun q => quat_values (as_quat qops q)) qs) vs).
    assert (Forall (fun q : list R => length q = 4%nat) (map (fun q => quat_values (as_quat qops q)) qs)) as FQ.
    { apply Forall_forall. intros q I. apply in_map_iff in I as [x [<- _]]. reflexivity. }
    pose proof (rows_of_length 4 ts al ps _ vs FQ) as FR. fold rows in FR. cbn [plus] in FR.
    assert (eqlen ts al ps (map (fun q => quat_values (as_quat qops q)) qs) vs) as EL by (apply eqlen_of with n; try assumption; rewrite map_length; exact L5).
    assert (forall j (g : R -> R -> V3 -> list R -> V3 -> R)
       (P : list R -> list R -> list V3 -> list (list R) -> list V3 -> list R),
       (forall t a p q v, nth j ([t; a] ++ v3_values p ++ quat_values q ++ v3_values v)%list 0 = g t a p (quat_values q) v) ->
       P [] [] [] [] [] = [] ->
       (forall t a p q v ts al ps qs vs, P (t :: ts) (a :: al) (p :: ps) (q :: qs) (v :: vs) = g t a p q v :: P ts al ps qs vs) ->
       map (fun r => nth j r 0) rows = P ts al ps (map (fun q => quat_values (as_quat qops q)) qs) vs) as COL.
    { intros j g P F P0 PS. apply rows_of_map with (g := g); [exact EL| |exact P0|exact PS].
      intros t a p q v I. apply in_map_iff in I as [x [<- _]]. apply F. }
    assert (map (fun r => nth 0 r 0) rows = ts) as C0 by
      (apply (COL 0%nat (fun t _ _ _ _ => t) (fun ts _ _ _ _ => ts)); reflexivity).
    assert (map (fun r => nth 1 r 0) rows = al) as C1 by
      (apply (COL 1%nat (fun _ a _ _ _ => a) (fun _ al _ _ _ => al)); reflexivity).
    assert (map (fun r => nth 2 r 0) rows = map vx ps) as C2 by
      (apply (COL 2%nat (fun _ _ p _ _ => vx p) (fun _ _ ps _ _ => map vx ps)); reflexivity).
    assert (map (fun r => nth 3 r 0) rows = map vy ps) as C3 by
      (apply (COL 3%nat (fun _ _ p _ _ => vy p) (fun _ _ ps _ _ => map vy ps)); reflexivity).
    assert (map (fun r => nth 4 r 0) rows = map vz ps) as C4 by
      (apply (COL 4%nat (fun _ _ p _ _ => vz p) (fun _ _ ps _ _ => map vz ps)); reflexivity).
    assert (map (fun r => nth 5 r 0) rows = map q_x (map (as_quat qops) qs)) as C5.
    { rewrite (COL 5%nat (fun _ _ _ q _ => nth 0 q 0) (fun _ _ _ qs _ => map (fun q => nth 0 q 0) qs)) by reflexivity.
      rewrite !map_map. reflexivity. }
    assert (map (fun r => nth 6 r 0) rows = map q_y (map (as_quat qops) qs)) as C6.
    { rewrite (COL 6%nat (fun _ _ _ q _ => nth 1 q 0) (fun _ _ _ qs _ => map (fun q => nth 1 q 0) qs)) by reflexivity.
      rewrite !map_map. reflexivity. }
    assert (map (fun r => nth 7 r 0) rows = map q_z (map (as_quat qops) qs)) as C7.
    { rewrite (COL 7%nat (fun _ _ _ q _ => nth 2 q 0) (fun _ _ _ qs _ => map (fun q => nth 2 q 0) qs)) by reflexivity.
      rewrite !map_map. reflexivity. }
    assert (map (fun r => nth 8 r 0) rows = map q_w (map (as_quat qops) qs)) as C8.
    { rewrite (COL 8%nat (fun _ _ _ q _ => nth 3 q 0) (fun _ _ _ qs _ => map (fun q => nth 3 q 0) qs)) by reflexivity.
      rewrite !map_map. reflexivity. }
    assert (map (fun r => nth 9 r 0) rows = map vx vs) as C9 by
      (apply (COL 9%nat (fun _ _ _ _ v => vx v) (fun _ _ _ _ vs => map vx vs)); reflexivity).
    assert (map (fun r => nth 10 r 0) rows = map vy vs) as C10 by
      (apply (COL 10%nat (fun _ _ _ _ v => vy v) (fun _ _ _ _ vs => map vy vs)); reflexivity).
    assert (map (fun r => nth 11 r 0) rows = map vz vs) as C11 by
      (apply (COL 11%nat (fun _ _ _ _ v => vz v) (fun _ _ _ _ vs => map vz vs)); reflexivity).
    unfold from_read. cbn [bind].
    set (d := Table 12 (map (shown T) rows)).
    assert (forall j l, (j < 12)%nat -> map (fun r => nth j r 0) rows = l ->
      column d j = Ok (map (fun x => Some (show9 T x)) l)) as CD by (intros j l J E; apply col; assumption).
    assert (extract_timestamps T C h d = Ok (map (fun x => Fin (rd T x)) ts)) as ET.
    { unfold extract_timestamps. rewrite HF, HT, HO. cbn [bind].
      replace (index_of "t" (split_on "," "t,l,px,py,pz,qx,qy,qz,qw,vx,vy,vz")) with (Ok 0%nat) by (vm_compute; reflexivity). cbn [bind].
      replace (length (time_columns (split_on "," "t,l,px,py,pz,qx,qy,qz,qw,vx,vy,vz")) =? 1)%nat with true by (vm_compute; reflexivity). cbv iota.
      rewrite (CD 0%nat ts) by (lia || exact C0). cbn [bind]. rewrite to_nums_shown by exact TC.
      cbn [rmap]. rewrite shift_zero. reflexivity. }
    rewrite ET. cbn [bind].
    assert (extract_pointset T h d = Ok (zip_v3 [map (fun x => Fin (rd T x)) (map vx ps); map (fun x => Fin (rd T x)) (map vy ps); map (fun x => Fin (rd T x)) (map vz ps)])) as EP.
    { unfold extract_pointset, columns. rewrite HF.
      replace (mapM (fun a => index_of a (split_on "," "t,l,px,py,pz,qx,qy,qz,qw,vx,vy,vz")) ["px"; "py"; "pz"]) with (@Ok (list nat) [2; 3; 4]%nat) by (vm_compute; reflexivity).
      cbn [bind mapM]. rewrite (CD 2%nat _ ltac:(lia) C2), (CD 3%nat _ ltac:(lia) C3), (CD 4%nat _ ltac:(lia) C4). cbn [bind mapM].
      rewrite !to_nums_shown by exact TC. reflexivity. }
    rewrite EP. cbn [bind].
    assert (extract_arc_lengths T h d = Ok (Some (map (fun x => Fin (rd T x)) al))) as EA.
    { unfold extract_arc_lengths. rewrite HF.
      replace (member "l" (split_on "," "t,l,px,py,pz,qx,qy,qz,qw,vx,vy,vz")) with true by (vm_compute; reflexivity). cbv iota.
      replace (index_of "l" (split_on "," "t,l,px,py,pz,qx,qy,qz,qw,vx,vy,vz")) with (Ok 1%nat) by (vm_compute; reflexivity). cbn [bind].
      rewrite (CD 1%nat _ ltac:(lia) C1). cbn [bind]. rewrite to_nums_shown by exact TC. reflexivity. }
    rewrite EA. cbn [bind].
    assert (extract_speed T h d = Ok (Some (zip_v3 [map (fun x => Fin (rd T x)) (map vx vs); map (fun x => Fin (rd T x)) (map vy vs); map (fun x => Fin (rd T x)) (map vz vs)]))) as EV.
    { unfold extract_speed, columns. rewrite HF.
      replace (forallb (fun a => member a (split_on "," "t,l,px,py,pz,qx,qy,qz,qw,vx,vy,vz")) ["vx"; "vy"; "vz"]) with true by (vm_compute; reflexivity). cbv iota.
      replace (mapM (fun a => index_of a (split_on "," "t,l,px,py,pz,qx,qy,qz,qw,vx,vy,vz")) ["vx"; "vy"; "vz"]) with (@Ok (list nat) [9; 10; 11]%nat) by (vm_compute; reflexivity).
      cbn [bind mapM]. rewrite (CD 9%nat _ ltac:(lia) C9), (CD 10%nat _ ltac:(lia) C10), (CD 11%nat _ ltac:(lia) C11). cbn [bind mapM].
      rewrite !to_nums_shown by exact TC. reflexivity. }
    rewrite EV. cbn [bind].
    destruct (quats_read qs) as [l' [ML F2]].
    exists (map (rmul ops (from_matrix ops mident)) l').
    assert (extract_rotations ops qops T h d = Ok (Some (Some (map (rmul ops (from_matrix ops mident)) l')))) as ER.
    { unfold extract_rotations. rewrite HF, HN.
      replace (forallb (fun a => member a (split_on "," "t,l,px,py,pz,qx,qy,qz,qw,vx,vy,vz")) ["qx"; "qy"; "qz"; "qw"]) with true by (vm_compute; reflexivity). cbv zeta iota.
      unfold extract_quaternions, columns. rewrite HF.
      replace (mapM (fun a => index_of a (split_on "," "t,l,px,py,pz,qx,qy,qz,qw,vx,vy,vz")) ["qx"; "qy"; "qz"; "qw"]) with (@Ok (list nat) [5; 6; 7; 8]%nat) by (vm_compute; reflexivity).
      cbn [bind mapM]. rewrite (CD 5%nat _ ltac:(lia) C5), (CD 6%nat _ ltac:(lia) C6), (CD 7%nat _ ltac:(lia) C7), (CD 8%nat _ ltac:(lia) C8). cbn [bind mapM].
      rewrite !to_nums_shown by exact TC. cbn [bind mapM]. rewrite zip4_fin, map_map, ML. cbn [rmap bind].
      rewrite enu_ident. reflexivity. }
    rewrite ER. cbn [bind]. split.
    - unfold from_parts.
      rewrite <- (map_map (rd T) Fin ts), all_finite_fin, zip_fin. cbn [opt_finite].
      rewrite <- (map_map (rd T) Fin al), all_finite_fin, zip_fin. cbn [opt_finite].
      assert (length l' = length qs) as LL by (symmetry; apply (forall2_length _ _ _ F2)).
      rewrite new_traj_given; [reflexivity|..]; rewrite ?map_length; try congruence.
      intros q E. injection E as <-. rewrite map_length. congruence.
    - apply forall2_map_r. exact F2.
  Qed.
End Quat.
