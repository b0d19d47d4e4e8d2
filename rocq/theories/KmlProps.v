(** Exporting to KML: property C92. *)
From Verif Require Import Base BaseFacts NumpyModel TrajModel TrajSpec KmlModel KmlSpec KmlFacts.

(** The line has one vertex for every displayed place, in the order of the first visits.  The exported trajectory itself
    is left with the poses of these first visits at the converted and rounded positions. *)
Theorem C92_partial : forall Q (conv rnd : V3 -> V3) (t : traj Q), consistent t -> epsg t <> 0%Z ->
  exists t' line idx, create_kml conv rnd t = Ok (t', line) /\ consistent t' /\ epsg t' = 4326%Z /\
    StronglySorted lt idx /\ (forall i, In i idx <-> first_visit (places conv rnd t) i) /\ tlen t' = length idx /\
    (forall k i, nth_error idx k = Some i -> exists p p', pose_at t i = Some p /\ pose_at t' k = Some p' /\
        moved_pose (rnd (conv (p_xyz p))) p p') /\
    length line = length idx /\
    (forall k i, nth_error idx k = Some i -> nth_error line k = nth_error (places conv rnd t) i).
Proof. intros Q conv rnd t. exact (kml_exact conv rnd t). Qed.
Print Assumptions C92_partial.

Theorem C92_local : forall Q (conv rnd : V3 -> V3) (t : traj Q), epsg t = 0%Z -> create_kml conv rnd t = Err ValueError.
Proof. intros Q conv rnd t. exact (kml_local conv rnd t). Qed.
Print Assumptions C92_local.

(** The line never returns to a place: a closed path is drawn open. *)
Theorem C92_refuted_line : forall Q (conv rnd : V3 -> V3) (t t' : traj Q) line, consistent t ->
  create_kml conv rnd t = Ok (t', line) -> NoDup line.
Proof. intros Q conv rnd t t' line. exact (kml_nodup conv rnd t t' line). Qed.
Print Assumptions C92_refuted_line.

(** The line can have a segment between places that do not follow each other on the path, and the trajectory loses
    poses by being exported. *)
Definition walk : traj nat :=
  mkTraj [0; 1; 2; 3; 4] [mkV3 0 0 0; mkV3 1 0 0; mkV3 1 1 0; mkV3 0 0 0; mkV3 0 1 0] (Some [0; 1; 2; 3; 4]%nat)
         [0; 1; 2; 3; 4] [vzero; vzero; vzero; vzero; vzero] SortTime "walk" 4326.
Theorem C92_refuted : exists t', create_kml (fun p => p) (fun p => p) walk = Ok (t', [(0, 0); (0, 1); (1, 1); (1, 0)]) /\
  places (fun p => p) (fun p => p) walk = [(0, 0); (0, 1); (1, 1); (0, 0); (1, 0)] /\
  tlen walk = 5%nat /\ tlen t' = 4%nat /\ tstamps t' = [0; 1; 2; 4].
Proof.
  assert (R01 : Reqb 0 1 = false) by (apply Reqb_false; lra). assert (R10 : Reqb 1 0 = false) by (apply Reqb_false; lra).
  assert (IX : first_indices xy_eqb (xyz walk) = [0; 1; 2; 4]%nat).
  { unfold first_indices, enumerate, walk. cbn [xyz length seq combine filter snd fst firstn existsb]. unfold xy_eqb. cbn [vx vy].
    rewrite R01, R10, !Reqb_refl. cbn [andb orb negb map filter fst]. reflexivity. }
  unfold create_kml. cbn [epsg walk Z.eqb]. unfold set_xyz. cbn [xyz tstamps rot arc speed srt name epsg].
  match goal with |- context [first_indices xy_eqb ?l] => change l with (xyz walk) end.
  rewrite IX. eexists. split; [reflexivity|]. repeat split.
Qed.
Print Assumptions C92_refuted.

Example C92_case : consistent walk /\ epsg walk <> 0%Z /\ first_visit (places (fun p => p) (fun p => p) walk) 1.
Proof.
  repeat split; try discriminate.
  - cbn. lia.
  - intros j L. replace j with 0%nat by lia. cbn. intros [= E]. lra.
Qed.
