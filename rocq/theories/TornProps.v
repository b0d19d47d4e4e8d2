(** C135: interrupted writing of trajectory files. *)
From Verif Require Import Base BaseFacts EstModel TextModel TextFacts HeaderModel NumpyModel TrajModel TrajSpec TrajFacts GeomModel GeomSpec IoModel IoSpec HeaderFacts IoFacts IoFacts2 IoFacts3 IoFacts4 IoProps TornModel TornSpec TornFacts TornFacts2 TornFacts3 TornFacts4.
Local Open Scope string_scope.

Lemma stopped_text {Q} (qops : quat_ops Q) T m before (t : traj Q) n : consistent t ->
  interrupted qops T m before t n = on_disk m before (lines_text (written_lines qops T t)) n.
Proof. intro C. unfold interrupted. rewrite (to_file_lines qops T "") by (apply consistent_same_lengths; exact C). reflexivity. Qed.
Lemma last_text {Q} (qops : quat_ops Q) T (t : traj Q) : consistent t -> last_point qops T t = S (String.length (lines_text (written_lines qops T t))).
Proof. intro C. unfold last_point. rewrite (to_file_lines qops T "") by (apply consistent_same_lengths; exact C). reflexivity. Qed.

(** Part: whatever the point at which writing with mode "w" stops after the file was opened, and whatever the file held before,
    a file that is then read as a trajectory of numbers gives a beginning of the written poses, at least one, with the name and
    the coordinate system of the written trajectory.  Only the last vertical speed can be wrong.  Missing: noticing that poses
    are lost, keeping the old file, mode "a", and the last vertical speed (all refuted below). *)
Theorem C135_torn_partial : forall Q (ops : rot_ops Q) (qops : quat_ops Q) T C loc counted before (t t' : traj Q) n,
  text_contract T -> quat_contract ops qops -> consistent t -> one_line (name t) -> (0 < n)%nat ->
  from_file ops qops T C loc counted (interrupted qops T Write before t n) = Ok (Some t') ->
  beginning qops (poses t) (poses t') /\ poses t' <> [] /\ consistent t' /\ (rot t' = None <-> rot t = None) /\ epsg t' = epsg t /\
  name t' = (if String.eqb (join " " (words (name t))) "" then counted else join " " (words (name t))).
Proof.
  intros Q ops qops T C loc counted before t t' n TC QC CT O N F. rewrite stopped_text in F by exact CT.
  destruct n as [|n]; [lia|]. cbn [on_disk opened append] in F.
  destruct (interrupted_read ops qops QC T TC C loc counted t n t' CT O F) as (A & B & D & E & _ & G & H). repeat (split; [assumption|]). assumption.
Qed.
Print Assumptions C135_torn_partial.

(** At the last point the file is the complete one. *)
Theorem C135_complete : forall Q (qops : quat_ops Q) T m before (t : traj Q) text,
  to_file qops T (match m with Write => "" | Append => before end) t = Ok text ->
  interrupted qops T m before t (last_point qops T t) = text.
Proof.
  intros Q qops T m before t text H. unfold to_file in H. destruct (same_lengths t) eqn:S; [|discriminate].
  unfold interrupted, last_point. unfold to_file. rewrite S. cbn [on_disk]. injection H as <-.
  assert (forall s, take (String.length s) s = s) as TA by (induction s as [|c s IH]; [reflexivity|cbn; rewrite IH; reflexivity]).
  rewrite TA. destruct m; reflexivity.
Qed.
Print Assumptions C135_complete.

(** Before the file is opened nothing has changed. *)
Theorem C135_unopened : forall Q (qops : quat_ops Q) T m before (t : traj Q), interrupted qops T m before t 0 = before.
Proof. intros. unfold interrupted. destruct (to_file qops T "" t); reflexivity. Qed.
Print Assumptions C135_unopened.

(** REFUTED: the old content survives until the new one is complete.  From the moment the file is opened with mode "w" until the
    header is written, nothing can be read from it, whatever it held before. *)
Theorem C135_lost_refuted : forall Q (ops : rot_ops Q) (qops : quat_ops Q) T C loc counted before (t : traj Q) n,
  text_contract T -> consistent t -> one_line (name t) -> (0 < n <= S (String.length (write_header T t)))%nat ->
  exists e, from_file ops qops T C loc counted (interrupted qops T Write before t n) = Err e.
Proof.
  intros Q ops qops T C loc counted before t n TC CT O N. rewrite stopped_text by exact CT. destruct n as [|n]; [lia|].
  cbn [on_disk opened append]. apply (interrupted_header ops qops T TC C loc counted t n O).
  assert (lines_text (header_lines T t) = write_header T t) as ->; [|lia].
  unfold write_header, header_lines, lines_text, line, fields_text. cbn [fold_right]. rewrite append_nil. reflexivity.
Qed.
Print Assumptions C135_lost_refuted.

(** REFUTED: an incomplete file is noticed.  For every number [k] of poses there is a point at which the file is read as the first
    [k] poses, without an error. *)
Theorem C135_unnoticed_refuted : forall Q (ops : rot_ops Q) (qops : quat_ops Q) T C loc counted before (t : traj Q) k,
  text_contract T -> quat_contract ops qops -> consistent t -> one_line (name t) -> (0 < k <= length (poses t))%nat ->
  exists n t', (0 < n <= last_point qops T t)%nat /\
    from_file ops qops T C loc counted (interrupted qops T Write before t n) = Ok (Some t') /\
    Forall2 (near_pose qops) (firstn k (poses t)) (poses t') /\ epsg t' = epsg t /\
    name t' = (if String.eqb (join " " (words (name t))) "" then counted else join " " (words (name t))).
Proof.
  intros Q ops qops T C loc counted before t k TC QC CT O K. rewrite poses_length in K by exact CT.
  destruct (interrupted_between ops qops QC T TC C loc counted t k CT O K) as (n & t' & L & F & P & _ & _ & _ & E & N).
  exists (S n), t'. rewrite stopped_text, last_text by exact CT. cbn [on_disk opened append]. split; [lia|]. repeat (split; [assumption|]). assumption.
Qed.
Print Assumptions C135_unnoticed_refuted.

(** REFUTED: the values that are read were written.  If writing stops within the vertical speed of pose [k], the last value of its
    line, then the beginning of that number is read as the speed. *)
Theorem C135_value_refuted : forall Q (ops : rot_ops Q) (qops : quat_ops Q) T C loc counted before (t : traj Q) k a w w' y,
  text_contract T -> quat_contract ops qops -> consistent t -> one_line (name t) ->
  nth_error (poses t) k = Some a -> show9 T (vz (p_speed a)) = w ++ w' -> w <> "" -> number T w = Some (Fin y) ->
  exists n t' b, (0 < n <= last_point qops T t)%nat /\
    from_file ops qops T C loc counted (interrupted qops T Write before t n) = Ok (Some t') /\
    length (poses t') = S k /\ nth_error (poses t') k = Some b /\ vz (p_speed b) = y.
Proof.
  intros Q ops qops T C loc counted before t k a w w' y TC QC CT O PA SW NW NY.
  destruct (cut_number ops qops QC T TC C loc counted t k a w w' y CT O PA SW NW NY) as (n & t' & b & L & F & R).
  exists (S n), t', b. rewrite stopped_text, last_text by exact CT. cbn [on_disk opened append]. split; [lia|]. split; [exact F|exact R].
Qed.
Print Assumptions C135_value_refuted.

(** REFUTED: appending leaves what is there readable and unchanged.  [a] is in the file and [b] is being appended.  There is a point
    at which the file cannot be read at all, and if [w] begins the number of the coordinate system of [b] there is a point at which
    the poses of [a] are read with [w] as their coordinate system. *)
Theorem C135_append_refuted : forall Q (ops : rot_ops Q) (qops : quat_ops Q) T C loc counted (a b : traj Q) text w w' z,
  text_contract T -> quat_contract ops qops -> consistent a -> xyz a <> [] -> one_line (name a) -> consistent b ->
  to_file qops T "" a = Ok text -> show_int T (epsg b) = w ++ w' -> w <> "" -> integer T w = Some z ->
  (exists n, (n <= last_point qops T b)%nat /\
     from_file ops qops T C loc counted (interrupted qops T Append text b n) = Err IndexError) /\
  (exists n t', (n <= last_point qops T b)%nat /\
     from_file ops qops T C loc counted (interrupted qops T Append text b n) = Ok (Some t') /\
     Forall2 (near_pose qops) (poses a) (poses t') /\ epsg t' = z).
Proof.
  intros Q ops qops T C loc counted a b text w w' z TC QC CA XA O CB TF SW NW IW.
  rewrite (to_file_lines qops T "") in TF by (apply consistent_same_lengths; exact CA).
  assert (text = lines_text (written_lines qops T a)) as -> by (injection TF as E; symmetry; exact E).
  rewrite last_text by exact CB.
  assert (exists rest, lines_text (written_lines qops T b) = ("#epsg " ++ w) ++ rest) as [rest SPL].
  { unfold written_lines, header_lines. cbn [app]. unfold lines_text. cbn [fold_right]. rewrite SW. rewrite !append_assoc. eexists. reflexivity. }
  rewrite SPL. split.
  - exists 6%nat. split; [rewrite !length_append; cbn; lia|]. rewrite stopped_text by exact CB. rewrite SPL.
    change (on_disk Append (lines_text (written_lines qops T a)) (("#epsg " ++ w) ++ rest) 6) with (lines_text (written_lines qops T a) ++ "#epsg").
    apply (append_unreadable ops qops T TC). exact O.
  - destruct (append_cut ops qops QC T TC C loc counted a w z CA XA O) as (t' & F & P & E).
    + split; [exact NW|]. apply (spaceless_prefix w w'). rewrite <- SW. apply (tc_int_word T TC).
    + exact IW.
    + exists (S (String.length ("#epsg " ++ w))), t'. split; [rewrite !length_append; lia|]. rewrite stopped_text by exact CB. rewrite SPL.
      cbn [on_disk opened]. rewrite take_app by lia. rewrite Nat.sub_diag.
      assert (take 0 rest = "") as -> by (destruct rest; reflexivity). rewrite append_nil. split; [exact F|]. split; [exact P|exact E].
Qed.
Print Assumptions C135_append_refuted.

(** A trajectory that meets the hypotheses, and numbers and coordinate systems with beginnings that are read *)
Definition climbing : traj uquat :=
  mkTraj [1; 2] [mkV3 1 2 3; mkV3 4 5 6] (Some [uident; uident]) [0; 1] [vzero; mkV3 0 0 12] SortTime "my track" 25832.
Example C135_case : text_contract sample_text /\ quat_contract sample_rot_ops sample_quat_ops /\ consistent climbing /\
  one_line (name climbing) /\ (0 < 1 <= length (poses climbing))%nat /\
  (exists a, nth_error (poses climbing) 1 = Some a /\ show9 sample_text (vz (p_speed a)) = "1" ++ "2000000000") /\
  (exists y, number sample_text "1" = Some (Fin y) /\ y <> 12) /\
  show_int sample_text (epsg climbing) = "258" ++ "32" /\ integer sample_text "258" = Some 258%Z.
Proof.
  split; [exact sample_text_contract|]. split; [exact sample_quat_contract|]. split; [repeat split|]. split; [split; reflexivity|].
  split; [cbn; lia|]. split.
  - eexists. split; [reflexivity|]. cbn [p_speed vz show9 sample_text].
    assert (nanos 12 = 12000000000%Z) as ->; [|reflexivity]. unfold nanos. symmetry. apply tech_up; lra.
  - split; [|split; reflexivity]. eexists. split; [reflexivity|]. cbn. lra.
Qed.
Example C135_torn_case : forall C loc counted before, exists n t',
  from_file sample_rot_ops sample_quat_ops sample_text C loc counted (interrupted sample_quat_ops sample_text Write before climbing n) = Ok (Some t') /\
  length (poses t') = 1%nat.
Proof.
  intros C loc counted before. destruct C135_case as (A & B & D & E & F & _).
  destruct (C135_unnoticed_refuted _ sample_rot_ops sample_quat_ops sample_text C loc counted before climbing 1 A B D E F) as (n & t' & _ & R & P & _).
  exists n, t'. split; [exact R|]. apply forall2_length in P. rewrite <- P. reflexivity.
Qed.
