(** C54, C55: report data. *)
From Verif Require Import Base BaseFacts VecFacts NumpyModel TrajModel GeomModel EvalModel EvalProps ReportModel ReportSpec ReportFacts.

(** Data that are short enough, and every data when max_size is negative, are returned as they are. *)
Theorem C54_short :
  forall (data : list (option R)) (max_size : Z),
    (max_size < 0 \/ Z.of_nat (length data) <= max_size)%Z -> shrink_data data max_size = Ok data.
Proof.
  intros data m H. unfold shrink_data. destruct (Z.ltb_spec m 0); [reflexivity|]. destruct (Z.leb_spec (Z.of_nat (length data)) m); [reflexivity|lia].
Qed.
Print Assumptions C54_short.

(** max_size zero is an error unless there are no data. *)
Theorem C54_zero_size :
  forall data : list (option R), data <> [] -> shrink_data data 0 = Err ZeroDivisionError.
Proof. intros [|x data] H; [congruence|]. unfold shrink_data. cbn [length]. destruct (Z.leb_spec (Z.of_nat (S (length data))) 0); [lia|]. reflexivity. Qed.
Print Assumptions C54_zero_size.

(** Numbers other than zero: the data are cut in consecutive parts of the smallest size that gives at most max_size parts,
    and every part is replaced by its average.  Missing from C54: data with zeros. *)
Theorem C54_chunks_partial :
  forall (data : list R) (max_size : Z),
    (0 < max_size < Z.of_nat (length data))%Z -> Forall (fun x => x <> 0) data ->
    exists c out, chunk_size (length data) (Z.to_nat max_size) c /\
      shrink_data (map Some data) max_size = Ok out /\ (length out <= Z.to_nat max_size)%nat /\
      (forall i, (i < length out)%nat <-> (i * c < length data)%nat) /\
      (forall i, (i < length out)%nat -> exists x, nth_error out i = Some (Some x) /\ average (part c i data) x).
Proof.
  intros data m H NZ. destruct (shrink_numbers data m H NZ) as (c & out & CS & E & L & I & V). exists c, out.
  split; [exact CS|]. split; [exact E|]. split; [exact L|]. split; [exact I|]. intros i LT. specialize (V i LT). apply I in LT.
  pose proof (part_length c i data) as PL. assert (0 < c)%nat as PC by (destruct c; [cbn in LT; destruct CS as [CS _]; lia|lia]).
  unfold np_mean in V. destruct (part c i data) as [|x l] eqn:P; [cbn in PL; lia|]. eexists. split; [exact V|]. split; [discriminate|].
  unfold Rdiv. rewrite Rmult_assoc, Rinv_l by (apply not_0_INR; discriminate). rewrite Rmult_1_r. reflexivity.
Qed.
Print Assumptions C54_chunks_partial.

(** Every data, with zeros and not-a-number: values that are zero do not count, parts without other values are left out,
    and there must be at least one such value. *)
Theorem C54_general :
  forall (data : list (option R)) (max_size : Z),
    (0 < max_size < Z.of_nat (length data))%Z ->
    exists c, chunk_size (length data) (Z.to_nat max_size) c /\
      shrink_data data max_size =
      match visible data with
      | [] => Err ValueError
      | _ => Ok (flat_map (fun i => match visible (part c i data) with [] => [] | v => [Some (fold_right Rplus 0 v / INR (length v))] end)
                          (seq 0 (Z.to_nat max_size)))
      end.
Proof.
  intros data m H. destruct (shrink_general data m H) as (c & CS & E). exists c. split; [exact CS|]. rewrite E. destruct (visible data); [reflexivity|].
  f_equal. unfold row_means. rewrite !flat_map_concat_map, map_map. f_equal. apply map_ext. intro i. destruct (visible (part c i data)); reflexivity.
Qed.
Print Assumptions C54_general.

(** At most max_size values, whatever the data *)
Theorem C54_size :
  forall (data : list (option R)) (max_size : Z) out,
    (0 <= max_size)%Z -> shrink_data data max_size = Ok out -> (length out <= Z.to_nat max_size)%nat.
Proof.
  intros data m out P H. destruct (Z.le_gt_cases (Z.of_nat (length data)) m) as [L|L].
  - rewrite C54_short in H by (right; exact L). injection H as <-. lia.
  - destruct (Z.eq_dec m 0) as [->|N]; [rewrite C54_zero_size in H by (destruct data; [cbn in L; lia|discriminate]); discriminate|].
    destruct (C54_general data m) as (c & _ & E); [lia|]. rewrite E in H. destruct (visible data); [discriminate|]. injection H as <-.
    rewrite <- (seq_length (Z.to_nat m) 0) at 2. generalize (seq 0 (Z.to_nat m)). clear. induction l as [|i l IH]; [reflexivity|]. cbn.
    rewrite app_length. destruct (visible (part c i data)); cbn; lia.
Qed.
Print Assumptions C54_size.

(** The mean of a part with a zero is not the mean of the part. *)
Theorem C54_zero_refuted :
  exists (data : list R) (out : list (option R)), length data = 4%nat /\ shrink_data (map Some data) 2 = Ok out /\
    (exists x, nth_error out 0 = Some (Some x) /\ ~ average (part 2 0 data) x) /\ chunk_size 4 2 2.
Proof.
  exists [0; 2; 4; 4]. eexists. split; [reflexivity|]. split.
  { unfold shrink_data. cbn. unfold Reqb. destruct (Req_EM_T 0 0); [|congruence]. destruct (Req_EM_T 2 0); [lra|]. destruct (Req_EM_T 4 0); [lra|]. cbn. reflexivity. }
  split; [|split; [lia|intros c' L; lia]]. eexists. split; [reflexivity|]. unfold average, part. cbn. intros [_ A]. change (Pos.to_nat 2) with 2%nat in A. cbn in A. lra.
Qed.
Print Assumptions C54_zero_refuted.

(** Two columns of the same table can come back with different lengths, and one can fail alone. *)
Theorem C54_columns_refuted :
  exists a b c : list R, length a = length b /\ length b = length c /\
    (exists x y, shrink_data (map Some a) 2 = Ok x /\ shrink_data (map Some b) 2 = Ok y /\ length x = 2%nat /\ length y = 1%nat) /\
    shrink_data (map Some c) 2 = Err ValueError.
Proof.
  exists [1; 1; 1; 1], [0; 0; 1; 1], [0; 0; 0; 0]. split; [reflexivity|]. split; [reflexivity|]. split.
  - eexists. eexists. split; [|split; [|split]].
    + unfold shrink_data. cbn. unfold Reqb. destruct (Req_EM_T 1 0); [lra|]. cbn. reflexivity.
    + unfold shrink_data. cbn. unfold Reqb. destruct (Req_EM_T 0 0); [|congruence]. destruct (Req_EM_T 1 0); [lra|]. cbn. reflexivity.
    + reflexivity.
    + reflexivity.
  - unfold shrink_data. cbn. unfold Reqb. destruct (Req_EM_T 0 0); [|congruence]. reflexivity.
Qed.
Print Assumptions C54_columns_refuted.

Example C54_case : (0 < 3 < Z.of_nat (length [1; 2; 3; 4; 5; 6; 7]))%Z /\ Forall (fun x => x <> 0) [1; 2; 3; 4; 5; 6; 7] /\ chunk_size 7 3 3.
Proof. split; [cbn; lia|]. split; [repeat constructor; lra|]. split; [lia|intros; lia]. Qed.

(** * C55 *)

(** Reports in metres leave the result as it is. *)
Theorem C55_metres :
  forall (Q : Type) (units : list bool) (r : ate_result Q), Forall (fun mm => mm = false) units -> report_all units r = r.
Proof. intros Q units r F. unfold report_all. induction F as [|u l -> F IH]; [reflexivity|exact IH]. Qed.
Print Assumptions C55_metres.

(** Whatever reports are made, and in whatever order: name, trajectory and rotations stay; all position deviations are
    multiplied by 1000 for every report in millimetres. *)
Theorem C55_effect_partial :
  forall (Q : Type) (units : list bool) (r : ate_result Q) (k : nat), k = count_occ Bool.bool_dec units true ->
    let r' := report_all units r in
    ate_name r' = ate_name r /\ ate_trajectory r' = ate_trajectory r /\ rot_dev r' = rot_dev r /\ rotations_used r' = rotations_used r /\
    pos_dev r' = map (fun v => mkV3 (1000 ^ k * vx v) (1000 ^ k * vy v) (1000 ^ k * vz v)) (pos_dev r) /\
    directed_pos_dev r' = map (fun v => mkV3 (1000 ^ k * vx v) (1000 ^ k * vy v) (1000 ^ k * vz v)) (directed_pos_dev r).
Proof. intros Q units r k -> r'. unfold r'. rewrite report_all_effect. repeat split. Qed.
Print Assumptions C55_effect_partial.

(** A report in millimetres changes every result that has a deviation, and a second one changes it again: the mean
    deviation of the result becomes 1000 and then 1000000 times what it was. *)
Theorem C55_millimetres_refuted :
  forall (Q : Type) (r : ate_result Q) (x : R), pos_ate r = Some x ->
    pos_ate (report_data true r) = Some (1000 * x) /\ pos_ate (report_data true (report_data true r)) = Some (1000000 * x) /\
    (x <> 0 -> report_data true r <> r).
Proof.
  intros Q r x H. assert (forall (r : ate_result Q) x, pos_ate r = Some x -> pos_ate (report_data true r) = Some (1000 * x)) as ONE.
  { clear. intros r x H. unfold pos_ate, pos_dev_comb in *. cbn [report_data pos_dev]. rewrite map_map.
    assert (forall l, np_sum (map (fun v => vnorm (vscale 1000 v)) l) = 1000 * np_sum (map vnorm l)) as S.
    { induction l as [|v l IH]; [cbn; lra|]. cbn [map]. unfold np_sum in *. cbn [fold_right]. rewrite IH. rewrite vnorm_scale. rewrite Rabs_pos_eq by lra. lra. }
    unfold np_mean in *. destruct (pos_dev r) as [|v l] eqn:E; [discriminate|]. cbn [map] in *. assert (x = np_sum (vnorm v :: map vnorm l) / INR (length (vnorm v :: map vnorm l))) as -> by congruence. f_equal.
    change (vnorm (vscale 1000 v) :: map (fun x => vnorm (vscale 1000 x)) l) with (map (fun v => vnorm (vscale 1000 v)) (v :: l)).
    rewrite S, map_length. change (vnorm v :: map vnorm l) with (map vnorm (v :: l)). rewrite map_length. unfold Rdiv. ring. }
  split; [apply ONE, H|]. split.
  - rewrite (ONE _ _ (ONE _ _ H)). f_equal. lra.
  - intros N E. pose proof (ONE _ _ H) as K. rewrite E, H in K. injection K as K. lra.
Qed.
Print Assumptions C55_millimetres_refuted.

Example C55_case : forall t : traj M3, pos_ate (mkAte "a"%string t [mkV3 3 4 0] [mkV3 3 4 0] None false) = Some 5.
Proof.
  intro t. unfold pos_ate, pos_dev_comb, np_mean. cbn. f_equal. unfold vnorm, vdot. cbn [vx vy vz].
  replace (3 * 3 + 4 * 4 + 0 * 0) with (5 * 5) by lra. rewrite sqrt_square by lra. lra.
Qed.
