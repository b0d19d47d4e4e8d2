(** Property C126: the summary of an absolute comparison. *)
From Verif Require Import Base BaseFacts NumpyModel NumpyFacts TrajModel GeomModel GeomSpec VecFacts EvalModel EvalSpec EvalStats AngModel BiasModel TextModel EqModel TableModel SumModel SumSpec.
Local Open Scope string_scope.

Lemma component_ok l : l <> [] -> exists b q, np_mean l = Some b /\ rms l = Some q /\ component l b q.
Proof.
  intro N. destruct (rms_some l N) as (q & _ & E & P & F). exists (np_sum l / INR (length l)), (sqrt q).
  split; [apply np_mean_some, N|]. split; [exact E|]. assert (L := len_pos l N). split; [|split; [apply sqrt_pos|]].
  - unfold total. fold (np_sum l). field. lra.
  - rewrite sqrt_sqrt by exact P. rewrite F. unfold total. fold (np_sum (map (fun x => x * x) l)). field. lra.
Qed.

Lemma statistics_ok l : l <> [] -> exists hi m med lo q s,
  np_max l = Ok hi /\ np_mean l = Some m /\ np_median l = Some med /\ np_min l = Ok lo /\ rms l = Some q /\ np_std l = Some s /\ statistics l hi m med lo q s.
Proof.
  intro N. destruct (np_max_spec l N) as (hi & E1 & H1). destruct (np_min_spec l N) as (lo & E2 & H2). destruct (median_spec l N) as (med & E3 & H3 & H4 & _).
  destruct (component_ok l N) as (b & q & Eb & Eq & Hb & Hq & Hqq).
  assert (N' := map_nonempty (fun x => (x - b) * (x - b)) l N).
  assert (Es : np_std l = Some (sqrt (np_sum (map (fun x => (x - b) * (x - b)) l) / INR (length l)))).
  { unfold np_std. rewrite Eb, (np_mean_some _ N'), map_length. reflexivity. }
  exists hi, b, med, lo, q, (sqrt (np_sum (map (fun x => (x - b) * (x - b)) l) / INR (length l))).
  do 6 (split; [assumption|]). split; [exact H1|]. split; [exact H2|]. split; [exact Hb|]. split; [exact H3|]. split; [exact H4|]. split; [exact Hq|]. split; [exact Hqq|].
  split; [apply sqrt_pos|]. assert (L := len_pos l N). rewrite sqrt_sqrt.
  - unfold total. fold (np_sum (map (fun x => (x - b) * (x - b)) l)). field. lra.
  - apply Rmult_le_pos; [|left; apply Rinv_0_lt_compat, L]. apply np_sum_nonneg. intros y Hy. apply in_map_iff in Hy as (x & <- & _). apply Rle_0_sqr.
Qed.

Section C126.
  Context {Q : Type} (ops : rot_ops Q) (as_rotvec : Q -> V3) (mean : list Q -> result Q) (show : R -> string) (str_nat : nat -> string).

  (** The entries for one list of numbers *)
  Definition shown_statistics (d : list (string * string)) (conv : R -> R) (l : list R) (kmax kmean kmedian kmin krms kstd : string) : Prop :=
    exists hi m med lo q s, statistics l hi m med lo q s /\
      entry d kmax = Some (show (conv hi)) /\ entry d kmean = Some (show (conv m)) /\ entry d kmedian = Some (show (conv med)) /\
      entry d kmin = Some (show (conv lo)) /\ entry d krms = Some (show (conv q)) /\ entry d kstd = Some (show (conv s)).
  Definition shown_component (d : list (string * string)) (l : list R) (kbias krms : string) : Prop :=
    exists b q, component l b q /\ entry d kbias = Some (show b) /\ entry d krms = Some (show q).

  (** Every entry shows the value its label names.  Entries of orientations are in degrees, or "-" if no orientations were compared.  Without deviations there is no
      summary. *)
  Theorem C126_summary (r : ate_result Q) :
    (pos_dev r <> [] -> directed_pos_dev r <> [] ->
     (forall q, rot_dev r = Some q -> q <> [] /\ exists m, mean q = Ok m) ->
     exists d, ate_property_dict ops as_rotvec mean show str_nat r = Ok d /\ NoDup (map fst d) /\ length d = 34%nat /\
       entry d "Name" = Some (ate_name r) /\ entry d "Type" = Some "ATEResult" /\
       entry d "Number of deviations" = Some (str_nat (length (pos_dev r))) /\
       entry d "Deviation directions derived using" = Some (if rotations_used r then "Rotations" else "Positions / Unkown") /\
       shown_statistics d (fun x => x) (map vnorm (pos_dev r)) "Maximum position deviation [m]" "Mean position deviation [m]" "Median position deviation [m]"
         "Minimum position deviation [m]" "RMS Position [m]" "STD Position [m]" /\
       shown_component d (map vx (pos_dev r)) "Bias X [m]" "RMS X [m]" /\
       shown_component d (map vy (pos_dev r)) "Bias Y [m]" "RMS Y [m]" /\
       shown_component d (map vz (pos_dev r)) "Bias Z [m]" "RMS Z [m]" /\
       shown_component d (map vx (directed_pos_dev r)) "Bias Along-Track [m]" "RMS Along-Track [m]" /\
       shown_component d (map vy (directed_pos_dev r)) "Bias Horizontal Cross-Track [m]" "RMS Horizontal Cross-Track [m]" /\
       shown_component d (map vz (directed_pos_dev r)) "Bias Vertical Cross-Track [m]" "RMS Vertical Cross-Track [m]" /\
       (forall q, rot_dev r = Some q ->
          shown_statistics d in_degrees (map (fun x => vnorm (as_rotvec x)) q) (deg "Maximum rotation deviation") (deg "Mean rotation deviation")
            (deg "Median rotation deviation") (deg "Minimum rotation deviation") (deg "RMS Rotation") (deg "STD Rotation") /\
          exists m, mean q = Ok m /\
            entry d (deg "Bias Roll") = Some (show (in_degrees (vx (as_euler ops m)))) /\
            entry d (deg "Bias Pitch") = Some (show (in_degrees (vy (as_euler ops m)))) /\
            entry d (deg "Bias Yaw") = Some (show (in_degrees (vz (as_euler ops m)))) /\
            exists a b c u v w, component (map (fun x => vx (as_euler ops x)) q) u a /\ component (map (fun x => vy (as_euler ops x)) q) v b /\
              component (map (fun x => vz (as_euler ops x)) q) w c /\
              entry d (deg "RMS Roll") = Some (show (in_degrees a)) /\ entry d (deg "RMS Pitch") = Some (show (in_degrees b)) /\
              entry d (deg "RMS Yaw") = Some (show (in_degrees c))) /\
       (rot_dev r = None -> forall k,
          In k ["Maximum rotation deviation"; "Mean rotation deviation"; "Median rotation deviation"; "Minimum rotation deviation"; "RMS Rotation"; "STD Rotation";
                "RMS Roll"; "RMS Pitch"; "RMS Yaw"; "Bias Roll"; "Bias Pitch"; "Bias Yaw"] -> entry d (deg k) = Some "-")) /\
    (pos_dev r = [] -> ate_property_dict ops as_rotvec mean show str_nat r = Err ValueError).
  Proof.
    split.
    - intros N ND HR.
      destruct (statistics_ok (map vnorm (pos_dev r)) (map_nonempty _ _ N)) as (hi & m & med & lo & q & s & Ehi & Em & Emed & Elo & Eq & Es & St).
      destruct (component_ok (map vx (pos_dev r)) (map_nonempty _ _ N)) as (bx & qx & Ebx & Eqx & Cx).
      destruct (component_ok (map vy (pos_dev r)) (map_nonempty _ _ N)) as (b_y & qy & Eby & Eqy & Cy).
      destruct (component_ok (map vz (pos_dev r)) (map_nonempty _ _ N)) as (bz & qz & Ebz & Eqz & Cz).
      destruct (component_ok (map vx (directed_pos_dev r)) (map_nonempty _ _ ND)) as (ba & qa & Eba & Eqa & Ca).
      destruct (component_ok (map vy (directed_pos_dev r)) (map_nonempty _ _ ND)) as (bh & qh & Ebh & Eqh & Ch).
      destruct (component_ok (map vz (directed_pos_dev r)) (map_nonempty _ _ ND)) as (bv & qv & Ebv & Eqv & Cv).
      unfold ate_property_dict, pos_dev_max, pos_dev_min, pos_ate, pos_dev_median, pos_dev_rms, pos_dev_std, pos_dev_comb,
        pos_bias_x, pos_bias_y, pos_bias_z, pos_rms_x, pos_rms_y, pos_rms_z, pos_bias_along, pos_bias_cross_h, pos_bias_cross_v,
        pos_rms_along, pos_rms_cross_h, pos_rms_cross_v.
      rewrite Ehi, Elo, Em, Emed, Eq, Es, Ebx, Eby, Ebz, Eqx, Eqy, Eqz, Eba, Ebh, Ebv, Eqa, Eqh, Eqv. cbn [bind show_opt].
      destruct (rot_dev r) as [qs|] eqn:Er.
      + destruct (HR qs eq_refl) as [Nq [mq Mq]].
        unfold rot_dev_max, rot_dev_min, rot_ate, rot_dev_median, rot_dev_rms, rot_dev_std, rot_dev_comb, rot_bias_xyz, rot_rms_x, rot_rms_y, rot_rms_z, rot_dev_xyz.
        rewrite Er. cbn [flatten]. rewrite !map_map.
        destruct (statistics_ok (map (rotangle as_rotvec) qs) (map_nonempty _ _ Nq)) as (rhi & rm & rmed & rlo & rq & rs & F1 & F2 & F3 & F4 & F5 & F6 & F).
        destruct (component_ok (map (fun x => vx (as_euler ops x)) qs) (map_nonempty _ _ Nq)) as (u & a & U & A & CU).
        destruct (component_ok (map (fun x => vy (as_euler ops x)) qs) (map_nonempty _ _ Nq)) as (v & b & V & B & CV).
        destruct (component_ok (map (fun x => vz (as_euler ops x)) qs) (map_nonempty _ _ Nq)) as (w & c & W & C & CW).
        rewrite F1, F2, F3, F4, F5, F6, A, B, C, Mq. cbn [bind rmap show_deg option_map show_opt].
        eexists. split; [reflexivity|]. split; [repeat constructor; cbn; intuition discriminate|]. split; [reflexivity|]. do 4 (split; [reflexivity|]).
        split; [exists hi, m, med, lo, q, s; split; [exact St|]; repeat split|].
        split; [exists bx, qx; split; [exact Cx|]; repeat split|].
        split; [exists b_y, qy; split; [exact Cy|]; repeat split|].
        split; [exists bz, qz; split; [exact Cz|]; repeat split|].
        split; [exists ba, qa; split; [exact Ca|]; repeat split|].
        split; [exists bh, qh; split; [exact Ch|]; repeat split|].
        split; [exists bv, qv; split; [exact Cv|]; repeat split|].
        split; [|discriminate]. intros q' E'. injection E' as <-. split; [exists rhi, rm, rmed, rlo, rq, rs; split; [exact F|]; repeat split|].
        exists mq. split; [exact Mq|]. do 3 (split; [reflexivity|]). exists a, b, c, u, v, w. do 3 (split; [assumption|]). repeat split.
      + eexists. split; [reflexivity|]. split; [repeat constructor; cbn; intuition discriminate|]. split; [reflexivity|]. do 4 (split; [reflexivity|]).
        split; [exists hi, m, med, lo, q, s; split; [exact St|]; repeat split|].
        split; [exists bx, qx; split; [exact Cx|]; repeat split|].
        split; [exists b_y, qy; split; [exact Cy|]; repeat split|].
        split; [exists bz, qz; split; [exact Cz|]; repeat split|].
        split; [exists ba, qa; split; [exact Ca|]; repeat split|].
        split; [exists bh, qh; split; [exact Ch|]; repeat split|].
        split; [exists bv, qv; split; [exact Cv|]; repeat split|].
        split; [discriminate|]. intros _ k Hk. cbn [In] in Hk. repeat (destruct Hk as [<-|Hk]; [reflexivity|]). destruct Hk.
    - intro E. unfold ate_property_dict, pos_dev_max, pos_dev_comb. rewrite E. reflexivity.
  Qed.
End C126.
Print Assumptions C126_summary.

Example C126_case {Q} (t : traj Q) (q : Q) show str_nat as_rotvec ops :
  let r := mkAte "a" t [mkV3 3 4 0] [mkV3 5 0 0] (Some [q]) true in
  let mean := fun l => match l with [x] => Ok x | _ => Err ValueError end in
  pos_dev r <> [] /\ directed_pos_dev r <> [] /\ (forall l, rot_dev r = Some l -> l <> [] /\ exists m, mean l = Ok m) /\
  exists d, ate_property_dict ops as_rotvec mean show str_nat r = Ok d /\ entry d "Maximum position deviation [m]" = Some (show 5) /\
    entry d "Bias Y [m]" = Some (show 4) /\ entry d (deg "Bias Yaw") = Some (show (in_degrees (vz (as_euler ops q)))).
Proof.
  cbn [pos_dev directed_pos_dev rot_dev]. split; [discriminate|]. split; [discriminate|].
  assert (H : forall l, Some [q] = Some l -> l <> [] /\ exists m, (fun l => match l with [x] => Ok x | _ => Err ValueError end) l = Ok m).
  { intros l E. injection E as <-. split; [discriminate|]. exists q. reflexivity. }
  split; [exact H|].
  destruct (proj1 (C126_summary ops as_rotvec (fun l => match l with [x] => Ok x | _ => Err ValueError end) show str_nat
    (mkAte "a" t [mkV3 3 4 0] [mkV3 5 0 0] (Some [q]) true)) ltac:(discriminate) ltac:(discriminate) H) as (d & D & _ & _ & _ & _ & _ & _ & St & _ & Cy & _ & _ & _ & _ & Rt & _).
  exists d. split; [exact D|]. split; [|split].
  - destruct St as (hi & m & med & lo & qq & s & (G & _) & E & _). rewrite E. do 2 f_equal. destruct G as [[<-|[]] _].
    unfold vnorm, vdot. cbn. replace (3 * 3 + 4 * 4 + 0 * 0) with (5 * 5) by ring. apply sqrt_square. lra.
  - destruct Cy as (b & qq & (B & _) & E & _). rewrite E. do 2 f_equal. cbn in B. lra.
  - destruct (Rt [q] eq_refl) as (_ & m & M & _ & _ & E & _). injection M as <-. exact E.
Qed.
