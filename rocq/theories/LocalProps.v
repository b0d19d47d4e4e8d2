(** Property C151: interpolation is local. *)
From Verif Require Import Base BaseFacts VecFacts NumpyModel NumpyFacts TrajModel TrajSpec TrajFacts TrajFacts2 TrajFacts3 TrajProps EvalFacts LawSpec LawProps InfoFacts StabFacts2 LocalSpec LocalFacts.

Lemma interpolate_again {Q} (seg : Q -> Q -> R -> Q) (t u : traj Q) req : interpolate seg t req = Ok u -> interpolate seg t (tstamps u) = Ok u.
Proof.
  intro H. assert (D := H). unfold interpolate in D. apply bind_ok in D as (ts & CR & D).
  assert (T : tstamps u = ts). { apply bind_ok in D as (t1 & _ & D). apply bind_ok in D as (t2 & _ & D). apply bind_ok in D as (sp & _ & D). apply bind_ok in D as (al & _ & D). injection D as <-. reflexivity. }
  assert (K : crop_request (tstamps t) (np_sort ts) = Ok ts).
  { destruct (crop_request_inv _ _ _ CR) as [(E & ->)|(lo & hi & LO & HI & ->)].
    - reflexivity.
    - rewrite np_sort_id by (apply StronglySorted_filter, np_sort_sorted). rewrite (crop_request_ok _ _ lo hi LO HI). f_equal. apply filter_true. intros x I. apply filter_In in I. apply I. }
  rewrite T. unfold interpolate. rewrite K. exact D.
Qed.

Lemma interpolate_range {Q} (seg : Q -> Q -> R -> Q) (t u : traj Q) req x : interpolate seg t req = Ok u ->
  (In x (tstamps u) <-> In x req /\ exists lo hi, np_get (tstamps t) 0 = Ok lo /\ np_get (tstamps t) (-1) = Ok hi /\ lo <= x <= hi).
Proof.
  intro H. unfold interpolate in H. apply bind_ok in H as (ts & CR & D).
  apply bind_ok in D as (t1 & _ & D). apply bind_ok in D as (t2 & _ & D). apply bind_ok in D as (sp & _ & D). apply bind_ok in D as (al & _ & D). injection D as <-. cbn [tstamps set_tstamps].
  destruct (crop_request_inv _ _ _ CR) as [(E & ->)|(lo & hi & LO & HI & ->)].
  - assert (req = []) as -> by (apply length_zero_iff_nil; rewrite <- (np_sort_length req), E; reflexivity). cbn. tauto.
  - rewrite filter_In, In_np_sort. unfold in_range. rewrite andb_true_iff, !Rleb_true. split.
    + intros [I B]. split; [exact I|]. exists lo, hi. auto.
    + intros [I (lo' & hi' & LO' & HI' & B)]. rewrite LO in LO'. rewrite HI in HI'. injection LO' as <-. injection HI' as <-. auto.
Qed.

Lemma get_in {A} (l : list A) i a : np_get l i = Ok a -> In a l.
Proof. apply np_get_in. Qed.

Lemma crop_covers {Q} (seg : Q -> Q -> R -> Q) (c u : traj Q) req : interpolate seg c req = Ok u -> covers c (tstamps u).
Proof. intros H x I. apply (interpolate_range seg c u req x H) in I as (_ & lo & hi & LO & HI & B). exists lo, hi. split; [eapply get_in, LO|]. split; [eapply get_in, HI|exact B]. Qed.

Lemma filter_shorter {A} (f : A -> bool) l : (length (filter f l) <= length l)%nat.
Proof. induction l as [|x l IH]; cbn; [lia|]. destruct (f x); cbn; lia. Qed.

Section Cropped.
  Context {Q : Type}.
  Variable seg : Q -> Q -> R -> Q.

  (** Times between poses that cropping keeps: cropping first changes nothing about interpolation, success and errors included. *)
  Theorem C151_crop : hits_ends seg -> forall (t c : traj Q) a b req, consistent t -> strictly_time_sorted t -> crop t a b false = Ok c ->
    (rot t = None \/ (2 <= tlen c)%nat) -> req <> [] -> covers c req -> interpolate seg c req = interpolate seg t req.
  Proof.
    intros EN t c a b req C S E TWO NE CV. destruct (crop_spec t a b false C) as (c' & E' & C' & M & _). rewrite E in E'. injection E' as <-.
    destruct (crop_block t a b c C (strictly_sorted_sorted _ S) E) as (_ & pre & post & P). apply (interpolate_block seg t c pre post); assumption.
  Qed.

  (** Any request: what a cropped trajectory makes of it, the whole trajectory makes of the times of the outcome. *)
  Theorem C151_any : hits_ends seg -> forall (t c u : traj Q) a b req, consistent t -> strictly_time_sorted t -> crop t a b false = Ok c ->
    (rot t = None \/ (2 <= tlen c)%nat) -> interpolate seg c req = Ok u -> tstamps u <> [] -> interpolate seg t (tstamps u) = Ok u.
  Proof.
    intros EN t c u a b req C S E TWO H NE. rewrite <- (C151_crop EN t c a b (tstamps u) C S E TWO NE (crop_covers seg c u req H)). apply (interpolate_again seg c u req H).
  Qed.

  (** Poses outside of a time span have no influence inside of it. *)
  Theorem C151_local : hits_ends seg -> forall (t t' : traj Q) a b req, consistent t -> consistent t' -> strictly_time_sorted t -> strictly_time_sorted t' ->
    same_meta t t' -> poses_during a b t = poses_during a b t' -> (rot t = None \/ (2 <= length (poses_during a b t))%nat) -> req <> [] ->
    (forall x, In x req -> exists p q, In p (poses_during a b t) /\ In q (poses_during a b t) /\ p_t p <= x <= p_t q) ->
    interpolate seg t req = interpolate seg t' req.
  Proof.
    intros EN t t' a b req C C' S S' M P TWO NE CV.
    destruct (crop_spec t a b false C) as (c & E & Cc & Mc & Pc). destruct (crop_spec t' a b false C') as (c' & E' & Cc' & Mc' & Pc').
    assert (K : forall (w : traj Q), filter (in_span a b false) (poses w) = poses_during a b w) by (intro w; apply filter_ext; intro p; unfold in_span; destruct (Rleb a (p_t p)), (Rleb (p_t p) b); reflexivity).
    rewrite K in Pc, Pc'.
    assert (c' = c) as ->.
    { apply traj_ext; [exact Cc'|exact Cc|congruence|]. destruct M as (M1 & M2 & M3 & M4), Mc as (A1 & A2 & A3 & A4), Mc' as (B1 & B2 & B3 & B4).
      split; [congruence|]. split; [congruence|]. split; [congruence|]. tauto. }
    assert (LN : tlen c = length (poses_during a b t)) by (rewrite <- Pc; symmetry; apply poses_length, Cc).
    assert (CO : covers c req).
    { intros x I. destruct (CV x I) as (p & q & IP & IQ & B). rewrite <- Pc in IP, IQ. destruct (poses_components c Cc) as (T & _). rewrite <- T.
      exists (p_t p), (p_t q). split; [apply in_map, IP|]. split; [apply in_map, IQ|exact B]. }
    rewrite <- (C151_crop EN t c a b req C S E); [|rewrite LN; exact TWO|exact NE|exact CO].
    apply (C151_crop EN t' c a b req C' S' E'); [|exact NE|exact CO]. rewrite LN. destruct TWO as [Z|Z]; [left; apply M, Z|right; exact Z].
  Qed.

  (** What interpolation makes of one time *)
  Lemma pose_of_time (t w : traj Q) z y : consistent t -> strictly_time_sorted t -> (rot t = None \/ (2 <= tlen t)%nat) -> interpolate seg t z = Ok w -> In y (poses w) ->
    p_xyz y = mkV3 (interp_at (combine (tstamps t) (map vx (xyz t))) (p_t y)) (interp_at (combine (tstamps t) (map vy (xyz t))) (p_t y)) (interp_at (combine (tstamps t) (map vz (xyz t))) (p_t y)) /\
    p_arc y = interp_at (combine (tstamps t) (arc t)) (p_t y) /\
    match rot t with None => p_rot y = None | Some r => exists o, p_rot y = Some o /\ slerp_at seg (combine (tstamps t) r) (p_t y) = Ok o end.
  Proof.
    intros C S TWO W I. assert (NE : tstamps w <> []). { intro Z. unfold poses in I. rewrite Z in I. destruct I. }
    destruct (op_consistent seg t (OpInterpolate z) w C W (fun _ => NE)) as [Cw _].
    assert (L : (0 < tlen t)%nat). { destruct (interpolate_form seg t z w C W) as [N _]. unfold tlen. destruct C as [C1 _]. rewrite <- C1. destruct (tstamps t); [contradiction|cbn; lia]. }
    destruct (interpolate_ok seg t z C S L TWO) as (lo & hi & w' & _ & _ & E & _ & X & A & _ & _ & _ & _ & RR). rewrite W in E. injection E as <-.
    apply In_nth_error in I as [i I]. rewrite poses_nth in I by exact Cw. unfold pose_at in I.
    destruct (nth_error (tstamps w) i) as [x|] eqn:TX; [|discriminate]. rewrite X, A, !nth_error_map', TX in I. cbn [option_map] in I. destruct (nth_error (speed w) i) as [s|]; [|discriminate].
    destruct (rot t) as [r|].
    - destruct RR as [[Z _]|(q & RQ & MQ)]; [contradiction|]. rewrite RQ in I. destruct (nth_error q i) as [o|] eqn:NO; [|discriminate]. injection I as <-. cbn. split; [reflexivity|]. split; [reflexivity|].
      exists o. split; [reflexivity|]. assert (K := mapM_nth_error _ _ _ i MQ). rewrite TX in K. destruct K as (b & B1 & B2). congruence.
    - rewrite RR in I. injection I as <-. cbn. auto.
  Qed.

  (** Cropping first and interpolating first give the same poses at the same times, speeds aside. *)
  Theorem C151_order : hits_ends seg -> forall (t c u v w : traj Q) a b req, consistent t -> strictly_time_sorted t -> (rot t = None \/ (2 <= tlen c)%nat) ->
    crop t a b false = Ok c -> interpolate seg c req = Ok u -> interpolate seg t req = Ok v -> crop v a b false = Ok w ->
    forall p, In p (poses u) -> exists q, In q (poses w) /\ same_but_speed p q.
  Proof.
    intros EN t c u v w a b req C S TWO E U V W p I. assert (NE : tstamps u <> []). { intro Z. unfold poses in I. rewrite Z in I. destruct I. }
    assert (UT := C151_any EN t c u a b req C S E TWO U NE).
    destruct (crop_spec t a b false C) as (c' & E' & Cc & M & P). rewrite E in E'. injection E' as <-.
    destruct (op_consistent seg c (OpInterpolate req) u Cc U (fun _ => NE)) as [Cu _].
    assert (TT : rot t = None \/ (2 <= tlen t)%nat).
    { destruct TWO as [Z|Z]; [left; exact Z|right]. rewrite <- (poses_length c Cc), P in Z. rewrite <- (poses_length t C). pose proof (filter_shorter (in_span a b false) (poses t)). lia. }
    assert (IT : In (p_t p) (tstamps u)) by (destruct (poses_components u Cu) as (T & _); rewrite <- T; apply in_map, I).
    assert (IV : In (p_t p) (tstamps v)).
    { apply (interpolate_range seg t v req _ V). split; [apply (interpolate_range seg c u req _ U) in IT; apply IT|]. apply (interpolate_range seg t u _ _ UT) in IT. apply IT. }
    assert (NV : tstamps v <> []) by (intro Z; rewrite Z in IV; destruct IV).
    destruct (op_consistent seg t (OpInterpolate req) v C V (fun _ => NV)) as [Cv _]. destruct (poses_components v Cv) as (T & _). rewrite <- T in IV. apply in_map_iff in IV as (q & TQ & IQ).
    exists q. split.
    - destruct (crop_spec v a b false Cv) as (w' & W' & _ & _ & PW). rewrite W in W'. injection W' as <-. rewrite PW. apply filter_In. split; [exact IQ|].
      apply (crop_covers seg c u req U) in IT as (lo & hi & LO & HI & B). destruct (poses_components c Cc) as (TC & _). rewrite <- TC, P in LO, HI.
      apply in_map_iff in LO as (p1 & <- & L1). apply in_map_iff in HI as (p2 & <- & L2). apply filter_In in L1 as [_ L1]. apply filter_In in L2 as [_ L2]. unfold in_span in *.
      apply andb_true_iff in L1 as [A1 _]. apply andb_true_iff in L2 as [_ A2]. apply Rleb_true in A1, A2. apply andb_true_iff. split; apply Rleb_true; lra.
    - assert (A := pose_of_time t u _ p C S TT UT I). assert (B := pose_of_time t v req q C S TT V IQ). rewrite TQ in B. destruct A as (A1 & A2 & A3), B as (B1 & B2 & B3).
      split; [congruence|]. split; [congruence|]. split; [|congruence]. destruct (rot t) as [r|]; [|congruence]. destruct A3 as (o & -> & A3), B3 as (o' & -> & B3). congruence.
  Qed.
End Cropped.
Print Assumptions C151_crop.
Print Assumptions C151_any.
Print Assumptions C151_local.
Print Assumptions C151_order.

(** A trajectory with four poses, cropped to the middle two; and a different one with the same two *)
Definition four : traj nat :=
  mkTraj [0; 1; 2; 4] [mkV3 9 9 9; mkV3 0 0 0; mkV3 2 0 0; mkV3 5 5 5] (Some [1; 2; 3; 4]%nat) [0; 1; 3; 7] [vzero; vzero; vzero; vzero] SortTime "four" 0.
Definition four' : traj nat :=
  mkTraj [-3; 1; 2; 3] [mkV3 7 7 7; mkV3 0 0 0; mkV3 2 0 0; mkV3 8 8 8] (Some [5; 2; 3; 6]%nat) [0; 1; 3; 9] [vzero; vzero; vzero; vzero] SortTime "four" 0.
Lemma four_ok : consistent four /\ strictly_time_sorted four /\ consistent four' /\ strictly_time_sorted four'.
Proof. split; [repeat split|]. split; [unfold strictly_time_sorted; cbn; repeat constructor; lra|]. split; [repeat split|]. unfold strictly_time_sorted; cbn; repeat constructor; lra. Qed.
Lemma four_during : poses_during 1 2 four = [mkPose 1 (mkV3 0 0 0) (Some 2%nat) 1 vzero; mkPose 2 (mkV3 2 0 0) (Some 3%nat) 3 vzero] /\
  poses_during 1 2 four' = [mkPose 1 (mkV3 0 0 0) (Some 2%nat) 1 vzero; mkPose 2 (mkV3 2 0 0) (Some 3%nat) 3 vzero].
Proof. unfold poses_during. cbn. split; rb; reflexivity. Qed.
Example C151_case : hits_ends halfway /\ same_meta four four' /\ poses_during 1 2 four = poses_during 1 2 four' /\ length (poses_during 1 2 four) = 2%nat /\
  (forall x, In x [3/2] -> exists p q, In p (poses_during 1 2 four) /\ In q (poses_during 1 2 four) /\ p_t p <= x <= p_t q) /\
  interpolate halfway four [3/2] = interpolate halfway four' [3/2] /\
  exists c, crop four 1 2 false = Ok c /\ tlen c = 2%nat /\ covers c [3/2] /\ interpolate halfway c [3/2] = interpolate halfway four [3/2] /\
    exists u, interpolate halfway c [3/2] = Ok u /\ tstamps u = [3/2] /\ xyz u = [mkV3 1 0 0] /\ rot u = Some [2%nat].
Proof.
  destruct four_ok as (C & S & C' & S'). destruct four_during as (D & D').
  assert (M : same_meta four four') by (repeat split; discriminate).
  assert (CV : forall x, In x [3/2] -> exists p q, In p (poses_during 1 2 four) /\ In q (poses_during 1 2 four) /\ p_t p <= x <= p_t q).
  { intros x [<-|[]]. rewrite D. eexists. eexists. split; [left; reflexivity|]. split; [right; left; reflexivity|]. cbn. lra. }
  split; [exact halfway_ends|]. split; [exact M|]. split; [congruence|]. split; [rewrite D; reflexivity|]. split; [exact CV|].
  split; [apply (C151_local halfway halfway_ends four four' 1 2); try assumption; [congruence|right; rewrite D; cbn; lia|discriminate]|].
  destruct (crop_spec four 1 2 false C) as (c & E & Cc & Mc & P). exists c. split; [exact E|].
  assert (PD : poses c = [mkPose 1 (mkV3 0 0 0) (Some 2%nat) 1 vzero; mkPose 2 (mkV3 2 0 0) (Some 3%nat) 3 vzero]) by (rewrite P, <- D; apply filter_ext; reflexivity).
  assert (L : tlen c = 2%nat) by (rewrite <- (poses_length c Cc), PD; reflexivity). split; [exact L|].
  destruct (poses_components c Cc) as (T & X & RR & _). rewrite PD in T, X, RR. cbn in T, X, RR.
  assert (CC : covers c [3/2]). { intros x [<-|[]]. exists 1, 2. rewrite <- T. cbn. repeat split; auto; lra. } split; [exact CC|].
  assert (EQ := C151_crop halfway halfway_ends four c 1 2 [3/2] C S E ltac:(right; lia) ltac:(discriminate) CC). split; [exact EQ|].
  assert (SC : strictly_time_sorted c) by (unfold strictly_time_sorted; rewrite <- T; repeat constructor; lra).
  destruct (interpolate_ok halfway c [3/2] Cc SC ltac:(lia) ltac:(right; lia)) as (lo & hi & u & LO & HI & U & UT & UX & _ & _ & _ & _ & _ & UR). exists u. split; [exact U|].
  rewrite <- T in LO, HI, UX, UR. rewrite <- X in UX. cbn in LO, HI. injection LO as <-. injection HI as <-. cbn in UT. unfold in_range in UT. revert UT. rb; intro UT; try lra. 
  rewrite UT in UX, UR. split; [exact UT|]. split.
  - rewrite UX. cbn. rb; try lra. f_equal. apply V3_eq; cbn; lra.
  - unfold rots_of in RR. destruct (rot c) as [r|] eqn:RC; [|exfalso; destruct Mc as (_ & _ & _ & Mc); apply Mc in RC; discriminate RC]. destruct r as [|r1 [|r2 [|]]]; try discriminate. injection RR as <- <-.
    destruct UR as [[Z _]|(q & -> & UQ)]; [discriminate|]. cbn in UQ. revert UQ. rb; try lra. intro UQ. injection UQ as <-. unfold halfway. rb; first [reflexivity|lra].
Qed.
Print Assumptions C151_case.

(** REFUTED (all requested times inside the cropped span survive): a requested time before the first pose that cropping keeps is lost
    when cropping comes first. *)
Lemma demo_from_half : exists c, crop demo (1/2) 3 false = Ok c /\ consistent c /\ tlen c = 2%nat /\ tstamps c = [1; 3].
Proof.
  destruct (crop_spec demo (1/2) 3 false (proj1 demo_consistent)) as (c & E & Cc & _ & P). exists c. split; [exact E|]. split; [exact Cc|].
  assert (PD : poses c = [mkPose 1 (mkV3 3 4 0) (Some 11%nat) 5 (mkV3 0 0 1); mkPose 3 (mkV3 3 4 2) (Some 12%nat) 7 vzero]) by (rewrite P; unfold in_span; cbn; rb; try lra; reflexivity).
  split; [rewrite <- (poses_length c Cc), PD; reflexivity|]. destruct (poses_components c Cc) as (T & _). rewrite <- T, PD. reflexivity.
Qed.
Theorem C151_times_refuted : exists (t c u v w : traj nat) a b req, consistent t /\ strictly_time_sorted t /\ crop t a b false = Ok c /\ interpolate demo_seg c req = Ok u /\
  interpolate demo_seg t req = Ok v /\ crop v a b false = Ok w /\ tstamps u = [2] /\ tstamps w = [3/4; 2].
Proof.
  destruct demo_consistent as [C S]. destruct demo_from_half as (c & E & Cc & L & T).
  assert (SC : strictly_time_sorted c) by (unfold strictly_time_sorted; rewrite T; repeat constructor; lra).
  assert (SO : np_sort [3/4; 2] = [3/4; 2]) by (apply np_sort_id; repeat constructor; lra).
  destruct (interpolate_ok demo_seg c [3/4; 2] Cc SC ltac:(lia) ltac:(right; lia)) as (lo & hi & u & LO & HI & U & UT & _). rewrite T in LO, HI. cbn in LO, HI. injection LO as <-. injection HI as <-.
  destruct (interpolate_ok demo_seg demo [3/4; 2] C S ltac:(cbn; lia) ltac:(right; cbn; lia)) as (lo & hi & v & LO & HI & V & VT & _). cbn in LO, HI. injection LO as <-. injection HI as <-.
  rewrite SO in UT, VT. cbn [filter in_range] in UT, VT. unfold in_range in UT, VT. revert UT VT. rb; try lra. cbn [andb]. intros UT VT.
  destruct (op_consistent demo_seg demo (OpInterpolate [3/4; 2]) v C V) as [Cv _]; [intros _; rewrite VT; discriminate|].
  destruct (crop_spec v (1/2) 3 false Cv) as (w & W & Cw & _ & PW). exists demo, c, u, v, w, (1/2), 3, [3/4; 2]. do 6 (split; [assumption|]). split; [exact UT|].
  destruct (poses_components w Cw) as (TW & _). destruct (poses_components v Cv) as (TV & _). rewrite <- TW, PW, filter_true, TV; [exact VT|].
  intros p I. assert (K : In (p_t p) (tstamps v)) by (rewrite <- TV; apply in_map, I). rewrite VT in K. unfold in_span. destruct K as [<-|[<-|[]]]; rb; first [reflexivity|lra].
Qed.
Print Assumptions C151_times_refuted.

(** REFUTED (for speeds): cropping before interpolating sets the speed at the last time to zero. *)
Theorem C151_speed_refuted : exists (t c u v w : traj nat) a b req p q, consistent t /\ strictly_time_sorted t /\ crop t a b false = Ok c /\ interpolate demo_seg c req = Ok u /\
  interpolate demo_seg t req = Ok v /\ crop v a b false = Ok w /\ In p (poses u) /\ In q (poses w) /\ same_but_speed p q /\ p_speed p = vzero /\ p_speed q = mkV3 0 0 1.
Proof.
  destruct demo_consistent as [C S].
  destruct (crop_spec demo 0 1 false C) as (c & E & Cc & (M1 & M2 & M3 & M4) & P).
  assert (PD : poses c = [mkPose 0 (mkV3 0 0 0) (Some 10%nat) 0 (mkV3 3 4 0); mkPose 1 (mkV3 3 4 0) (Some 11%nat) 5 (mkV3 0 0 1)]) by (rewrite P; unfold in_span; cbn; rb; try lra; reflexivity).
  assert (c = mkTraj [0; 1] [mkV3 0 0 0; mkV3 3 4 0] (Some [10; 11]%nat) [0; 5] [mkV3 3 4 0; mkV3 0 0 1] SortTime "demo" 0) as ->.
  { apply traj_ext; [exact Cc|repeat split|exact PD|]. split; [rewrite M1; reflexivity|]. split; [rewrite M2; reflexivity|]. split; [rewrite M3; reflexivity|].
    split; intro Z; [discriminate Z|apply M4 in Z; discriminate Z]. }
  set (c := mkTraj _ _ _ _ _ _ _ _) in *.
  assert (SC : strictly_time_sorted c) by (unfold strictly_time_sorted; cbn; repeat constructor; lra).
  assert (SO : np_sort [0; 1; 3] = [0; 1; 3]) by (apply np_sort_id; repeat constructor; lra).
  destruct (interpolate_ok demo_seg c [0; 1; 3] Cc SC ltac:(cbn; lia) ltac:(right; cbn; lia)) as (lo & hi & u & LO & HI & U & UT & UX & _ & US & _). cbn in LO, HI. injection LO as <-. injection HI as <-.
  destruct (interpolate_ok demo_seg demo [0; 1; 3] C S ltac:(cbn; lia) ltac:(right; cbn; lia)) as (lo & hi & v & LO & HI & V & VT & VX & _ & VS & _). cbn in LO, HI. injection LO as <-. injection HI as <-.
  rewrite SO in UT, VT. cbn [filter] in UT, VT. unfold in_range in UT, VT. revert UT VT. rb; try lra. cbn [andb]. intros UT VT.
  rewrite UT in UX, US. rewrite VT in VX, VS.
  assert (XU : xyz u = [mkV3 0 0 0; mkV3 3 4 0]) by (rewrite UX; cbn; rb; try lra; reflexivity).
  assert (XV : xyz v = [mkV3 0 0 0; mkV3 3 4 0; mkV3 3 4 2]) by (rewrite VX; cbn; rb; try lra; reflexivity).
  rewrite XU in US. rewrite XV in VS. cbn in US, VS. injection US as SU. injection VS as SV.
  destruct (op_consistent demo_seg c (OpInterpolate [0; 1; 3]) u Cc U) as [Cu _]; [intros _; rewrite UT; discriminate|].
  destruct (op_consistent demo_seg demo (OpInterpolate [0; 1; 3]) v C V) as [Cv _]; [intros _; rewrite VT; discriminate|].
  destruct (crop_spec v 0 1 false Cv) as (w & W & Cw & _ & PW).
  assert (NP : exists p, pose_at u 1 = Some p).
  { destruct (nth_error (poses u) 1) as [p|] eqn:N; [exists p; rewrite <- N; symmetry; apply poses_nth, Cu|]. apply nth_error_None in N. rewrite poses_length in N by exact Cu. unfold tlen in N. rewrite XU in N. cbn in N. lia. }
  destruct NP as [p NP]. assert (IP : In p (poses u)) by (apply (nth_error_In _ 1); rewrite poses_nth by exact Cu; exact NP).
  assert (EN : hits_ends demo_seg) by (intros x y; unfold demo_seg; split; rb; first [reflexivity|lra]).
  destruct (C151_order demo_seg EN demo c u v w 0 1 [0; 1; 3] C S ltac:(right; cbn; lia) E U V W p IP) as (q & IQ & SQ).
  assert (TP : p_t p = 1 /\ p_speed p = vzero).
  { unfold pose_at in NP. rewrite UT, XU, SU in NP. destruct (nth_error (arc u) 1) as [ar|]; [|discriminate NP]. destruct (rot u) as [r|]; [destruct (nth_error r 1); [|discriminate NP]|]; injection NP as <-; auto. }
  exists demo, c, u, v, w, 0, 1, [0; 1; 3], p, q. do 9 (split; [assumption|]). split; [apply TP|].
  rewrite PW in IQ. apply filter_In in IQ as [IQ _]. apply In_nth_error in IQ as [k K]. rewrite poses_nth in K by exact Cv. unfold pose_at in K. rewrite VT, XV, SV in K.
  assert (TQ : p_t q = 1) by (destruct SQ as (SQ & _); destruct TP; congruence).
  destruct k as [|[|[|k]]]; [| | |destruct k; discriminate K];
    (destruct (nth_error (arc v) _) as [ar|]; [|discriminate K]; destruct (rot v) as [r|]; [destruct (nth_error r _); [|discriminate K]|]; injection K as <-; cbn in TQ |- *; try lra);
    apply V3_eq; cbn; lra.
Qed.
Print Assumptions C151_speed_refuted.
