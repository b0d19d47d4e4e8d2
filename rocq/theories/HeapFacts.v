(** Proofs about trajectory objects in memory. *)
From Verif Require Import Base BaseFacts NumpyModel NumpyFacts TrajModel TrajSpec TrajFacts TrajFacts2 TrajFacts3
  GeomModel GeomSpec GeomFacts2 HeapModel HeapSpec.

Lemma upd_length {A} n (a : A) l : length (upd n a l) = length l.
Proof. revert n. induction l as [|x l IH]; intros [|n]; cbn; auto. Qed.

Lemma nth_upd_same {A} n (a : A) l : (n < length l)%nat -> nth_error (upd n a l) n = Some a.
Proof.
  revert n. induction l as [|x l IH]; intros [|n] H; cbn in *; try lia; auto. apply IH. lia.
Qed.

Lemma nth_upd_other {A} n m (a : A) l : n <> m -> nth_error (upd n a l) m = nth_error l m.
Proof.
  revert n m. induction l as [|x l IH]; intros [|n] [|m] H; cbn; auto; try congruence.
Qed.

Section Facts.
  Context {Q : Type}.
  Implicit Types (h : heap Q) (t : traj Q) (a b : addr).

  Definition pos_of h a : option addr := option_map o_pos (nth_error (trajs h) a).

  Lemma shares_iff h a b : shares_points h a b <-> exists x, pos_of h a = Some x /\ pos_of h b = Some x.
  Proof.
    unfold shares_points, pos_of. split.
    - intros (oa & ob & Ha & Hb & E). exists (o_pos oa). rewrite Ha, Hb. cbn. rewrite E. auto.
    - intros (x & Ha & Hb). destruct (nth_error (trajs h) a) as [oa|]; [|discriminate].
      destruct (nth_error (trajs h) b) as [ob|]; [|discriminate]. cbn in *. exists oa, ob. repeat split; congruence.
  Qed.

  (** The references and the number of objects. *)
  Definition same_shape h h' : Prop :=
    (forall a, pos_of h' a = pos_of h a) /\ length (trajs h') = length (trajs h) /\ length (points h') = length (points h).

  Lemma same_shape_refl h : same_shape h h.
  Proof. repeat split. Qed.
  Lemma same_shape_trans h1 h2 h3 : same_shape h1 h2 -> same_shape h2 h3 -> same_shape h1 h3.
  Proof. intros (A & B & C) (A' & B' & C'). repeat split; [intro; rewrite A', A; reflexivity | congruence..]. Qed.

  Lemma store_pos o w : o_pos (store (Q := Q) o w) = o_pos o.
  Proof. destruct w; reflexivity. Qed.

  Lemma assign_shape h a w : same_shape h (assign h a w).
  Proof.
    unfold assign. destruct (nth_error (trajs h) a) as [o|] eqn:E; [|apply same_shape_refl].
    assert (L : (a < length (trajs h))%nat) by (apply nth_error_Some; congruence).
    destruct w; try (split; [|split; [apply upd_length | reflexivity]]; intro b; unfold pos_of; cbn [trajs];
      destruct (Nat.eq_dec a b) as [<-|N];
      [rewrite nth_upd_same by exact L; rewrite E; reflexivity | rewrite nth_upd_other by exact N; reflexivity]).
    destruct (nth_error (points h) (o_pos o)); [|apply same_shape_refl].
    split; [|split; [reflexivity | apply upd_length]]. reflexivity.
  Qed.

  Lemma view_pos h a t : view h a = Some t -> exists o p,
    nth_error (trajs h) a = Some o /\ nth_error (points h) (o_pos o) = Some p /\ t = view_of o p.
  Proof.
    unfold view. destruct (nth_error (trajs h) a) as [o|]; [|discriminate].
    destruct (nth_error (points h) (o_pos o)) as [p|] eqn:E; [|discriminate]. intros [= <-]. eauto.
  Qed.

  Lemma assign_view h a t w : view h a = Some t -> view (assign h a w) a = Some (write_value t w).
  Proof.
    intro H. destruct (view_pos h a t H) as (o & p & Ho & Hp & ->).
    assert (L : (a < length (trajs h))%nat) by (apply nth_error_Some; congruence).
    assert (Lp : (o_pos o < length (points h))%nat) by (apply nth_error_Some; congruence).
    unfold assign. rewrite Ho. destruct w; unfold view; cbn [trajs points];
      try (rewrite nth_upd_same by exact L; rewrite store_pos, Hp; reflexivity).
    rewrite Hp. cbn [trajs points]. rewrite Ho, nth_upd_same by exact Lp. reflexivity.
  Qed.

  Lemma assign_frame h a b w :
    b <> a -> ~ shares_points h a b -> view (assign h a w) b = view h b.
  Proof.
    intros N S. unfold assign. destruct (nth_error (trajs h) a) as [o|] eqn:E; [|reflexivity].
    destruct w; unfold view; cbn [trajs points]; try (rewrite nth_upd_other by congruence; reflexivity).
    destruct (nth_error (points h) (o_pos o)) as [p|] eqn:P; [|reflexivity]. cbn [trajs points].
    destruct (nth_error (trajs h) b) as [ob|] eqn:B; [|reflexivity].
    rewrite nth_upd_other; [reflexivity|]. intro K. apply S. exists o, ob. auto.
  Qed.

  Lemma shape_shares h h' a b : same_shape h h' -> shares_points h' a b <-> shares_points h a b.
  Proof. intros (P & _). rewrite !shares_iff. setoid_rewrite P. reflexivity. Qed.

  (** ** Running a body *)
  Lemma run_spec p : forall h a t, view h a = Some t ->
    snd (run p a h) = snd (effect p t) /\ view (fst (run p a h)) a = Some (fst (effect p t)).
  Proof.
    induction p as [|e|k IH|w k IH]; intros h a t H; cbn [run effect fst snd].
    - auto.
    - auto.
    - rewrite H. apply IH, H.
    - apply IH, assign_view, H.
  Qed.

  Lemma run_shape p : forall h a, same_shape h (fst (run p a h)).
  Proof.
    induction p as [|e|k IH|w k IH]; intros h a; cbn [run fst].
    - apply same_shape_refl.
    - apply same_shape_refl.
    - destruct (view h a); [apply IH | apply same_shape_refl].
    - eapply same_shape_trans; [apply assign_shape | apply IH].
  Qed.

  Lemma run_frame p : forall h a b, b <> a -> ~ shares_points h a b -> view (fst (run p a h)) b = view h b.
  Proof.
    induction p as [|e|k IH|w k IH]; intros h a b N S; cbn [run fst]; auto.
    - destruct (view h a); [apply IH; assumption | reflexivity].
    - rewrite IH; [apply assign_frame; assumption | exact N |].
      intro K. apply S. apply (shape_shares h _ a b (assign_shape h a w)), K.
  Qed.

  (** ** Copies *)
  Lemma nth_app_old {A} (l : list A) x n (v : A) : nth_error l n = Some v -> nth_error (l ++ [x]) n = Some v.
  Proof. intro H. rewrite nth_error_app1; [exact H|]. apply nth_error_Some. congruence. Qed.

  Lemma nth_app_new {A} (l : list A) x : nth_error (l ++ [x]) (length l) = Some x.
  Proof. rewrite nth_error_app2, Nat.sub_diag by lia. reflexivity. Qed.

  Lemma copy_err_frame h a e : snd (copy a h) = Err e -> fst (copy a h) = h.
  Proof.
    unfold copy. destruct (nth_error (trajs h) a) as [o|]; [|reflexivity].
    destruct (nth_error (points h) (o_pos o)); [discriminate | reflexivity].
  Qed.

  Lemma copy_keeps h a b u : view h b = Some u -> view (fst (copy a h)) b = Some u.
  Proof.
    intro H. unfold copy. destruct (nth_error (trajs h) a) as [o|]; [|exact H].
    destruct (nth_error (points h) (o_pos o)) as [p|]; [|exact H]. cbn [fst].
    destruct (view_pos h b u H) as (ob & pb & Hb & Hp & ->). unfold view; cbn [trajs points].
    rewrite (nth_app_old _ _ _ _ Hb), (nth_app_old _ _ _ _ Hp). reflexivity.
  Qed.

  Lemma copy_view h a t : view h a = Some t ->
    exists h' n, copy a h = (h', Ok n) /\ n = length (trajs h) /\ view h' n = Some t /\
      (well_formed h -> forall b, b <> n -> ~ shares_points h' n b).
  Proof.
    intro H. destruct (view_pos h a t H) as (o & p & Ho & Hp & ->). unfold copy. rewrite Ho, Hp.
    eexists. exists (length (trajs h)). split; [reflexivity|]. split; [reflexivity|]. split.
    - unfold view; cbn [trajs points]. rewrite nth_app_new. cbn [o_pos]. rewrite nth_app_new. reflexivity.
    - intros W b N (oa & ob & Ha & Hb & E). cbn [trajs] in *. rewrite nth_app_new in Ha. injection Ha as <-. cbn in E.
      destruct (Nat.lt_ge_cases b (length (trajs h))) as [L|L].
      + rewrite nth_error_app1 in Hb by exact L. specialize (W _ _ Hb). lia.
      + assert (b < length (trajs h ++ [mkTobj (o_tstamps o) (length (points h)) (o_rot o) (o_arc o) (o_speed o) (o_srt o) (o_name o)]))%nat
          by (apply nth_error_Some; congruence).
        rewrite app_length in H0; cbn in H0. lia.
  Qed.

  Lemma view_fresh h n : n = length (trajs h) -> view h n = None.
  Proof. intros ->. unfold view. assert (nth_error (trajs h) (length (trajs h)) = None) as -> by (apply nth_error_None; lia). reflexivity. Qed.

  Lemma shape_wf h h' : same_shape h h' -> well_formed h -> well_formed h'.
  Proof.
    intros (P & _ & L) W a o H. rewrite L. specialize (P a). unfold pos_of in P. rewrite H in P. cbn in P.
    destruct (nth_error (trajs h) a) as [o'|] eqn:E; [|discriminate]. injection P as ->. apply (W a o' E).
  Qed.

  Lemma shape_separated h h' : same_shape h h' -> separated h -> separated h'.
  Proof. intros S H a b K. apply H. apply (shape_shares h h' a b S), K. Qed.

  Lemma copy_wf h a : well_formed h -> well_formed (fst (copy a h)).
  Proof.
    intros W. unfold copy. destruct (nth_error (trajs h) a) as [o|]; [|exact W].
    destruct (nth_error (points h) (o_pos o)) as [p|]; [|exact W]. cbn [fst]. intros b ob Hb. cbn [trajs points] in *.
    rewrite app_length; cbn. destruct (Nat.lt_ge_cases b (length (trajs h))) as [L|L].
    - rewrite nth_error_app1 in Hb by exact L. specialize (W _ _ Hb). lia.
    - rewrite nth_error_app2 in Hb by exact L. destruct (b - length (trajs h))%nat as [|[|]]; try discriminate.
      injection Hb as <-. cbn. lia.
  Qed.

  Lemma copy_separated h a : well_formed h -> separated h -> separated (fst (copy a h)).
  Proof.
    intros W S. unfold copy. destruct (nth_error (trajs h) a) as [o|]; [|exact S].
    destruct (nth_error (points h) (o_pos o)) as [p|]; [|exact S]. cbn [fst].
    intros x y (ox & oy & Hx & Hy & E). cbn [trajs] in *.
    assert (K : forall z oz, nth_error (trajs h ++ [mkTobj (o_tstamps o) (length (points h)) (o_rot o) (o_arc o) (o_speed o) (o_srt o) (o_name o)]) z = Some oz ->
      (nth_error (trajs h) z = Some oz /\ (o_pos oz < length (points h))%nat) \/ (z = length (trajs h) /\ o_pos oz = length (points h))).
    { intros z oz Hz. destruct (Nat.lt_ge_cases z (length (trajs h))) as [L|L].
      - rewrite nth_error_app1 in Hz by exact L. left. split; [exact Hz|]. apply (W _ _ Hz).
      - rewrite nth_error_app2 in Hz by exact L. destruct (z - length (trajs h))%nat as [|[|]] eqn:D; try discriminate.
        injection Hz as <-. right. split; [lia | reflexivity]. }
    destruct (K x ox Hx) as [[Hx' Lx]|[-> Lx]], (K y oy Hy) as [[Hy' Ly]|[-> Ly]]; try lia.
    apply S. exists ox, oy. auto.
  Qed.

  (** ** Calls *)
  Lemma call_false_frame p self h b u :
    well_formed h -> view h b = Some u -> view (fst (call p self false h)) b = Some u.
  Proof.
    intros W Hb. unfold call. destruct (copy self h) as [h1 [n|e]] eqn:E.
    - assert (Hs : view h1 b = Some u) by (pose proof (copy_keeps h self b u Hb) as K; rewrite E in K; exact K).
      assert (exists t, view h self = Some t) as [t Ht].
      { unfold copy in E. unfold view. destruct (nth_error (trajs h) self) as [o|]; [|discriminate].
        destruct (nth_error (points h) (o_pos o)); [eauto | discriminate]. }
      destruct (copy_view h self t Ht) as (h' & n' & E' & N & V & F). rewrite E in E'. injection E' as <- <-.
      assert (b <> n). { intro K. rewrite K, (view_fresh h n N) in Hb. discriminate. }
      pose proof (run_frame p h1 n b H (F W b H)) as R.
      destruct (run p n h1) as [h2 [[]|e]]; cbn [fst] in *; congruence.
    - cbn [fst]. pose proof (copy_keeps h self b u Hb) as K. rewrite E in K. exact K.
  Qed.

  Lemma call_false_result p self h t :
    view h self = Some t ->
    match snd (effect p t) with
    | Ok tt => exists n, snd (call p self false h) = Ok n /\ view h n = None /\
                 view (fst (call p self false h)) n = Some (fst (effect p t))
    | Err e => snd (call p self false h) = Err e
    end.
  Proof.
    intros H. unfold call. destruct (copy_view h self t H) as (h1 & n & -> & N & V & _).
    destruct (run_spec p h1 n t V) as [R1 R2]. destruct (run p n h1) as [h2 r]; cbn [fst snd] in *. subst r.
    destruct (snd (effect p t)) as [[]|e].
    - exists n. cbn. split; [reflexivity|]. split; [apply view_fresh, N | exact R2].
    - reflexivity.
  Qed.

  Lemma call_true_result p self h t :
    view h self = Some t ->
    snd (call p self true h) = rmap (fun _ => self) (snd (effect p t)) /\
    view (fst (call p self true h)) self = Some (fst (effect p t)) /\
    (forall b, b <> self -> ~ shares_points h self b -> view (fst (call p self true h)) b = view h b).
  Proof.
    intros H. unfold call. destruct (run_spec p h self t H) as [R1 R2].
    assert (R3 := fun b => run_frame p h self b).
    destruct (run p self h) as [h2 r]; cbn [fst snd] in *. subst r.
    destruct (snd (effect p t)) as [[]|e]; cbn; auto.
  Qed.

  Lemma call_wf p self i h : well_formed h -> well_formed (fst (call p self i h)).
  Proof.
    intro W. unfold call. destruct i.
    - pose proof (shape_wf _ _ (run_shape p h self) W) as K. destruct (run p self h) as [h2 [[]|e]]; exact K.
    - pose proof (copy_wf h self W) as W1. destruct (copy self h) as [h1 [n|e]]; [|exact W1]. cbn in W1.
      pose proof (shape_wf _ _ (run_shape p h1 n) W1) as K. destruct (run p n h1) as [h2 [[]|e]]; exact K.
  Qed.

  Lemma call_separated p self i h : well_formed h -> separated h -> separated (fst (call p self i h)).
  Proof.
    intros W S. unfold call. destruct i.
    - pose proof (shape_separated _ _ (run_shape p h self) S) as K. destruct (run p self h) as [h2 [[]|e]]; exact K.
    - pose proof (copy_separated h self W S) as W1. destruct (copy self h) as [h1 [n|e]]; [|exact W1]. cbn in W1.
      pose proof (shape_separated _ _ (run_shape p h1 n) W1) as K. destruct (run p n h1) as [h2 [[]|e]]; exact K.
  Qed.

  Lemma session_frame l : forall h b u,
    well_formed h -> separated h -> view h b = Some u -> Forall (fun x => ~ targets b x) l ->
    view (session h l) b = Some u /\ separated (session h l) /\ well_formed (session h l).
  Proof.
    induction l as [|x l IH]; intros h b u W S H F; [auto|]. inversion F as [|? ? Fx Fl]; subst.
    cbn [session fold_left]. apply IH; [..|exact Fl].
    - destruct x; cbn [act]; [apply call_wf | apply copy_wf]; exact W.
    - destruct x; cbn [act]; [apply call_separated | apply copy_separated]; assumption.
    - destruct x as [p self [|]|self]; cbn [act].
      + assert (N : b <> self) by (intro K; apply Fx; cbn; congruence).
        unfold call. pose proof (run_frame p h self b N) as R.
        rewrite <- H, <- R.
        * destruct (run p self h) as [h2 [[]|e]]; reflexivity.
        * intro K. apply N. symmetry. apply S, K.
      + apply call_false_frame; assumption.
      + apply copy_keeps, H.
  Qed.

  (** ** The bodies implement the value model *)
  Local Ltac ecbn := cbv beta iota zeta delta [bind rmap]; cbn [effect write_value set_tstamps set_xyz set_rot set_arc set_speed set_srt
                          tstamps xyz rot arc speed srt name epsg];
    cbv beta iota zeta delta [bind rmap set_tstamps set_xyz set_rot set_arc set_speed set_srt
                          tstamps xyz rot arc speed srt name epsg].
  Lemma effect_lift {A} (r : result A) (k : A -> prog Q) t :
    effect (lift r k) t = match r with Ok a => effect (k a) t | Err e => (t, Err e) end.
  Proof. destruct r; reflexivity. Qed.

  Lemma effect_index ix k t :
    match apply_index t ix with
    | Ok t' => effect (index_then ix k) t = effect k t'
    | Err e => snd (effect (index_then ix k) t) = Err e
    end.
  Proof.
    destruct t as [ts ps q al sp so nm ep]. unfold apply_index, index_then. cbn [tstamps xyz rot arc speed srt name epsg].
    cbn [effect]. rewrite effect_lift. cbn [tstamps]. destruct (np_index ts ix) as [ts'|e]; cbn [bind]; [|reflexivity].
    ecbn. rewrite effect_lift.
    destruct (np_index ps ix) as [ps'|e]; cbn [bind]; [|reflexivity].
    ecbn.
    destruct q as [q|]; cbn [rmap].
    - rewrite effect_lift. destruct (np_index q ix) as [q'|e]; cbn [bind rmap]; [|reflexivity].
      ecbn. rewrite effect_lift.
      destruct (np_index al ix) as [al'|e]; cbn [bind]; [|reflexivity].
      ecbn. rewrite effect_lift.
      destruct (np_index sp ix) as [sp'|e]; cbn [bind]; reflexivity.
    - cbn [bind]. ecbn. rewrite effect_lift. cbn [arc].
      destruct (np_index al ix) as [al'|e]; cbn [bind]; [|reflexivity].
      ecbn. rewrite effect_lift.
      destruct (np_index sp ix) as [sp'|e]; cbn [bind]; reflexivity.
  Qed.

  Lemma apply_index_implements ix : implements (apply_index_body ix) (fun t => apply_index t ix).
  Proof.
    intro t. pose proof (effect_index ix Done t) as H. unfold apply_index_body.
    destruct (apply_index t ix) as [t'|e]; exact H.
  Qed.

  Lemma effect_crop (a b : R) inv k t :
    match crop t a b inv with
    | Ok t' => effect (crop_then a b inv k) t = effect k t'
    | Err e => snd (effect (crop_then a b inv k) t) = Err e
    end.
  Proof. unfold crop, crop_then. cbn [effect]. apply effect_index. Qed.

  Lemma crop_implements (a b : R) inv : implements (crop_body a b inv) (fun t => crop t a b inv).
  Proof.
    intro t. pose proof (effect_crop a b inv Done t) as H. unfold crop_body.
    destruct (crop t a b inv) as [t'|e]; exact H.
  Qed.

  Lemma match_timestamps_implements ts : implements (match_timestamps_body ts) (fun t => match_timestamps t ts).
  Proof. intro t. unfold match_timestamps_body, match_timestamps. cbn [effect]. apply apply_index_implements. Qed.

  Lemma intersect_implements ts gap : implements (intersect_body ts gap) (fun t => intersect t ts gap).
  Proof.
    intro t. unfold intersect_body, intersect. cbn [effect]. rewrite effect_lift.
    destruct (common_time_span ts (tstamps t)) as [[[t0 t1]|]|e]; cbn [bind]; [| reflexivity | reflexivity].
    match goal with |- context [crop_then t0 t1 false ?k] => pose proof (effect_crop t0 t1 false k t) as H end.
    destruct (crop t t0 t1 false) as [c|e]; cbn [bind]; [|exact H]. rewrite H. cbn [effect]. rewrite effect_lift.
    destruct (mapM _ _) as [keep|e]; cbn [bind]; [|reflexivity]. apply apply_index_implements.
  Qed.

  Lemma interpolate_implements seg request :
    implements (interpolate_body seg request) (fun t => interpolate seg t request).
  Proof.
    intro t. destruct t as [ts ps q al sp so nm ep]. unfold interpolate_body, interpolate. cbn [effect]. rewrite effect_lift.
    cbn [tstamps]. destruct (crop_request ts (np_sort request)) as [tc|e]; cbn [bind]; [|reflexivity].
    unfold interpolate_positions. cbn [tstamps xyz]. rewrite effect_lift.
    destruct (np_interp tc ts (map vx ps)) as [x|e]; cbn [bind]; [|reflexivity]. rewrite effect_lift.
    destruct (np_interp tc ts (map vy ps)) as [y|e]; cbn [bind]; [|reflexivity]. rewrite effect_lift.
    destruct (np_interp tc ts (map vz ps)) as [z|e]; cbn [bind]; [|reflexivity].
    ecbn. unfold interpolate_rotations.
    cbn [rot]. destruct q as [q|].
    - destruct (length tc =? 0)%nat.
      + cbn [bind]. ecbn. rewrite effect_lift. cbn [xyz set_xyz].
        destruct (gradient_3d _ tc) as [g|e]; cbn [bind]; [|reflexivity].
        ecbn. rewrite effect_lift. cbn [tstamps arc].
        destruct (np_interp tc ts al) as [l|e]; cbn [bind]; reflexivity.
      + rewrite effect_lift. cbn [tstamps set_xyz]. destruct (slerp seg ts q tc) as [q'|e]; cbn [bind]; [|reflexivity].
        ecbn. rewrite effect_lift. cbn [xyz].
        destruct (gradient_3d _ tc) as [g|e]; cbn [bind]; [|reflexivity].
        ecbn. rewrite effect_lift. cbn [tstamps arc].
        destruct (np_interp tc ts al) as [l|e]; cbn [bind]; reflexivity.
    - cbn [bind]. ecbn. rewrite effect_lift. cbn [xyz set_xyz].
      destruct (gradient_3d _ tc) as [g|e]; cbn [bind]; [|reflexivity].
      ecbn. rewrite effect_lift. cbn [tstamps arc].
      destruct (np_interp tc ts al) as [l|e]; cbn [bind]; reflexivity.
  Qed.

  Lemma apply_transformation_implements ops T :
    implements (apply_transformation_body ops T) (fun t => Ok (apply_transformation ops T t)).
  Proof. intro t. reflexivity. Qed.

  Lemma apply_alignment_implements ops p sensor :
    implements (apply_alignment_body ops p sensor) (fun t => apply_alignment ops p sensor false t).
  Proof.
    intro t. unfold apply_alignment_body, apply_alignment. cbn [effect]. rewrite effect_lift.
    match goal with |- context [bind ?r _] => destruct r as [shift|e] end; cbn [bind]; [|reflexivity].
    rewrite effect_lift. destruct (iadd (xyz t) shift) as [moved|e]; cbn [bind]; [|reflexivity].
    cbn [effect transform_then write_value]. destruct t. reflexivity.
  Qed.

  Lemma adopt_first_position_implements (other : traj Q) :
    implements adopt_first_position_body (fun t => adopt_first_position t other).
  Proof.
    intro t. unfold adopt_first_position_body, adopt_first_position. cbn [effect]. rewrite effect_lift.
    destruct (np_get (xyz t) 0) as [a|e]; cbn [bind]; [|reflexivity]. reflexivity.
  Qed.

  Lemma approximate_implements argsort cubic win :
    implements (approximate_body argsort cubic win) (fun t => approximate argsort cubic win t).
  Proof.
    intro t. unfold approximate_body, approximate. cbn [effect]. rewrite effect_lift.
    destruct (function_of argsort t) as [f|e]; cbn [bind]; [|reflexivity]. rewrite effect_lift.
    destruct (xyz_sorted argsort t) as [p|e]; cbn [bind]; [|reflexivity]. rewrite effect_lift.
    destruct (cubic f p) as [pa|e]; cbn [bind]; [|reflexivity]. rewrite effect_lift.
    destruct (np_take pa _) as [p'|e]; cbn [bind]; [|reflexivity]. cbn [effect write_value].
    change (has_orientation (set_xyz p' t)) with (has_orientation t).
    destruct (has_orientation t); cbn [negb]; [|reflexivity]. rewrite effect_lift.
    destruct (quat_sorted argsort t) as [q|e]; cbn [bind]; [|reflexivity]. rewrite effect_lift.
    destruct (win f q) as [qa|e]; cbn [bind]; [|reflexivity]. rewrite effect_lift.
    destruct (np_take qa _) as [q'|e]; cbn [bind]; reflexivity.
  Qed.

  (** ** Failing calls *)
  Lemma index_fail_atomic ix t t' e :
    consistent t -> effect (apply_index_body ix) t = (t', Err e) -> t' = t /\ e = IndexError.
  Proof.
    intros Hc H. pose proof (apply_index_implements ix t) as I. destruct (apply_index t ix) as [u|e'] eqn:E; [congruence|].
    rewrite H in I. cbn in I. injection I as ->. destruct (apply_index_err t ix e' Hc E) as [-> N].
    split; [|reflexivity].
    assert (X : np_index (tstamps t) ix = Err IndexError).
    { destruct (np_index (tstamps t) ix) as [l|e''] eqn:X.
      - exfalso. assert (Hl := poses_length t Hc). unfold tlen in Hl.
        destruct (np_index_ok_transfer (tstamps t) (poses t) ix l) as [y Y]; [|exact X|congruence].
        destruct Hc as [H1 _]. lia.
      - f_equal. eapply np_index_err; eassumption. }
    unfold apply_index_body, index_then in H. cbn [effect] in H. rewrite effect_lift, X in H. congruence.
  Qed.

  Lemma crop_never_fails (a b : R) inv t : consistent t -> snd (effect (crop_body a b inv) t) = Ok tt.
  Proof.
    intro Hc. destruct (crop_spec t a b inv Hc) as (t' & E & _). pose proof (crop_implements a b inv t) as I. cbv beta in I.
    rewrite E in I. rewrite I. reflexivity.
  Qed.

  Lemma match_timestamps_never_fails ts t : consistent t -> snd (effect (match_timestamps_body ts) t) = Ok tt.
  Proof.
    intro Hc. destruct (match_timestamps_spec t ts Hc) as (t' & E & _).
    pose proof (match_timestamps_implements ts t) as I. cbv beta in I. rewrite E in I. rewrite I. reflexivity.
  Qed.

  Lemma intersect_fail_atomic ts gap t t' e :
    consistent t -> effect (intersect_body ts gap) t = (t', Err e) -> t' = t.
  Proof.
    intros Hc H. pose proof (intersect_implements ts gap t) as I. cbv beta in I.
    destruct ts as [|x ts]; [| destruct (tstamps t) as [|y l] eqn:E].
    - cbn in H. congruence.
    - unfold intersect_body in H. cbn [effect] in H.
      rewrite effect_lift, E, (proj1 (common_time_span_empty (x :: ts) [])) in H by auto. congruence.
    - destruct (min_exists (x :: ts)) as [a0 A0]; [discriminate|].
      destruct (max_exists (x :: ts)) as [a1 A1]; [discriminate|].
      destruct (min_exists (tstamps t)) as [b0 B0]; [congruence|].
      destruct (max_exists (tstamps t)) as [b1 B1]; [congruence|].
      destruct (Rle_or_lt (Rmax a0 b0) (Rmin a1 b1)) as [L|L].
      + destruct (intersect_spec t (x :: ts) gap a0 a1 b0 b1 Hc A0 A1 B0 B1 L) as (u & keep & U & _).
        rewrite U in I. congruence.
      + unfold intersect_body in H. cbn [effect] in H.
        rewrite effect_lift, (common_time_span_spec _ _ _ _ _ _ A0 A1 B0 B1) in H.
        destruct (Rleb_spec (Rmax a0 b0) (Rmin a1 b1)); [lra|]. cbn in H. congruence.
  Qed.
End Facts.
