(** Properties C12, C13 and C57: trajectory objects in memory. *)
From Verif Require Import Base BaseFacts NumpyModel TrajModel TrajSpec TrajFacts TrajFacts3 TrajProps
  GeomModel GeomSpec HeapModel HeapSpec HeapFacts.

(** Every method with [inplace] is a body of reads, assignments and exceptions ([prog]); the theorems
    below hold for every such body.  These are the bodies of the modelled methods: on a single
    object each of them computes what the value model of TrajModel.v / GeomModel.v says. *)
Theorem C12_methods :
  forall (Q : Type) (ops : rot_ops Q) (argsort : list R -> list nat),
    (forall ix, implements (apply_index_body (Q := Q) ix) (fun t => apply_index t ix)) /\
    (forall a b inv, implements (crop_body (Q := Q) a b inv) (fun t => crop t a b inv)) /\
    (forall ts, implements (match_timestamps_body (Q := Q) ts) (fun t => match_timestamps t ts)) /\
    (forall ts gap, implements (intersect_body (Q := Q) ts gap) (fun t => intersect t ts gap)) /\
    (forall seg req, implements (interpolate_body (Q := Q) seg req) (fun t => interpolate seg t req)) /\
    (forall T, implements (apply_transformation_body ops T) (fun t => Ok (apply_transformation ops T t))) /\
    (forall p s, implements (apply_alignment_body ops p s) (fun t => apply_alignment ops p s false t)) /\
    (forall other, implements (adopt_first_position_body (Q := Q)) (fun t => adopt_first_position t other)) /\
    (forall cubic win, implements (approximate_body (Q := Q) argsort cubic win) (fun t => approximate argsort cubic win t)).
Proof.
  intros Q ops argsort. exact (conj apply_index_implements (conj crop_implements (conj match_timestamps_implements
    (conj intersect_implements (conj interpolate_implements (conj (apply_transformation_implements ops)
    (conj (apply_alignment_implements ops) (conj adopt_first_position_implements (approximate_implements argsort))))))))).
Qed.
Print Assumptions C12_methods.

(** * C12 *)
(** inplace=False: whatever existed before is observably unchanged, even if the call raises and even
    if PointSets are shared. *)
Theorem C12_inplace_false_unchanged :
  forall (Q : Type) (body : prog Q) (self : addr) (h : heap Q) (b : addr) (u : traj Q),
    well_formed h -> view h b = Some u -> view (fst (call body self false h)) b = Some u.
Proof. intros Q. exact call_false_frame. Qed.
Print Assumptions C12_inplace_false_unchanged.

(** ... and the result is a new object holding what the method computes. *)
Theorem C12_inplace_false_result :
  forall (Q : Type) (body : prog Q) (self : addr) (h : heap Q) (t : traj Q),
    view h self = Some t ->
    match snd (effect body t) with
    | Ok tt => exists n, snd (call body self false h) = Ok n /\ view h n = None /\
                 view (fst (call body self false h)) n = Some (fst (effect body t))
    | Err e => snd (call body self false h) = Err e
    end.
Proof. intros Q. exact call_false_result. Qed.
Print Assumptions C12_inplace_false_result.

(** inplace=True: the receiver is returned, it holds what the method computes, and trajectories with
    another PointSet are unchanged. *)
Theorem C12_inplace_true :
  forall (Q : Type) (body : prog Q) (self : addr) (h : heap Q) (t : traj Q),
    view h self = Some t ->
    snd (call body self true h) = rmap (fun _ => self) (snd (effect body t)) /\
    view (fst (call body self true h)) self = Some (fst (effect body t)) /\
    (forall b, b <> self -> ~ shares_points h self b -> view (fst (call body self true h)) b = view h b).
Proof. intros Q. exact call_true_result. Qed.
Print Assumptions C12_inplace_true.

(** copy(): equal content, a new object that shares nothing. *)
Theorem C12_copy :
  forall (Q : Type) (h : heap Q) (a : addr) (t : traj Q),
    well_formed h -> view h a = Some t ->
    exists h' n, copy a h = (h', Ok n) /\ view h n = None /\ view h' n = Some t /\
      (forall b u, view h b = Some u -> view h' b = Some u) /\
      (forall b, b <> n -> ~ shares_points h' n b).
Proof.
  intros Q h a t W H. destruct (copy_view h a t H) as (h' & n & E & N & V & F). exists h', n.
  refine (conj E (conj (view_fresh h n N) (conj V (conj _ (F W))))).
  intros b u Hb. pose proof (copy_keeps h a b u Hb) as K. rewrite E in K. exact K.
Qed.
Print Assumptions C12_copy.

(** Any later history of copies, inplace=False calls and in-place calls on other objects (of any
    methods, with any exceptions) leaves an object unchanged, if no PointSet is shared. *)
Theorem C12_history :
  forall (Q : Type) (l : list (action (Q := Q))) (h : heap Q) (b : addr) (u : traj Q),
    well_formed h -> separated h -> view h b = Some u -> Forall (fun x => ~ targets b x) l ->
    view (session h l) b = Some u /\ separated (session h l) /\ well_formed (session h l).
Proof. intros Q. exact session_frame. Qed.
Print Assumptions C12_history.

(** A heap with one trajectory (the one of TrajProps.v) on its own PointSet. *)
Definition demo_heap : heap nat :=
  mkHeap [mkTobj (tstamps demo) 0%nat (rot demo) (arc demo) (speed demo) (srt demo) (name demo)] [mkPobj (xyz demo) 0].

Example C12_heap_case : well_formed demo_heap /\ separated demo_heap /\ view demo_heap 0%nat = Some demo.
Proof.
  split; [|split; [|reflexivity]].
  - intros [|[|a]] o; try discriminate. intros [= <-]. cbn. lia.
  - intros [|[|a]] [|[|b]] (oa & ob & H1 & H2 & _); try discriminate. reflexivity.
Qed.
Print Assumptions C12_heap_case.

(** Cropping a copy: the copy shrinks, the original keeps three poses. *)
Example C12_case :
  exists h' n t', call (crop_body 1 5 false) 0%nat false demo_heap = (h', Ok n) /\ n <> 0%nat /\
    view h' n = Some t' /\ tstamps t' = [1; 3] /\ view h' 0%nat = Some demo.
Proof.
  unfold call, copy, demo_heap. cbn. rb. cbn. do 3 eexists. repeat split. discriminate.
Qed.
Print Assumptions C12_case.

(** A history: copy the object, crop the copy in place, crop the original with inplace=False. *)
Example C12_history_case :
  let l := [ACopy 0%nat; ACall (crop_body 1 5 false) 1%nat true; ACall (crop_body 7 9 false) 0%nat false] in
  Forall (fun x => ~ targets 0%nat x) l /\ view (session demo_heap l) 0%nat = Some demo /\
  option_map (fun t => tstamps t) (view (session demo_heap l) 1%nat) = Some [1; 3].
Proof.
  cbv zeta. split; [repeat (apply Forall_cons; [cbn; first [discriminate | intros []]|]); apply Forall_nil|].
  unfold session. cbn. rb. cbn. unfold call, copy. cbn. rb. cbn. split; reflexivity.
Qed.
Print Assumptions C12_history_case.

(** * C13 *)
(** Without a shared PointSet trajectories do not interfere, and no method or copy introduces sharing. *)
Theorem C13_no_interference_partial :
  forall (Q : Type) (body : prog Q) (self b : addr) (inplace : bool) (h : heap Q) (u : traj Q),
    well_formed h -> separated h -> view h b = Some u -> b <> self ->
    view (fst (call body self inplace h)) b = Some u /\ separated (fst (call body self inplace h)).
Proof.
  intros Q body self b i h u W S H N. split; [|exact (call_separated body self i h W S)].
  destruct (session_frame [ACall body self i] h b u W S H) as [V _]; [|exact V].
  constructor; [|constructor]. destruct i; cbn; [congruence | auto].
Qed.
Print Assumptions C13_no_interference_partial.

(** Two trajectories built from one PointSet: cropping the second one in place leaves the first with
    fewer positions than timestamps. *)
Theorem C13_shared_pointset_refuted :
  exists (h0 h1 h2 h3 : heap nat) (a b : addr) (t t' : traj nat),
    construct (fun l => l) 0%nat None (Some [0; 1; 3]) "a" None None SortTime h0 = (h1, Ok a) /\
    construct (fun l => l) 0%nat None (Some [0; 1; 3]) "b" None None SortTime h1 = (h2, Ok b) /\
    a <> b /\ view h2 a = Some t /\ consistent t /\
    call (crop_body 1 5 false) b true h2 = (h3, Ok b) /\
    view h3 a = Some t' /\ t' <> t /\ ~ consistent t'.
Proof.
  exists (mkHeap [] [mkPobj (xyz demo) 0]). unfold construct. cbn. rb. cbn.
  do 7 eexists. split; [reflexivity|]. cbn. rb. cbn. split; [reflexivity|]. cbn.
  split; [discriminate|]. split; [reflexivity|]. split; [repeat split|].
  unfold call. cbn. rb. cbn. split; [reflexivity|]. split; [reflexivity|].
  split; [discriminate|]. intros [H _]. discriminate H.
Qed.
Print Assumptions C13_shared_pointset_refuted.

(** * C57 *)
(** An in-place crop or match_timestamps of a consistent trajectory never raises; a raising in-place
    apply_index or intersect leaves the receiver as it was. *)
Theorem C57_failing_call_partial :
  forall (Q : Type) (h : heap Q) (self : addr) (t : traj Q),
    view h self = Some t -> consistent t ->
    (forall a b inv, snd (call (crop_body a b inv) self true h) = Ok self) /\
    (forall ts, snd (call (match_timestamps_body ts) self true h) = Ok self) /\
    (forall ix e, snd (call (apply_index_body ix) self true h) = Err e ->
       e = IndexError /\ view (fst (call (apply_index_body ix) self true h)) self = Some t) /\
    (forall ts gap e, snd (call (intersect_body ts gap) self true h) = Err e ->
       view (fst (call (intersect_body ts gap) self true h)) self = Some t).
Proof.
  intros Q h self t H Hc.
  assert (K : forall p e, snd (call p self true h) = Err e -> exists t', effect p t = (t', Err e)).
  { intros p e E. destruct (call_true_result p self h t H) as [R _]. rewrite E in R.
    destruct (effect p t) as [t' [[]|e']]; cbn in R; [discriminate|]. injection R as <-. eauto. }
  split; [|split; [|split]].
  - intros a b inv. destruct (call_true_result (crop_body a b inv) self h t H) as [-> _].
    rewrite (crop_never_fails a b inv t Hc). reflexivity.
  - intros ts. destruct (call_true_result (match_timestamps_body ts) self h t H) as [-> _].
    rewrite (match_timestamps_never_fails ts t Hc). reflexivity.
  - intros ix e E. destruct (K _ e E) as [t' E']. destruct (index_fail_atomic ix t t' e Hc E') as [-> ->].
    split; [reflexivity|]. destruct (call_true_result (apply_index_body ix) self h t H) as [_ [V _]].
    rewrite V, E'. reflexivity.
  - intros ts gap e E. destruct (K _ e E) as [t' E'].
    destruct (call_true_result (intersect_body ts gap) self h t H) as [_ [V _]]. rewrite V, E'. cbn.
    rewrite (intersect_fail_atomic ts gap t t' e Hc E'). reflexivity.
Qed.
Print Assumptions C57_failing_call_partial.

Example C57_case :
  view demo_heap 0%nat = Some demo /\ consistent demo /\
  snd (call (apply_index_body (IInt [0; 3]%Z)) 0%nat true demo_heap) = Err IndexError /\
  snd (call (intersect_body [7; 9] 1) 0%nat true demo_heap) = Err ValueError.
Proof.
  split; [reflexivity|]. split; [apply demo_consistent|]. split; [reflexivity|].
  pose proof (intersect_implements (Q := nat) [7; 9] 1 demo) as I. cbv beta in I.
  rewrite (intersect_no_overlap demo [7; 9] 1 7 9 0 3) in I.
  - destruct (call_true_result (intersect_body [7; 9] 1) 0%nat demo_heap demo eq_refl) as [-> _].
    rewrite I. reflexivity.
  - split; cbn; intuition lra.
  - split; cbn; intuition lra.
  - split; cbn; intuition lra.
  - split; cbn; intuition lra.
  - unfold Rmin, Rmax. repeat destruct Rle_dec; lra.
Qed.
Print Assumptions C57_case.

(** interpolate is not atomic: with repeated timestamps the rotation interpolation raises after the
    positions were replaced. *)
Theorem C57_failing_interpolate_refuted :
  exists (h h' : heap nat) (self : addr) (t t' : traj nat) (e : err),
    view h self = Some t /\ consistent t /\ time_sorted t /\
    call (interpolate_body demo_seg [0; 1/2; 1]) self true h = (h', Err e) /\
    view h' self = Some t' /\ t' <> t /\ ~ consistent t'.
Proof.
  exists (mkHeap [mkTobj [0; 1; 1; 2] 0%nat (Some [10; 11; 12; 13]%nat) [0; 1; 2; 3] [vzero; vzero; vzero; vzero] SortTime "x"]
            [mkPobj [mkV3 0 0 0; mkV3 1 0 0; mkV3 2 0 0; mkV3 3 0 0] 0]).
  eexists. exists 0%nat. do 3 eexists. split; [reflexivity|]. split; [repeat split|].
  split; [unfold time_sorted; cbn; repeat constructor; lra|].
  unfold call, interpolate_body. cbn [run]. cbn. unfold crop_request. cbn. rb. cbn. rb. cbn.
  unfold slerp. cbn. rb. cbn. split; [reflexivity|]. split; [reflexivity|]. split; [discriminate|].
  intros [H _]. discriminate H.
Qed.
Print Assumptions C57_failing_interpolate_refuted.
