(** Proofs about ROS bags. *)
From Verif Require Import Base BaseFacts NumpyModel NumpyFacts TrajModel TrajSpec TrajFacts2 TrajFacts3 GeomModel IoModel IoSpec RosModel RosSpec.
Local Open Scope string_scope.

Lemma upd_twice {A} (fresh : A) f g d k : upd_item fresh g (upd_item fresh f d k) k = upd_item fresh (fun a => g (f a)) d k.
Proof.
  induction d as [|[k' a] d IH]; simpl; [now rewrite String.eqb_refl|].
  destruct (String.eqb k' k) eqn:E; simpl; rewrite E; [reflexivity|]. now rewrite IH.
Qed.

Lemma upd_ext {A} (fresh : A) f g d k : (forall a, f a = g a) -> upd_item fresh f d k = upd_item fresh g d k.
Proof. intro H. induction d as [|[k' a] d IH]; simpl; [now rewrite H|]. destruct (String.eqb k' k); congruence. Qed.

Definition add_columns (l : list (string * R)) (d : dict (list R)) : dict (list R) :=
  fold_left (fun d kv => upd_item [] (fun c => (c ++ [snd kv])%list) d (fst kv)) l d.

Lemma add_all k l : forall data, l <> [] ->
  fold_left (fun d kv => add_to_dict d k (fst kv) (snd kv)) l data = upd_item [] (add_columns l) data k.
Proof.
  induction l as [|kv l IH]; intros data N; [congruence|]. cbn [fold_left]. destruct l as [|kv' l'].
  - reflexivity.
  - rewrite IH by discriminate. unfold add_to_dict at 1. rewrite upd_twice. reflexivity.
Qed.

(** The dictionary of a topic with the messages [ms] *)
Definition entry (ms : list pose_msg) : dict (list R) :=
  [("tstamps", map (fun m => IZR (m_sec m) + IZR (m_nanosec m) * (1 / 10 ^ 9)) ms);
   ("x", map (fun m => vx (m_position m)) ms); ("y", map (fun m => vy (m_position m)) ms); ("z", map (fun m => vz (m_position m)) ms);
   ("qx", map (fun m => q_x (m_orientation m)) ms); ("qy", map (fun m => q_y (m_orientation m)) ms);
   ("qz", map (fun m => q_z (m_orientation m)) ms); ("qw", map (fun m => q_w (m_orientation m)) ms)].

Lemma add_entry m ms : add_columns (geometry_pose_stamped_handler m) (entry ms) = entry (ms ++ [m]).
Proof. unfold entry. rewrite !map_app. reflexivity. Qed.
Lemma add_fresh m : add_columns (geometry_pose_stamped_handler m) [] = entry [m].
Proof. reflexivity. Qed.

Lemma upd_map_in {B} (fresh : B) (f : B -> B) (e e' : string -> B) (l : list string) k : NoDup l -> In k l ->
  e' k = f (e k) -> (forall x, x <> k -> e' x = e x) ->
  upd_item fresh f (map (fun x => (x, e x)) l) k = map (fun x => (x, e' x)) l.
Proof.
  intros N I K O. induction l as [|a l IH]; [destruct I|]. inversion N as [|? ? NA N']; subst. cbn.
  destruct (String.eqb_spec a k) as [->|E].
  - f_equal; [congruence|]. apply map_ext_in. intros x X. rewrite O; [reflexivity|]. intros ->. exact (NA X).
  - rewrite O by exact E. f_equal. apply IH; auto. destruct I; [contradiction|auto].
Qed.

Lemma upd_map_new {B} (fresh : B) (f : B -> B) (e e' : string -> B) (l : list string) k : ~ In k l ->
  e' k = f fresh -> (forall x, x <> k -> e' x = e x) ->
  upd_item fresh f (map (fun x => (x, e x)) l) k = map (fun x => (x, e' x)) (l ++ [k])%list.
Proof.
  intros N K O. induction l as [|a l IH]; cbn; [congruence|].
  destruct (String.eqb_spec a k) as [->|E]; [exfalso; apply N; left; reflexivity|].
  rewrite O by exact E. f_equal. apply IH. intro I. apply N. right. exact I.
Qed.

(** [distinct] *)
Lemma distinct_in l k : In k (distinct l) <-> In k l.
Proof.
  induction l as [|a l IH]; simpl; [tauto|]. rewrite filter_In, IH. destruct (String.eqb_spec k a) as [->|E]; simpl; intuition congruence.
Qed.
Lemma distinct_nodup l : NoDup (distinct l).
Proof.
  induction l as [|a l IH]; simpl; constructor.
  - rewrite filter_In, String.eqb_refl. simpl. intuition discriminate.
  - now apply NoDup_filter.
Qed.
Lemma distinct_app l k : distinct (l ++ [k])%list = if existsb (String.eqb k) l then distinct l else (distinct l ++ [k])%list.
Proof.
  induction l as [|a l IH]; simpl; [reflexivity|]. rewrite IH.
  destruct (String.eqb_spec k a) as [->|E]; cbn [orb].
  - destruct (existsb (String.eqb a) l); [reflexivity|]. rewrite filter_app. cbn. rewrite String.eqb_refl. cbn. now rewrite app_nil_r.
  - destruct (existsb (String.eqb k) l); [reflexivity|]. rewrite filter_app. cbn. rewrite (proj2 (String.eqb_neq _ _) E). reflexivity.
Qed.

Lemma read_shape bag : read_ros_bag bag = map (fun k => (k, entry (on_topic k bag))) (distinct (map fst (pose_messages bag))).
Proof.
  unfold read_ros_bag. induction bag as [|m bag IH] using rev_ind; [reflexivity|].
  rewrite fold_left_app. cbn [fold_left]. rewrite IH. clear IH. unfold read_step.
  assert (PM : pose_messages (bag ++ [m]) = (pose_messages bag ++ match content m with PoseStamped p => [(topic m, p)] | OtherMsg _ => [] end)%list).
  { unfold pose_messages. rewrite flat_map_app. cbn. now rewrite app_nil_r. }
  destruct (content m) as [p|ty] eqn:C.
  - rewrite add_all by discriminate.
    assert (ON : forall k, on_topic k (bag ++ [m]) = if String.eqb (topic m) k then (on_topic k bag ++ [p])%list else on_topic k bag).
    { intro k. unfold on_topic. rewrite PM, filter_app, map_app. cbn. destruct (String.eqb (topic m) k); cbn; [reflexivity|now rewrite app_nil_r]. }
    rewrite PM, map_app. cbn [map fst]. rewrite distinct_app.
    destruct (existsb (String.eqb (topic m)) (map fst (pose_messages bag))) eqn:X.
    + apply existsb_exists in X as [y [Y E]]. apply String.eqb_eq in E. subst y.
      apply upd_map_in with (e := fun k => entry (on_topic k bag)) (e' := fun k => entry (on_topic k (bag ++ [m])));
        [apply distinct_nodup|now apply distinct_in| |].
      * rewrite ON, String.eqb_refl. symmetry. apply add_entry.
      * intros x Nx. rewrite ON, (proj2 (String.eqb_neq _ _)) by congruence. reflexivity.
    + assert (NI : ~ In (topic m) (map fst (pose_messages bag))).
      { intro I. assert (existsb (String.eqb (topic m)) (map fst (pose_messages bag)) = true); [|congruence].
        apply existsb_exists. exists (topic m). split; auto. apply String.eqb_refl. }
      apply upd_map_new with (e := fun k => entry (on_topic k bag)) (e' := fun k => entry (on_topic k (bag ++ [m])));
        [now rewrite distinct_in| |].
      * rewrite ON, String.eqb_refl. assert (on_topic (topic m) bag = []) as ->; [|reflexivity].
        unfold on_topic. assert (forall l, ~ In (topic m) (map fst l) -> filter (fun kp : string * pose_msg => String.eqb (fst kp) (topic m)) l = []) as F.
        { induction l as [|[k q] l IH]; cbn; intro H; auto. destruct (String.eqb_spec k (topic m)); [tauto|]. apply IH. tauto. }
        rewrite F by exact NI. reflexivity.
      * intros x Nx. rewrite ON, (proj2 (String.eqb_neq _ _)) by congruence. reflexivity.
  - rewrite app_nil_r in PM.
    assert (ON : forall k, on_topic k (bag ++ [m]) = on_topic k bag) by (intro k; unfold on_topic; now rewrite PM).
    rewrite PM. apply map_ext. intro k. now rewrite ON.
Qed.

Lemma c3_map {A} (f g h : A -> R) l : np_c3 (map f l) (map g l) (map h l) = Ok (map (fun a => mkV3 (f a) (g a) (h a)) l).
Proof. induction l as [|a l IH]; cbn; [reflexivity|]. rewrite IH. reflexivity. Qed.
Lemma c4_map {A} (f g h e : A -> R) l : np_c4 (map f l) (map g l) (map h l) (map e l) = Ok (map (fun a => mkV4 (f a) (g a) (h a) (e a)) l).
Proof. induction l as [|a l IH]; cbn; [reflexivity|]. rewrite IH. reflexivity. Qed.

Section Bag.
  Context {Q : Type} (ops : rot_ops Q) (qops : quat_ops Q) (QC : quat_contract ops qops) (loc : list V3 -> list V3)
    (LOC : forall l, length (loc l) = length l).

  Definition quat_of (v : V4) : result Q := match from_quat qops v with Some q => Ok q | None => Err ValueError end.

  Lemma quats_ok ms : Forall (fun p => qnorm (m_orientation p) <> 0) ms ->
    exists qs, mapM quat_of (map m_orientation ms) = Ok qs /\ length qs = length ms /\
      map (as_quat qops) qs = map (fun p => qscale (/ qnorm (m_orientation p)) (m_orientation p)) ms.
  Proof.
    intro F. induction F as [|p ms P F [qs [E [L M]]]]; [exists []; auto|].
    destruct (qc_from _ _ QC _ P) as [q [Q1 Q2]]. exists (q :: qs). cbn [map mapM]. unfold quat_of at 1. rewrite Q1. cbn [bind].
    rewrite E. cbn [bind]. split; [reflexivity|]. cbn. rewrite Q2, M, L. auto.
  Qed.

  Lemma quats_zero ms : Exists (fun p => qnorm (m_orientation p) = 0) ms -> mapM quat_of (map m_orientation ms) = Err ValueError.
  Proof.
    intro F. induction F as [p ms P|p ms F IH]; cbn [map mapM].
    - unfold quat_of at 1. rewrite (qc_zero _ _ QC _ P). reflexivity.
    - unfold quat_of at 1. destruct (from_quat qops (m_orientation p)); cbn [bind]; [|reflexivity]. rewrite IH. reflexivity.
  Qed.

  Lemma topic_reduce k ms : topic_trajectory qops loc k (entry ms) =
    (let! r := rmap Some (mapM quat_of (map m_orientation ms)) in
     new_traj loc (map m_position ms) 0 r (Some (map (fun m => IZR (m_sec m) + IZR (m_nanosec m) * (1 / 10 ^ 9)) ms)) k None None SortTime).
  Proof.
    unfold topic_trajectory, item, entry. cbn [get_item String.eqb Ascii.eqb Bool.eqb bind]. rewrite c3_map. cbn [bind].
    cbn [existsb has_key get_item String.eqb Ascii.eqb Bool.eqb negb orb]. cbn [bind]. rewrite c4_map. cbn [bind].
    rewrite (map_ext (fun a => mkV4 (q_x (m_orientation a)) (q_y (m_orientation a)) (q_z (m_orientation a)) (q_w (m_orientation a))) m_orientation)
      by (intro a; destruct (m_orientation a); reflexivity).
    rewrite (map_ext (fun a => mkV3 (vx (m_position a)) (vy (m_position a)) (vz (m_position a))) m_position)
      by (intro a; destruct (m_position a); reflexivity).
    reflexivity.
  Qed.

  Lemma topic_ok k ms : ms <> [] -> Forall (fun p => qnorm (m_orientation p) <> 0) ms ->
    exists t, topic_trajectory qops loc k (entry ms) = Ok t /\ name t = k /\ consistent t /\ follows qops t ms.
  Proof.
    intros N F. rewrite topic_reduce. destruct (quats_ok ms F) as [qs [E [L M]]]. rewrite E. cbn [rmap bind].
    edestruct (new_traj_ok loc (map m_position ms) 0 (Some qs)
      (Some (map (fun m => IZR (m_sec m) + IZR (m_nanosec m) * (1 / 10 ^ 9)) ms)) k None None SortTime LOC)
      as (t & g & T & C & X & Ro & TS & _ & _ & _ & _ & NM & _).
    - destruct ms; [congruence|discriminate].
    - now rewrite map_length.
    - now rewrite !map_length.
    - exists t. split; [exact T|]. split; [exact NM|]. split; [exact C|]. split; [|split; [exact X|exists qs; auto]].
      rewrite TS. apply map_ext. intro p. unfold stamp. lra.
  Qed.

  Lemma topic_zero k ms : Exists (fun p => qnorm (m_orientation p) = 0) ms -> topic_trajectory qops loc k (entry ms) = Err ValueError.
  Proof. intro F. rewrite topic_reduce, quats_zero by exact F. reflexivity. Qed.

  Lemma on_topic_in k p bag : In p (on_topic k bag) <-> In (k, p) (pose_messages bag).
  Proof.
    unfold on_topic. rewrite in_map_iff. split.
    - intros [[k' p'] [<- I]]. apply filter_In in I as [I E]. cbn in *. apply String.eqb_eq in E. now subst.
    - intro I. exists (k, p). split; [reflexivity|]. apply filter_In. split; [exact I|]. apply String.eqb_refl.
  Qed.

  Lemma on_topic_ne k bag : In k (distinct (map fst (pose_messages bag))) -> on_topic k bag <> [].
  Proof.
    intro I. apply (proj1 (distinct_in _ _)) in I. apply in_map_iff in I as [[k' p] [<- I]]. cbn [fst]. apply on_topic_in in I. intro E. rewrite E in I. exact I.
  Qed.

  Lemma bag_ok bag : (forall k p, In (k, p) (pose_messages bag) -> qnorm (m_orientation p) <> 0) ->
    exists ts, trajectories_from_rosbag qops loc bag = Ok ts /\ map name ts = distinct (map fst (pose_messages bag)) /\
      forall t, In t ts -> consistent t /\ follows qops t (on_topic (name t) bag).
  Proof.
    intro H. unfold trajectories_from_rosbag. rewrite read_shape.
    assert (G : forall l, (forall k, In k l -> on_topic k bag <> []) ->
      exists ts, mapM (fun kd => topic_trajectory qops loc (fst kd) (snd kd)) (map (fun k => (k, entry (on_topic k bag))) l) = Ok ts /\
        map name ts = l /\ forall t, In t ts -> consistent t /\ follows qops t (on_topic (name t) bag)).
    { induction l as [|k l IH]; intro N; [exists []; split; [reflexivity|]; split; [reflexivity|intros t []]|].
      destruct IH as [ts [E [NM P]]]; [intros; apply N; right; auto|].
      destruct (topic_ok k (on_topic k bag)) as [t [T [TN [TC TF]]]].
      - apply N. left. reflexivity.
      - apply Forall_forall. intros p I. apply (H k). now apply on_topic_in.
      - exists (t :: ts). cbn [map mapM fst snd]. rewrite T. cbn [bind]. rewrite E. cbn [bind]. split; [reflexivity|].
        cbn. rewrite TN, NM. split; [reflexivity|]. intros u [<-|I]; [rewrite TN; auto|auto]. }
    apply G. intros k I. now apply on_topic_ne.
  Qed.

  Lemma bag_zero bag k p : In (k, p) (pose_messages bag) -> qnorm (m_orientation p) = 0 ->
    trajectories_from_rosbag qops loc bag = Err ValueError.
  Proof.
    intros I Z. unfold trajectories_from_rosbag. rewrite read_shape.
    assert (K : In k (distinct (map fst (pose_messages bag)))) by (apply distinct_in; apply (in_map fst) in I; exact I).
    assert (NE : forall k, In k (distinct (map fst (pose_messages bag))) -> on_topic k bag <> []) by (intros; now apply on_topic_ne).
    induction (distinct (map fst (pose_messages bag))) as [|a l IH]; [destruct K|]. cbn [map mapM fst snd].
    destruct (Exists_dec (fun p => qnorm (m_orientation p) = 0) (on_topic a bag)) as [X|X].
    { intro x. destruct (Req_EM_T (qnorm (m_orientation x)) 0); auto. }
    - rewrite topic_zero by exact X. reflexivity.
    - destruct (topic_ok a (on_topic a bag)) as [t [T _]].
      + apply NE. left. reflexivity.
      + apply Forall_forall. intros q Iq E. apply X. apply Exists_exists. eauto.
      + rewrite T. cbn [bind]. destruct K as [->|K].
        * exfalso. apply X. apply Exists_exists. exists p. split; [now apply on_topic_in|exact Z].
        * rewrite IH; auto. intros; apply NE; right; auto.
  Qed.
End Bag.
