(** Proofs about the summary of RPE results. *)
From Verif Require Import Base BaseFacts EstModel TextModel TextFacts HeaderModel NumpyModel ParamModel GeomModel IoModel EvalModel RpeModel RpeSpec EqModel EqSpec.
Local Open Scope string_scope.

Lemma append_inj_l a b c : a ++ b = a ++ c -> b = c.
Proof. induction a as [|x a IH]; simpl; intro H; auto. injection H as H. auto. Qed.

Lemma append_len a b : String.length (a ++ b) = (String.length a + String.length b)%nat.
Proof. induction a; simpl; auto. Qed.

Lemma append_inj_r a b c : a ++ c = b ++ c -> a = b.
Proof.
  revert b. induction a as [|x a IH]; intros [|y b] H; auto.
  - exfalso. apply (f_equal String.length) in H. simpl in H. rewrite append_len in H. lia.
  - exfalso. apply (f_equal String.length) in H. simpl in H. rewrite append_len in H. lia.
  - simpl in H. injection H as -> H. f_equal. auto.
Qed.

Lemma NoDup_app_intro {A} (l m : list A) : NoDup l -> NoDup m -> (forall x, In x l -> In x m -> False) -> NoDup (l ++ m).
Proof.
  induction l as [|a l IH]; simpl; intros L M D; auto. inversion L as [|? ? N L']; subst. constructor.
  - intro I. apply in_app_or in I as [I|I]; [auto|]. eapply D; [left; reflexivity|exact I].
  - apply IH; auto. intros x X Y. eapply D; [right; exact X|exact Y].
Qed.

(** * Dictionaries *)
Lemma dict_set_fresh d k v : ~ In k (map fst d) -> dict_set d k v = (d ++ [(k, v)])%list.
Proof.
  induction d as [|[k' v'] d IH]; simpl; intro H; auto. destruct (String.eqb_spec k' k) as [E|E]; [tauto|]. f_equal. apply IH. tauto.
Qed.

Lemma dict_update_fresh l : forall d, NoDup (map fst d ++ map fst l) -> dict_update d l = (d ++ l)%list.
Proof.
  induction l as [|[k v] l IH]; intros d H; simpl; [now rewrite app_nil_r|].
  unfold dict_update in *. simpl. rewrite dict_set_fresh.
  - rewrite IH; [now rewrite <- app_assoc|]. rewrite map_app. simpl. rewrite <- app_assoc. exact H.
  - simpl in H. apply NoDup_remove_2 in H. intro I. apply H, in_or_app. auto.
Qed.

Lemma dict_set_keys d k v x : In x (map fst (dict_set d k v)) -> x = k \/ In x (map fst d).
Proof.
  induction d as [|[k' v'] d IH]; simpl; [intuition|]. destruct (String.eqb_spec k' k) as [->|E]; simpl; intuition.
Qed.

Lemma dict_update_keys l : forall d x, In x (map fst (dict_update d l)) -> In x (map fst l) \/ In x (map fst d).
Proof.
  induction l as [|[k v] l IH]; intros d x H; simpl in *; auto. apply IH in H as [H|H]; auto.
  apply dict_set_keys in H as [->|H]; auto.
Qed.

(** Updates with keys that do not occur leave the earlier entries in their places *)
Lemma dict_set_app d e k v : ~ In k (map fst d) -> dict_set (d ++ e)%list k v = (d ++ dict_set e k v)%list.
Proof.
  induction d as [|[k' v'] d IH]; simpl; intro H; auto. destruct (String.eqb_spec k' k) as [E|E]; [tauto|]. f_equal. apply IH. tauto.
Qed.
Lemma dict_update_app l : forall d e, (forall k, In k (map fst l) -> ~ In k (map fst d)) -> dict_update (d ++ e)%list l = (d ++ dict_update e l)%list.
Proof.
  induction l as [|[k v] l IH]; intros d e H; [reflexivity|]. unfold dict_update in *. cbn [fold_left fst snd].
  rewrite dict_set_app by (apply H; left; reflexivity). apply IH. intros x X. apply H. right. exact X.
Qed.

(** The first characters tell the lines apart *)
Definition kind (s : string) : string := substring 0 17 s.

Section Lines.
  Context (show : R -> string) (str_nat : nat -> string).

  Lemma filled_mean l : l <> [] -> mean1 l = average l.
  Proof. destruct l; [congruence|]. reflexivity. Qed.

  Lemma filled_true {A} (l : list A) : filled l = true <-> l <> [].
  Proof. destruct l; simpl; split; intro; congruence. Qed.

  Lemma filter_map_comm {A B} (f : A -> B) p (l : list A) : filter p (map f l) = map f (filter (fun x => p (f x)) l).
  Proof. induction l as [|a l IH]; simpl; auto. destruct (p (f a)); simpl; rewrite IH; reflexivity. Qed.

  Lemma compute_metric_map key func c r : compute_metric key func c r = map (fun b => func (key b) * c) (filter (fun b => filled (key b)) (blocks r)).
  Proof. unfold compute_metric. rewrite filter_map_comm, map_map. reflexivity. Qed.

  Lemma filled_length {A B} (l : list A) (m : list B) : length l = length m -> filled l = filled m.
  Proof. destruct l, m; simpl; auto; discriminate. Qed.

  Lemma filter_same {A} (p q : A -> bool) l : (forall x, In x l -> p x = q x) -> filter p l = filter q l.
  Proof.
    induction l as [|a l IH]; simpl; intro H; auto. rewrite (H a) by auto. rewrite IH by auto. reflexivity.
  Qed.

  Lemma combine_map2 {A B C} (f : A -> B) (g : A -> C) l : combine (map f l) (map g l) = map (fun x => (f x, g x)) l.
  Proof. induction l; simpl; congruence. Qed.

  Lemma pos_blocks r : matching r -> filter (fun b => filled (b_pos b)) (blocks r) = used_blocks r.
  Proof. intros [M _]. apply filter_same. intros b I. apply filled_length. rewrite Forall_forall in M. auto. Qed.

  Lemma used_in r b : In b (used_blocks r) <-> In b (blocks r) /\ b_dist b <> [].
  Proof. unfold used_blocks. rewrite filter_In, filled_true. tauto. Qed.

  Lemma dynamic_pos_lines r : matching r -> displayed_apart show r ->
    dynamic_pos_dict show r = map (drift_line show r) (used_blocks r).
  Proof.
    intros M D. unfold dynamic_pos_dict, mean_pair_distances, pos_dev_of. rewrite !compute_metric_map, (pos_blocks r M).
    change (filter (fun b => filled (b_dist b)) (blocks r)) with (used_blocks r). rewrite combine_map2, map_map.
    match goal with |- dict_update [] ?l = _ => assert (l = map (drift_line show r) (used_blocks r)) as -> end.
    { apply map_ext_in. intros b I. cbn [fst snd]. apply used_in in I as [I F].
      rewrite filled_mean by exact F. rewrite filled_mean.
      - rewrite Rmult_1_r. unfold drift_line, pair_distance_unit_str, pos_drift_unit, drift_factor. destruct (r_unit r); reflexivity.
      - destruct M as [M _]. rewrite Forall_forall in M. specialize (M b I). destruct (b_dist b); [congruence|].
        destruct (b_pos b); [discriminate M|discriminate]. }
    rewrite dict_update_fresh; [reflexivity|]. simpl. unfold displayed_apart in D.
    clear M. induction (used_blocks r) as [|b l IH]; simpl in *; [constructor|].
    inversion D as [|? ? N D']; subst. constructor; auto. intro I. apply N. apply in_map_iff in I as [x [E X]].
    apply in_map_iff in X as [y [<- Y]]. apply in_map_iff. exists y. split; [|exact Y].
    unfold drift_line in E. destruct (r_unit r); cbn [fst] in E; apply append_inj_l in E; apply append_inj_r in E; exact E.
  Qed.

  Lemma has_rot_blocks r : has_rot_dev r = true -> matching r -> (forall b, In b (blocks r) -> length (b_rot b) = length (b_dist b)).
  Proof.
    intros H [_ [M|M]]; rewrite Forall_forall in M; auto. exfalso. unfold has_rot_dev in H. apply existsb_exists in H as [b [I F]].
    rewrite (M b I) in F. discriminate F.
  Qed.

  Lemma dynamic_rot_lines r : matching r -> displayed_apart show r -> has_rot_dev r = true ->
    dynamic_rot_dict show r = map (rotation_line show r) (used_blocks r).
  Proof.
    intros M D H. pose proof (has_rot_blocks r H M) as L.
    unfold dynamic_rot_dict, mean_pair_distances, rot_dev_of. rewrite H. rewrite !compute_metric_map.
    rewrite (filter_same (fun b => filled (b_rot b)) (fun b => filled (b_dist b))) by (intros b I; apply filled_length, L, I).
    change (filter (fun b => filled (b_dist b)) (blocks r)) with (used_blocks r). rewrite combine_map2, map_map.
    match goal with |- dict_update [] ?l = _ => assert (l = map (rotation_line show r) (used_blocks r)) as -> end.
    { apply map_ext_in. intros b I. cbn [fst snd]. apply used_in in I as [I F].
      rewrite filled_mean by exact F. rewrite filled_mean.
      - rewrite Rmult_1_r. unfold rotation_line, pair_distance_unit_str, rot_drift_unit, drift_factor, rad2deg. destruct (r_unit r); reflexivity.
      - specialize (L b I). destruct (b_dist b); [congruence|]. destruct (b_rot b); [discriminate L|discriminate]. }
    rewrite dict_update_fresh; [reflexivity|]. simpl. unfold displayed_apart in D.
    clear M L. induction (used_blocks r) as [|b l IH]; simpl in *; [constructor|].
    inversion D as [|? ? N D']; subst. constructor; auto. intro I. apply N. apply in_map_iff in I as [x [E X]].
    apply in_map_iff in X as [y [<- Y]]. apply in_map_iff. exists y. split; [|exact Y].
    unfold rotation_line in E. destruct (r_unit r); cbn [fst] in E; apply append_inj_l in E; apply append_inj_r in E; exact E.
  Qed.

  (** The keys of the lines per distance, whatever they show *)
  Lemma dynamic_pos_kind r k : In k (map fst (dynamic_pos_dict show r)) -> kind k = "Average position ".
  Proof.
    unfold dynamic_pos_dict. intro H. apply dict_update_keys in H as [H|[]]. rewrite map_map in H. apply in_map_iff in H as [x [<- _]]. reflexivity.
  Qed.
  Lemma dynamic_rot_kind r k : In k (map fst (dynamic_rot_dict show r)) -> kind k = "Average rotation ".
  Proof.
    unfold dynamic_rot_dict. destruct (has_rot_dev r); [|intros []]. intro H. apply dict_update_keys in H as [H|[]].
    rewrite map_map in H. apply in_map_iff in H as [x [<- _]]. reflexivity.
  Qed.

  Lemma np_max_ok l : l <> [] -> exists x, np_max l = Ok x.
  Proof. destruct l; [congruence|]. simpl. eauto. Qed.
  Lemma np_min_ok l : l <> [] -> exists x, np_min l = Ok x.
  Proof. destruct l; [congruence|]. simpl. eauto. Qed.

  Lemma compared_filled r f : compared r <-> pos_dev_of f r <> [].
  Proof.
    unfold compared, pos_dev_of. rewrite compute_metric_map. split.
    - intros [b [I F]] E. apply map_eq_nil in E. assert (In b (filter (fun b => filled (b_pos b)) (blocks r))) as X.
      { apply filter_In. split; auto. now apply filled_true. }
      rewrite E in X. exact X.
    - intro H. destruct (filter (fun b => filled (b_pos b)) (blocks r)) as [|b l] eqn:E; [now contradict H|].
      assert (In b (filter (fun b => filled (b_pos b)) (blocks r))) as X by (rewrite E; left; reflexivity).
      apply filter_In in X as [X F]. exists b. split; auto. now apply filled_true.
  Qed.

  Lemma rot_filled r f : has_rot_dev r = true -> rot_dev_of f r <> [].
  Proof.
    intro H. unfold rot_dev_of. rewrite H. rewrite compute_metric_map. intro E. apply map_eq_nil in E.
    unfold has_rot_dev in H. apply existsb_exists in H as [b [I F]].
    assert (In b (filter (fun b => filled (b_rot b)) (blocks r))) as X by (apply filter_In; auto). rewrite E in X. exact X.
  Qed.

  (** The part of the summary about positions *)
  Definition basic_lines (r : rpe) : sdict := [("Name", r_name r); ("Type", "RPEResult"); ("Number of pose pairs", str_nat (rpe_len r))].

  Definition pos_keys : list string := ["Maximum Position Drift"; "Minimum Position Drift"; "Average Position Drift"; "Median Position Drift"].
  Definition rot_keys : list string := ["Maximum Rotation Drift"; "Minimum Rotation Drift"; "Average Rotation Drift"; "Median Rotation Drift"].

  Lemma property_shape r : compared r -> exists sp,
    map fst sp = pos_keys /\
    let pos := (basic_lines r ++ dynamic_pos_dict show r ++ sp)%list in
    (has_rot_dev r = false -> property_dict show str_nat r = Ok pos) /\
    (has_rot_dev r = true -> exists sr, map fst sr = rot_keys /\ property_dict show str_nat r = Ok (pos ++ dynamic_rot_dict show r ++ sr)%list) /\
    (property_dict show str_nat (without_rotations r) = Ok pos).
  Proof.
    intro C. destruct (np_max_ok (pos_dev_of max1 r)) as [pmax P1]; [now apply compared_filled|].
    destruct (np_min_ok (pos_dev_of min1 r)) as [pmin P2]; [now apply compared_filled|].
    set (sp := [("Maximum Position Drift", show pmax ++ " " ++ pos_drift_unit r);
       ("Minimum Position Drift", show pmin ++ " " ++ pos_drift_unit r);
       ("Average Position Drift", show_opt show (pos_rpe r) ++ " " ++ pos_drift_unit r);
       ("Median Position Drift", show_opt show (np_median (pos_dev_of median1 r)) ++ " " ++ pos_drift_unit r)]).
    exists sp. split; [reflexivity|].
    assert (POS : dict_update (dict_update (basic_lines r) (dynamic_pos_dict show r)) sp = (basic_lines r ++ dynamic_pos_dict show r ++ sp)%list).
    { replace (basic_lines r) with (basic_lines r ++ [])%list at 1 by apply app_nil_r.
      rewrite dict_update_app.
      2:{ intros k K. apply dynamic_pos_kind in K. intros [<-|[<-|[<-|[]]]]; discriminate K. }
      assert (NK : forall k, In k (map fst sp) -> kind k <> "Average position ") by (intros k [<-|[<-|[<-|[<-|[]]]]]; discriminate).
      rewrite dict_update_app.
      2:{ intros k K. destruct K as [<-|[<-|[<-|[<-|[]]]]]; intros [E|[E|[E|[]]]]; discriminate E. }
      f_equal.
      assert (DD : dict_update [] (dynamic_pos_dict show r) = dynamic_pos_dict show r).
      { unfold dynamic_pos_dict at 2. unfold dynamic_pos_dict. 
        match goal with |- dict_update [] (dict_update [] ?l) = _ => generalize l end. intro l.
        rewrite dict_update_fresh; [reflexivity|]. simpl.
        assert (G : forall l d, NoDup (map fst d) -> NoDup (map fst (dict_update d l))).
        { clear. induction l as [|[k v] l IH]; intros d H; simpl; auto. apply IH. clear IH l.
          induction d as [|[k' v'] d IH]; simpl in *; [repeat constructor; auto|]. inversion H as [|? ? N H']; subst.
          destruct (String.eqb_spec k' k) as [->|E]; simpl; constructor; auto. intro I. apply dict_set_keys in I as [I|I]; auto. }
        apply G. constructor. }
      rewrite DD. replace (dynamic_pos_dict show r) with (dynamic_pos_dict show r ++ [])%list at 1 by apply app_nil_r.
      rewrite dict_update_app.
      2:{ intros k K I. apply dynamic_pos_kind in I. exact (NK k K I). }
      f_equal. }
    split; [|split].
    - intro H. unfold property_dict. rewrite P1, P2. cbn [bind]. rewrite H. cbn [negb].
      change (dict_update (dict_update (basic_lines r) (dynamic_pos_dict show r)) sp = (basic_lines r ++ dynamic_pos_dict show r ++ sp)%list) in POS.
      f_equal. exact POS.
    - intro H. destruct (np_max_ok (rot_dev_of max1 r)) as [rmax P3]; [now apply rot_filled|].
      destruct (np_min_ok (rot_dev_of min1 r)) as [rmin P4]; [now apply rot_filled|].
      eexists [(_, _); (_, _); (_, _); (_, _)]. split; [|].
      2:{ unfold property_dict. rewrite P1, P2. cbn [bind]. rewrite H. cbn [negb]. rewrite P3, P4. cbn [bind]. f_equal.
          etransitivity; [refine (f_equal (fun z => dict_update (dict_update z _) _) POS)|].
          set (pos := (basic_lines r ++ dynamic_pos_dict show r ++ sp)%list).
          assert (KP : forall k, In k (map fst pos) -> kind k <> "Average rotation " /\ ~ In k rot_keys).
          { intros k K. unfold pos in K. rewrite !map_app in K. apply in_app_or in K as [K|K].
            - destruct K as [<-|[<-|[<-|[]]]]; (split; [discriminate|]); intros [E|[E|[E|[E|[]]]]]; discriminate E.
            - apply in_app_or in K as [K|K].
              + apply dynamic_pos_kind in K. split; [rewrite K; discriminate|]. intros [<-|[<-|[<-|[<-|[]]]]]; discriminate K.
              + destruct K as [<-|[<-|[<-|[<-|[]]]]]; (split; [discriminate|]); intros [E|[E|[E|[E|[]]]]]; discriminate E. }
          replace pos with (pos ++ [])%list at 1 by apply app_nil_r. rewrite dict_update_app.
          2:{ intros k K I. apply dynamic_rot_kind in K. apply KP in I as [I _]. exact (I K). }
          assert (DD : dict_update [] (dynamic_rot_dict show r) = dynamic_rot_dict show r).
          { unfold dynamic_rot_dict. rewrite H.
            match goal with |- dict_update [] (dict_update [] ?l) = _ => generalize l end. intro l.
            rewrite dict_update_fresh; [reflexivity|]. simpl.
            assert (G : forall l d, NoDup (map fst d) -> NoDup (map fst (dict_update d l))).
            { clear. induction l as [|[k v] l IH]; intros d H; simpl; auto. apply IH. clear IH l.
              induction d as [|[k' v'] d IH]; simpl in *; [repeat constructor; auto|]. inversion H as [|? ? N H']; subst.
              destruct (String.eqb_spec k' k) as [->|E]; simpl; constructor; auto. intro I. apply dict_set_keys in I as [I|I]; auto. }
            apply G. constructor. }
          rewrite DD, dict_update_app.
          2:{ intros k K I. apply KP in I as [_ I]. apply I. exact K. }
          f_equal. replace (dynamic_rot_dict show r) with (dynamic_rot_dict show r ++ [])%list at 1 by apply app_nil_r.
          rewrite dict_update_app.
          2:{ intros k K I. apply dynamic_rot_kind in I. destruct K as [<-|[<-|[<-|[<-|[]]]]]; discriminate I. }
          refine (f_equal (fun z => (_ ++ z)%list) _). cbn [dict_update fold_left fst snd dict_set String.eqb Ascii.eqb Bool.eqb]. reflexivity. }
      reflexivity.
    - assert (BL : blocks (without_rotations r) = map (fun b => mkBlock (b_dist b) (b_pos b) []) (blocks r)).
      { unfold blocks, without_rotations. cbn [r_blocks]. rewrite !map_map. reflexivity. }
      assert (NR : has_rot_dev (without_rotations r) = false).
      { unfold has_rot_dev. rewrite BL. clear. induction (blocks r) as [|b l IH]; simpl; auto. }
      assert (PD : forall f, pos_dev_of f (without_rotations r) = pos_dev_of f r).
      { intro f. unfold pos_dev_of. change (drift_factor (without_rotations r)) with (drift_factor r). unfold compute_metric. rewrite BL, map_map. reflexivity. }
      assert (MP : mean_pair_distances (without_rotations r) = mean_pair_distances r).
      { unfold mean_pair_distances, compute_metric. rewrite BL, map_map. reflexivity. }
      assert (LN : rpe_len (without_rotations r) = rpe_len r).
      { unfold rpe_len. rewrite BL. clear. induction (blocks r) as [|b l IH]; simpl; auto. }
      assert (DP : dynamic_pos_dict show (without_rotations r) = dynamic_pos_dict show r).
      { unfold dynamic_pos_dict. rewrite MP, PD. reflexivity. }
      unfold property_dict. rewrite !PD, P1, P2. cbn [bind]. rewrite NR. cbn [negb]. rewrite LN, DP. unfold pos_rpe. rewrite PD.
      f_equal. exact POS.
  Qed.

  Lemma property_none r : ~ compared r -> property_dict show str_nat r = Err ValueError.
  Proof.
    intro C. unfold property_dict. destruct (pos_dev_of max1 r) as [|x l] eqn:E; [reflexivity|].
    exfalso. apply C. apply (compared_filled r max1). rewrite E. discriminate.
  Qed.

  Lemma asserts_prefix d e : mapM (fun xy => assert_true (String.eqb (fst xy) (snd xy))) (combine d (d ++ e)%list) = Ok (map (fun _ => tt) d).
  Proof. induction d as [|a d IH]; simpl; [reflexivity|]. rewrite String.eqb_refl. cbn [assert_true bind]. rewrite IH. reflexivity. Qed.
  Lemma asserts_prefix' d e : mapM (fun xy => assert_true (String.eqb (fst xy) (snd xy))) (combine (d ++ e)%list d) = Ok (map (fun _ => tt) d).
  Proof. induction d as [|a d IH]; simpl; [destruct e; reflexivity|]. rewrite String.eqb_refl. cbn [assert_true bind]. rewrite IH. reflexivity. Qed.

  Lemma rpe_eq_never_false a b : rpe_eq show str_nat a b <> Ok false.
  Proof. unfold rpe_eq. intro H. repeat (first [apply bind_ok in H as [? [? H]] | discriminate H]). Qed.

  Lemma rpe_eq_outcome a b : compared a -> compared b ->
    rpe_eq show str_nat a b = Ok true \/ rpe_eq show str_nat a b = Err AssertionError.
  Proof.
    intros A B.
    assert (T : forall r, compared r -> exists d, property_dict show str_nat r = Ok d).
    { intros r C. destruct (property_shape r C) as (sp & _ & P1 & P2 & _). destruct (has_rot_dev r); [|eauto].
      destruct (P2 eq_refl) as (sr & _ & E). eauto. }
    destruct (T a A) as [da EA]. destruct (T b B) as [db EB]. unfold rpe_eq. rewrite EA, EB. cbn [bind].
    set (l := combine _ _). clearbody l.
    assert (M : (exists u, mapM (fun xy : string * string => assert_true (String.eqb (fst xy) (snd xy))) l = Ok u) \/
      mapM (fun xy : string * string => assert_true (String.eqb (fst xy) (snd xy))) l = Err AssertionError).
    { induction l as [|x l IH]; simpl; [eauto|]. destruct (String.eqb (fst x) (snd x)); cbn [assert_true bind]; [|auto].
      destruct IH as [[u ->]| ->]; cbn [bind]; eauto. }
    destruct M as [[u ->]| ->]; cbn [bind]; auto.
  Qed.

  Lemma rpe_eq_refl r : compared r -> rpe_eq show str_nat r r = Ok true.
  Proof.
    intro C. destruct (property_shape r C) as (sp & _ & P1 & P2 & _). unfold rpe_eq.
    assert (exists d, property_dict show str_nat r = Ok d) as [d ->].
    { destruct (has_rot_dev r); [|eauto]. destruct (P2 eq_refl) as (sr & _ & E). eauto. }
    cbn [bind]. replace (combine (map snd d) (map snd d)) with (combine (map snd d) (map snd d ++ [])%list) by now rewrite app_nil_r.
    rewrite asserts_prefix. reflexivity.
  Qed.

  Lemma rpe_eq_rotations r : compared r ->
    rpe_eq show str_nat r (without_rotations r) = Ok true /\ rpe_eq show str_nat (without_rotations r) r = Ok true.
  Proof.
    intro C. destruct (property_shape r C) as (sp & _ & P1 & P2 & P3). unfold rpe_eq. rewrite P3.
    destruct (has_rot_dev r).
    - destruct (P2 eq_refl) as (sr & _ & ->). cbn [bind]. rewrite !(map_app snd (_ ++ _ ++ sp)%list).
      rewrite asserts_prefix, asserts_prefix'. auto.
    - rewrite (P1 eq_refl). cbn [bind].
      match goal with |- context [combine ?x ?x] => replace (combine x x) with (combine x (x ++ [])%list) by now rewrite app_nil_r end.
      rewrite asserts_prefix. auto.
  Qed.

  Lemma summary_lines r : matching r -> compared r -> displayed_apart show r ->
    exists d, property_dict show str_nat r = Ok d /\ NoDup (map fst d) /\
      (forall b, In b (blocks r) -> b_dist b <> [] -> In (drift_line show r b) d) /\
      (forall b, In b (blocks r) -> b_rot b <> [] -> In (rotation_line show r b) d).
  Proof.
    intros M C D. pose proof (dynamic_pos_lines r M D) as L. destruct (property_shape r C) as (sp & KS & P1 & P2 & _).
    assert (NP : NoDup (map fst (dynamic_pos_dict show r))).
    { rewrite L. rewrite map_map. unfold displayed_apart in D. clear L. induction (used_blocks r) as [|b l IH]; simpl in *; [constructor|].
      inversion D as [|? ? N D']; subst. constructor; auto. intro I. apply N. apply in_map_iff in I as [y [E Y]].
      apply in_map_iff. exists y. split; [|exact Y].
      unfold drift_line in E. destruct (r_unit r); cbn [fst] in E; apply append_inj_l in E; apply append_inj_r in E; exact E. }
    assert (NPOS : NoDup (map fst (basic_lines r ++ dynamic_pos_dict show r ++ sp)%list)).
    { rewrite !map_app, KS. apply NoDup_app_intro.
      - repeat constructor; simpl; intuition discriminate.
      - apply NoDup_app_intro; [exact NP|repeat constructor; simpl; intuition discriminate|].
        intros x X Y. apply dynamic_pos_kind in X. destruct Y as [<-|[<-|[<-|[<-|[]]]]]; discriminate X.
      - intros x X Y. apply in_app_or in Y as [Y|Y].
        + apply dynamic_pos_kind in Y. destruct X as [<-|[<-|[<-|[]]]]; discriminate Y.
        + destruct X as [<-|[<-|[<-|[]]]]; destruct Y as [Y|[Y|[Y|[Y|[]]]]]; discriminate Y. }
    destruct (has_rot_dev r) eqn:H.
    - destruct (P2 eq_refl) as (sr & KR & E). eexists. split; [exact E|].
      pose proof (dynamic_rot_lines r M D H) as LR. split; [|split].
      + rewrite map_app. apply NoDup_app_intro; [exact NPOS| |].
        * rewrite map_app, KR. apply NoDup_app_intro.
          -- rewrite LR. rewrite map_map. unfold displayed_apart in D. clear L LR. induction (used_blocks r) as [|b l IH]; simpl in *; [constructor|].
             inversion D as [|? ? N D']; subst. constructor; auto. intro I. apply N. apply in_map_iff in I as [y [E' Y]].
             apply in_map_iff. exists y. split; [|exact Y].
             unfold rotation_line in E'. destruct (r_unit r); cbn [fst] in E'; apply append_inj_l in E'; apply append_inj_r in E'; exact E'.
          -- repeat constructor; simpl; intuition discriminate.
          -- intros x X Y. apply dynamic_rot_kind in X. destruct Y as [<-|[<-|[<-|[<-|[]]]]]; discriminate X.
        * intros x X Y. rewrite !map_app, KS in X. rewrite map_app, KR in Y. apply in_app_or in X as [X|X]; [|apply in_app_or in X as [X|X]]; apply in_app_or in Y as [Y|Y].
          -- apply dynamic_rot_kind in Y. destruct X as [<-|[<-|[<-|[]]]]; discriminate Y.
          -- destruct X as [<-|[<-|[<-|[]]]]; destruct Y as [Y|[Y|[Y|[Y|[]]]]]; discriminate Y.
          -- apply dynamic_rot_kind in Y. apply dynamic_pos_kind in X. rewrite X in Y. discriminate Y.
          -- apply dynamic_pos_kind in X. destruct Y as [<-|[<-|[<-|[<-|[]]]]]; discriminate X.
          -- apply dynamic_rot_kind in Y. destruct X as [<-|[<-|[<-|[<-|[]]]]]; discriminate Y.
          -- destruct X as [<-|[<-|[<-|[<-|[]]]]]; destruct Y as [Y|[Y|[Y|[Y|[]]]]]; discriminate Y.
      + intros b I F. apply in_or_app. left. apply in_or_app. right. apply in_or_app. left. rewrite L. apply in_map, used_in. auto.
      + intros b I F. apply in_or_app. right. apply in_or_app. left. rewrite LR. apply in_map, used_in. split; auto.
        pose proof (has_rot_blocks r H M b I) as K. intro Z. rewrite Z in K. destruct (b_rot b); [congruence|discriminate K].
    - eexists. split; [exact (P1 eq_refl)|]. split; [exact NPOS|]. split.
      + intros b I F. apply in_or_app. right. apply in_or_app. left. rewrite L. apply in_map, used_in. auto.
      + intros b I F. exfalso. apply F. destruct (b_rot b) eqn:Z; auto. exfalso.
        assert (has_rot_dev r = true) as K; [|congruence].
        unfold has_rot_dev. apply existsb_exists. exists b. split; auto. rewrite Z. reflexivity.
  Qed.
End Lines.
