(** Interpolation inside a block of poses depends on this block only. *)
From Verif Require Import Base BaseFacts VecFacts NumpyModel NumpyFacts TrajModel TrajSpec TrajFacts TrajFacts2 TrajFacts3 EvalFacts LawSpec InfoFacts StabFacts2 LocalSpec.

Lemma interp_pre l m x e : StronglySorted Rlt (map fst (l ++ e :: m)) -> fst e <= x -> interp_at (l ++ e :: m) x = interp_at (e :: m) x.
Proof.
  induction l as [|[t v] l IH]; intros S H; [reflexivity|]. cbn [app map] in S. apply StronglySorted_inv in S as [S F]. specialize (IH S H).
  assert (K : exists t' v' r, l ++ e :: m = (t', v') :: r /\ t' <= fst e).
  { destruct l as [|[t' v'] l]; cbn.
    - destruct e as [t' v']. exists t', v', m. split; [reflexivity|cbn; lra].
    - exists t', v', (l ++ e :: m). split; [reflexivity|]. cbn in S. apply StronglySorted_inv in S as [_ G]. rewrite Forall_forall in G.
      apply Rlt_le, G. rewrite map_app. apply in_or_app. right. left. reflexivity. }
  destruct K as (t' & v' & r & K & L). cbn [app]. rewrite K in *. rewrite interp_at_cons. destruct (Rltb_spec x t'); [lra|]. exact IH.
Qed.

Lemma interp_post m n x : m <> [] -> StronglySorted Rlt (map fst (m ++ n)) -> (exists e, In e m /\ x <= fst e) -> interp_at (m ++ n) x = interp_at m x.
Proof.
  induction m as [|[t v] m IH]; intros NE S (e & I & H); [contradiction|]. cbn [app map] in S. apply StronglySorted_inv in S as [S F]. rewrite Forall_forall in F.
  destruct m as [|[t' v'] m].
  - destruct I as [<-|[]]. cbn [fst] in *. destruct n as [|[t' v'] n]; [reflexivity|]. cbn [app]. rewrite interp_at_cons. assert (t < t') by (apply F; left; reflexivity).
    destruct (Rltb_spec x t'); [|lra]. destruct (Rleb_spec x t); [|lra]. reflexivity.
  - cbn [app]. rewrite !interp_at_cons. destruct (Rltb_spec x t') as [B|B]; [reflexivity|]. apply (IH ltac:(discriminate) S).
    destruct I as [<-|I]; [|exists e; split; assumption]. cbn [fst] in H. assert (t < t') by (apply F; left; reflexivity). lra.
Qed.

Section Slerps.
  Context {Q : Type}.
  Variable seg : Q -> Q -> R -> Q.
  Hypothesis ENDS : hits_ends seg.

  Lemma slerp_pre l m x e f : StronglySorted Rlt (map fst (l ++ e :: f :: m)) -> fst e <= x -> slerp_at seg (l ++ e :: f :: m) x = slerp_at seg (e :: f :: m) x.
  Proof.
    induction l as [|[t v] l IH]; intros S H; [reflexivity|]. cbn [app map] in S. apply StronglySorted_inv in S as [S F]. specialize (IH S H). rewrite Forall_forall in F.
    destruct l as [|[t' v'] l].
    - clear IH. destruct e as [a p], f as [b q]. cbn [app map fst] in *. apply StronglySorted_inv in S as [S G]. rewrite Forall_forall in G.
      assert (t < a) by (apply F; left; reflexivity). assert (a < b) by (apply G; left; reflexivity).
      cbn [slerp_at]. destruct (Rltb_spec x t); [lra|]. destruct (Rleb_spec x a) as [L|L]; [|reflexivity]. assert (x = a) as -> by lra.
      destruct (Rltb_spec a a); [lra|]. destruct (Rleb_spec a b); [|lra]. f_equal. replace ((a - t) / (a - t)) with 1 by (field; lra). replace ((a - a) / (b - a)) with 0 by (field; lra).
      rewrite (proj2 (ENDS v p)), (proj1 (ENDS p q)). reflexivity.
    - rewrite <- IH. cbn [app map fst] in *. apply StronglySorted_inv in S as [S G]. rewrite Forall_forall in G.
      assert (t < t') by (apply F; left; reflexivity). assert (t' < fst e) by (apply G; rewrite map_app; apply in_or_app; right; left; reflexivity).
      cbn [slerp_at]. destruct (Rltb_spec x t); [lra|]. destruct (Rleb_spec x t'); [lra|]. reflexivity.
  Qed.

  Lemma slerp_post m n x e f : StronglySorted Rlt (map fst ((e :: f :: m) ++ n)) -> (exists g, In g (e :: f :: m) /\ x <= fst g) -> slerp_at seg ((e :: f :: m) ++ n) x = slerp_at seg (e :: f :: m) x.
  Proof.
    revert e f. induction m as [|[b q] m IH]; intros [t v] [t' v'] S (g & I & H); cbn [app map fst] in S; apply StronglySorted_inv in S as [S F]; rewrite Forall_forall in F;
      assert (t < t') by (apply F; left; reflexivity).
    - cbn [app slerp_at]. destruct (Rltb x t); [reflexivity|]. destruct (Rleb_spec x t') as [L|L]; [reflexivity|]. destruct I as [<-|[<-|[]]]; cbn [fst] in H; lra.
    - specialize (IH (t', v') (b, q) S). cbn [app] in *. cbn [slerp_at] in *. destruct (Rltb x t); [reflexivity|]. destruct (Rleb_spec x t') as [L|L]; [reflexivity|]. apply IH.
      destruct I as [<-|I]; [cbn [fst] in H; lra|]. exists g. split; assumption.
  Qed.
End Slerps.

Lemma combine_app {A B} (a a' : list A) (b b' : list B) : length a = length b -> combine (a ++ a') (b ++ b') = combine a b ++ combine a' b'.
Proof. revert b. induction a as [|x a IH]; intros [|y b] L; try discriminate; [reflexivity|]. cbn. f_equal. apply IH. cbn in L. lia. Qed.

Lemma map_Some_app {A} (r : list A) u v w : map Some r = u ++ map Some v ++ w -> exists u' w', r = u' ++ v ++ w' /\ length u' = length u /\ length w' = length w.
Proof.
  intro H. apply map_eq_app in H as (u' & l & -> & U & H). apply map_eq_app in H as (v' & w' & -> & V & W).
  assert (v' = v) as ->. { clear - V. revert v V. induction v' as [|x v' IH]; intros [|y v] V; try discriminate; [reflexivity|]. cbn in V. injection V as -> V. f_equal. apply IH, V. }
  exists u', w'. split; [reflexivity|]. rewrite <- U, <- W, !map_length. auto.
Qed.

Lemma in_combine_at {A B} (u : list A) (v : list B) k a b : nth_error u k = Some a -> nth_error v k = Some b -> In (a, b) (combine u v).
Proof. intros H K. apply (nth_error_In _ k). rewrite nth_error_combine, H, K. reflexivity. Qed.

Section Blocks.
  Context {Q : Type}.
  Implicit Types t c : traj Q.

  Lemma block_components t c pre post : consistent t -> consistent c -> poses t = pre ++ poses c ++ post ->
    tstamps t = map p_t pre ++ tstamps c ++ map p_t post /\ xyz t = map p_xyz pre ++ xyz c ++ map p_xyz post /\
    rots_of t = map p_rot pre ++ rots_of c ++ map p_rot post /\ arc t = map p_arc pre ++ arc c ++ map p_arc post.
  Proof.
    intros C C' P. destruct (poses_components t C) as (T & X & RR & A & _). destruct (poses_components c C') as (T' & X' & RR' & A' & _).
    rewrite <- T, <- X, <- RR, <- A, <- T', <- X', <- RR', <- A', P, !map_app. auto.
  Qed.

  Lemma strict_part (a b d : list R) : StronglySorted Rlt (a ++ b ++ d) -> StronglySorted Rlt b.
  Proof.
    induction a as [|x a IH]; cbn; intro S; [|apply StronglySorted_inv in S as [S _]; apply IH, S].
    induction b as [|y b IH]; [constructor|]. cbn in S. apply StronglySorted_inv in S as [S F]. constructor; [apply IH, S|]. apply Forall_app in F. apply F.
  Qed.

  Lemma interp_block (ta tb tc fa fb fc : list R) x : length ta = length fa -> length tb = length fb -> length tc = length fc -> StronglySorted Rlt (ta ++ tb ++ tc) ->
    (exists lo hi, nth_error tb 0 = Some lo /\ In hi tb /\ lo <= x <= hi) -> interp_at (combine (ta ++ tb ++ tc) (fa ++ fb ++ fc)) x = interp_at (combine tb fb) x.
  Proof.
    intros L1 L2 L3 S (lo & hi & LO & HI & B). rewrite combine_app, combine_app by assumption.
    assert (M : forall u v : list R, length u = length v -> map fst (combine u v) = u) by (intros u v; apply map_fst_combine).
    destruct tb as [|a tb]; [discriminate|]. destruct fb as [|f fb]; [discriminate|]. injection LO as ->. cbn [combine app].
    rewrite interp_pre.
    - change ((lo, f) :: combine tb fb ++ combine tc fc) with (combine (lo :: tb) (f :: fb) ++ combine tc fc). apply interp_post; [discriminate| |].
      + assert (K : map fst (combine (lo :: tb) (f :: fb) ++ combine tc fc) = (lo :: tb) ++ tc) by (rewrite map_app; f_equal; apply M; assumption).
        eapply eq_ind_r with (P := StronglySorted Rlt); [|exact K]. apply (strict_part ta _ []). rewrite app_nil_r. exact S.
      + apply In_nth_error in HI as [k K]. destruct (nth_error_lt_Some (f :: fb) k) as [y Y]; [rewrite <- L2; eapply nth_error_Some_lt, K|].
        exists (hi, y). split; [|cbn; lra]. exact (in_combine_at _ _ k _ _ K Y).
    - cbn [fst]. change ((lo, f) :: combine tb fb ++ combine tc fc) with (combine (lo :: tb) (f :: fb) ++ combine tc fc). rewrite !map_app, !M by assumption. exact S.
    - cbn. lra.
  Qed.

  Lemma slerp_block (seg : Q -> Q -> R -> Q) ta tb tc (fa fb fc : list Q) x : hits_ends seg -> (2 <= length tb)%nat -> length ta = length fa -> length tb = length fb -> length tc = length fc -> StronglySorted Rlt (ta ++ tb ++ tc) ->
    (exists lo hi, nth_error tb 0 = Some lo /\ In hi tb /\ lo <= x <= hi) -> slerp_at seg (combine (ta ++ tb ++ tc) (fa ++ fb ++ fc)) x = slerp_at seg (combine tb fb) x.
  Proof.
    intros EN TWO L1 L2 L3 S (lo & hi & LO & HI & B). rewrite combine_app, combine_app by assumption.
    assert (M : forall (u : list R) (v : list Q), length u = length v -> map fst (combine u v) = u) by (intros u v; apply map_fst_combine).
    destruct tb as [|a [|a' tb]]; [discriminate|cbn in TWO; lia|]. destruct fb as [|f [|f' fb]]; try discriminate. injection LO as ->. cbn [combine app].
    assert (E : (lo, f) :: (a', f') :: combine tb fb ++ combine tc fc = combine (lo :: a' :: tb) (f :: f' :: fb) ++ combine tc fc) by reflexivity.
    rewrite (slerp_pre seg EN).
    - rewrite E. apply (slerp_post seg).
      + change ((lo, f) :: (a', f') :: combine tb fb) with (combine (lo :: a' :: tb) (f :: f' :: fb)). assert (K : map fst (combine (lo :: a' :: tb) (f :: f' :: fb) ++ combine tc fc) = (lo :: a' :: tb) ++ tc) by (rewrite map_app; f_equal; apply M; assumption).
        eapply eq_ind_r with (P := StronglySorted Rlt); [|exact K]. apply (strict_part ta _ []). rewrite app_nil_r. exact S.
      + apply In_nth_error in HI as [k K]. destruct (nth_error_lt_Some (f :: f' :: fb) k) as [y Y]; [rewrite <- L2; eapply nth_error_Some_lt, K|].
        exists (hi, y). split; [|cbn; lra]. change ((lo, f) :: (a', f') :: combine tb fb) with (combine (lo :: a' :: tb) (f :: f' :: fb)). exact (in_combine_at _ _ k _ _ K Y).
    - rewrite E, !map_app, !M by assumption. exact S.
    - cbn. lra.
  Qed.

  Lemma covered_span c req lo hi x : strictly_time_sorted c -> np_get (tstamps c) 0 = Ok lo -> np_get (tstamps c) (-1) = Ok hi -> covers c req -> In x req ->
    nth_error (tstamps c) 0 = Some lo /\ In hi (tstamps c) /\ lo <= x <= hi.
  Proof.
    intros S LO HI CV I. destruct (CV x I) as (a & b & IA & IB & B). unfold strictly_time_sorted in S.
    assert (NE : tstamps c <> []) by (intro Z; rewrite Z in IA; destruct IA).
    assert (N0 : nth_error (tstamps c) 0 = Some lo).
    { destruct (tstamps c) as [|y l]; [contradiction|]. cbn in LO. injection LO as ->. reflexivity. }
    destruct (nth_error_lt_Some (tstamps c) (length (tstamps c) - 1)) as [h H]; [destruct (tstamps c); [contradiction|cbn; lia]|].
    assert (G := np_get_last _ _ NE H). rewrite HI in G. injection G as <-.
    split; [exact N0|]. split; [eapply nth_error_In, H|].
    assert (A : lo <= a). { clear - S N0 IA. destruct (tstamps c) as [|y l]; [destruct IA|]. injection N0 as ->. apply StronglySorted_inv in S as [_ F]. rewrite Forall_forall in F. destruct IA as [<-|IA]; [lra|apply Rlt_le, F, IA]. }
    assert (E : b <= hi).
    { apply In_nth_error in IB as [k K]. assert (LK := nth_error_Some_lt _ _ _ K). destruct (Nat.eq_dec k (length (tstamps c) - 1)) as [->|ND]; [rewrite K in H; injection H as ->; lra|].
      apply Rlt_le. apply (proj1 (StronglySorted_nth Rlt (tstamps c)) S k (length (tstamps c) - 1)%nat); [lia|exact K|exact H]. }
    lra.
  Qed.

  Lemma interpolate_block (seg : Q -> Q -> R -> Q) t c pre post req : hits_ends seg -> consistent t -> consistent c -> strictly_time_sorted t ->
    poses t = pre ++ poses c ++ post -> same_meta t c -> (rot t = None \/ (2 <= tlen c)%nat) -> req <> [] -> covers c req ->
    interpolate seg c req = interpolate seg t req.
  Proof.
    intros EN C C' S P (M1 & M2 & M3 & M4) TWO NE CV. destruct (block_components t c pre post C C' P) as (T & X & RT & A).
    assert (S' : strictly_time_sorted c) by (unfold strictly_time_sorted in *; rewrite T in S; eapply strict_part, S).
    assert (L0 : (0 < length (tstamps c))%nat).
    { destruct req as [|x req]; [contradiction|]. destruct (CV x (or_introl eq_refl)) as (a & _ & I & _). destruct (tstamps c); [destruct I|cbn; lia]. }
    destruct (C) as (K1 & K2 & K3 & K4). destruct (C') as (K1' & K2' & K3' & K4').
    assert (LC : (0 < tlen c)%nat) by (unfold tlen; lia). assert (LT : (tlen c <= tlen t)%nat) by (unfold tlen; rewrite X, !app_length; lia).
    destruct (interpolate_ok seg c req C' S' LC) as (lo & hi & u & LO & HI & U & UT & UX & UA & US & U1 & U2 & U3 & UR); [destruct TWO as [Z|Z]; [left; apply M4, Z|right; exact Z]|].
    destruct (interpolate_ok seg t req C S ltac:(lia)) as (lo' & hi' & v & LO' & HI' & V & VT & VX & VA & VS & V1 & V2 & V3 & VR); [destruct TWO as [Z|Z]; [left; exact Z|right; lia]|].
    assert (SP : forall x, In x req -> nth_error (tstamps c) 0 = Some lo /\ In hi (tstamps c) /\ lo <= x <= hi) by (intros x; apply (covered_span c req); assumption).
    assert (CV' : covers t req).
    { intros x I. destruct (CV x I) as (a & b & IA & IB & B). exists a, b. rewrite T. split; [|split; [|exact B]]; apply in_or_app; right; apply in_or_app; left; assumption. }
    assert (SP' : forall x, In x req -> nth_error (tstamps t) 0 = Some lo' /\ In hi' (tstamps t) /\ lo' <= x <= hi') by (intros x; apply (covered_span t req); assumption).
    assert (FA : forall a b, (forall x, In x req -> a <= x <= b) -> filter (in_range a b) (np_sort req) = np_sort req).
    { intros a b H. apply filter_true. intros x I. apply (proj1 (In_np_sort x req)) in I. apply H in I. unfold in_range. apply andb_true_iff. split; apply Rleb_true; lra. }
    rewrite FA in UT by (intros x I; apply SP, I). rewrite FA in VT by (intros x I; apply SP', I).
    assert (TE : tstamps v = tstamps u) by congruence.
    assert (IN : forall x, In x (tstamps u) -> exists lo hi, nth_error (tstamps c) 0 = Some lo /\ In hi (tstamps c) /\ lo <= x <= hi).
    { intros x I. rewrite UT in I. apply (proj1 (In_np_sort x req)) in I. exists lo, hi. apply SP, I. }
    unfold strictly_time_sorted in S. rewrite T in S.
    assert (XE : xyz v = xyz u).
    { rewrite UX, VX, TE, T, X, !map_app. apply map_ext_in. intros x I. specialize (IN x I). f_equal; apply interp_block; rewrite ?map_length; auto. }
    assert (AE : arc v = arc u).
    { rewrite UA, VA, TE, T, A. apply map_ext_in. intros x I. specialize (IN x I). apply interp_block; rewrite ?map_length; auto. congruence. }
    assert (SE : speed v = speed u) by (rewrite XE, TE, <- US in VS; injection VS as ->; reflexivity).
    assert (RE : rot v = rot u).
    { unfold rots_of in RT. destruct (rot t) as [r|] eqn:RR.
      - destruct (rot c) as [rc|] eqn:RC; [|exfalso; assert (Some r = None) by (apply M4; reflexivity); discriminate].
        destruct (map_Some_app r _ _ _ RT) as (r1 & r3 & -> & LR1 & LR3). rewrite !map_length in LR1, LR3.
        assert (NU : tstamps u <> []). { rewrite UT. intro Z. destruct req as [|x req]; [contradiction|]. assert (I : In x (np_sort (x :: req))) by (apply In_np_sort; left; reflexivity). rewrite Z in I. destruct I. }
        destruct UR as [[Z _]|(q & -> & UQ)]; [contradiction|]. destruct VR as [[Z _]|(q' & -> & VQ)]; [rewrite TE in Z; contradiction|].
        destruct TWO as [Z|TWO]; [discriminate|]. f_equal. rewrite TE, T in VQ.
        assert (W : mapM (slerp_at seg (combine (map p_t pre ++ tstamps c ++ map p_t post) (r1 ++ rc ++ r3))) (tstamps u) = mapM (slerp_at seg (combine (tstamps c) rc)) (tstamps u)).
        { apply mapM_ext_in. intros x I. specialize (IN x I). apply slerp_block; rewrite ?map_length; auto; [unfold tlen in TWO; lia|congruence]. }
        congruence.
      - assert (RC : rot c = None) by (apply M4; reflexivity). rewrite RC in UR. congruence. }
    rewrite U, V. f_equal. destruct u, v. cbn in *. congruence.
  Qed.
End Blocks.
