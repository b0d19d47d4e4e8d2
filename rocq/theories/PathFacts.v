From Verif Require Import Base BaseFacts NumpyModel NumpyFacts TrajModel TrajSpec SortModel SortSpec SortFacts PathSpec.

(** * Directions *)
Lemma Rltb_diff a b : Rltb 0 (b - a) = Rltb a b.
Proof. destruct (Rltb a b) eqn:E; [apply Rltb_true in E; apply Rltb_true; lra|apply Rltb_false in E; apply Rltb_false; lra]. Qed.
Lemma Rltb_diff' a b : Rltb (b - a) 0 = Rltb b a.
Proof. destruct (Rltb b a) eqn:E; [apply Rltb_true in E; apply Rltb_true; lra|apply Rltb_false in E; apply Rltb_false; lra]. Qed.

Lemma direction_counts env pts : detect_direction env pts = Z.sgn (Z.of_nat (ups (angle env) pts) - Z.of_nat (downs (angle env) pts)).
Proof.
  unfold detect_direction. do 2 f_equal; f_equal; unfold np_diff; induction pts as [|a [|b r] IH]; try reflexivity.
  - change (pairs (map (angle env) (a :: b :: r))) with ((angle env a, angle env b) :: pairs (map (angle env) (b :: r))). cbn [map filter fst snd]. rewrite Rltb_diff. change (ups (angle env) (a :: b :: r)) with ((if Rltb (angle env a) (angle env b) then 1 else 0) + ups (angle env) (b :: r))%nat. rewrite <- IH. destruct (Rltb (angle env a) (angle env b)); reflexivity.
  - change (pairs (map (angle env) (a :: b :: r))) with ((angle env a, angle env b) :: pairs (map (angle env) (b :: r))). cbn [map filter fst snd]. rewrite Rltb_diff'. change (downs (angle env) (a :: b :: r)) with ((if Rltb (angle env b) (angle env a) then 1 else 0) + downs (angle env) (b :: r))%nat. rewrite <- IH. destruct (Rltb (angle env b) (angle env a)); reflexivity.
Qed.

Lemma ups_app f l b r : ups f (l ++ b :: r) = (ups f (l ++ [b]) + ups f (b :: r))%nat.
Proof.
  induction l as [|a [|c l] IH]; [reflexivity|cbn [app]; change (ups f (a :: b :: r)) with ((if Rltb (f a) (f b) then 1 else 0) + ups f (b :: r))%nat; cbn [ups]; lia|].
  change (ups f ((a :: c :: l) ++ b :: r)) with ((if Rltb (f a) (f c) then 1 else 0) + ups f ((c :: l) ++ b :: r))%nat. change (ups f ((a :: c :: l) ++ [b])) with ((if Rltb (f a) (f c) then 1 else 0) + ups f ((c :: l) ++ [b]))%nat. lia.
Qed.
Lemma ups_rev f l : ups f (rev l) = downs f l.
Proof.
  induction l as [|a [|b r] IH]; [reflexivity|reflexivity|]. change (downs f (a :: b :: r)) with ((if Rltb (f b) (f a) then 1 else 0) + downs f (b :: r))%nat. rewrite <- IH. cbn [rev]. rewrite <- app_assoc. cbn [app].
  rewrite (ups_app f (rev r) b [a]). cbn [ups]. lia.
Qed.
Lemma downs_rev f l : downs f (rev l) = ups f l.
Proof. rewrite <- (rev_involutive l) at 2. symmetry. apply ups_rev. Qed.

Lemma mapM_rev {A B} (f : A -> result B) l r : mapM f l = Ok r -> mapM f (rev l) = Ok (rev r).
Proof.
  revert r. induction l as [|a l IH]; intros r H; cbn in H; [injection H as <-; reflexivity|]. destruct (f a) as [b|] eqn:F; [|discriminate]. cbn in H. destruct (mapM f l) as [r'|] eqn:E; [|discriminate]. injection H as <-.
  cbn [rev]. rewrite mapM_app, (IH r' eq_refl). cbn. rewrite F. reflexivity.
Qed.

Lemma sort_direction env pts discard idx : sort env pts discard = Ok idx -> exists idx0 s0, np_take pts (map Z.of_nat idx0) = Ok s0 /\
  (idx = idx0 /\ np_take pts (map Z.of_nat idx) = Ok s0 /\ detect_direction env s0 = detect_direction env pts \/
   idx = rev idx0 /\ np_take pts (map Z.of_nat idx) = Ok (rev s0) /\ detect_direction env s0 <> detect_direction env pts).
Proof.
  unfold sort. intros H. apply bind_ok in H as ([o m] & _ & H). apply bind_ok in H as (idx1 & _ & H). apply bind_ok in H as (b & _ & H). apply bind_ok in H as (idx2 & _ & H). apply bind_ok in H as (s0 & S0 & H).
  exists idx2, s0. split; [exact S0|]. destruct (Z.eqb_spec (detect_direction env s0) (detect_direction env pts)) as [E|E]; injection H as <-; [left; auto|right]. split; [reflexivity|]. split; [|exact E]. rewrite map_rev. unfold np_take in *. apply mapM_rev, S0.
Qed.

(** * Paths *)
Lemma last_in {A} (l : list A) d : l <> [] -> In (last l d) l.
Proof. induction l as [|a [|b r] IH]; [congruence|left; reflexivity|]. intros _. right. apply IH. discriminate. Qed.

Lemma endpoint_undirected v e : endpoint v (undirected e) = endpoint v e.
Proof. destruct e as [a b]. unfold endpoint, undirected. cbn [fst snd]. destruct (Nat.le_ge_cases a b) as [L|L]; [rewrite (Nat.min_l a b L), (Nat.max_r a b L); reflexivity|rewrite (Nat.min_r a b L), (Nat.max_l a b L); apply orb_comm]. Qed.

Lemma degree_undirected E v : degree (map undirected E) v = degree E v.
Proof. unfold degree. induction E as [|e E IH]; [reflexivity|]. cbn [map filter]. rewrite endpoint_undirected. destruct (endpoint v e); cbn; congruence. Qed.

Lemma degree_path path E v : is_path path E -> degree E v = degree (links path) v.
Proof. intros [_ P]. rewrite <- degree_undirected, (degree_perm _ _ v P). apply degree_undirected. Qed.

Lemma links_in path a b : In (a, b) (links path) -> exists l r, path = l ++ a :: b :: r.
Proof.
  induction path as [|x [|y r] IH]; cbn [links]; intros I; [destruct I|destruct I|]. destruct I as [I|I]; [injection I as <- <-; exists [], r; reflexivity|]. destruct (IH I) as (l & r' & E). exists (x :: l), r'. rewrite E. reflexivity.
Qed.
Lemma in_links l a b r : In (a, b) (links (l ++ a :: b :: r)).
Proof. induction l as [|x [|y l] IH]; [left; reflexivity|right; left; reflexivity|]. right. exact IH. Qed.

Lemma undirected_eq e a b : undirected e = undirected (a, b) -> e = (a, b) \/ e = (b, a).
Proof. destruct e as [c d]. unfold undirected. cbn [fst snd]. intros H. injection H as H1 H2. destruct (Nat.eq_dec c a) as [->|N]; [left|right]; f_equal; lia. Qed.

Lemma linked_path path E u v : is_path path E -> (linked E u v <-> In (u, v) (links path) \/ In (v, u) (links path)).
Proof.
  intros [_ P]. assert (K : forall F G, Permutation (map undirected F) (map undirected G) -> forall a b, In (a, b) F -> In (a, b) G \/ In (b, a) G).
  { intros F G PF a b I. assert (J : In (undirected (a, b)) (map undirected G)) by (apply (Permutation_in _ PF), in_map, I). apply in_map_iff in J as (e & Ee & Ie). destruct (undirected_eq e a b Ee) as [-> | -> ]; auto. }
  unfold linked. split; intros [I|I]; first [apply (K _ _ P) in I|apply (K _ _ (Permutation_sym P)) in I]; tauto.
Qed.

Lemma degree_absent path v : ~ In v path -> degree (links path) v = 0%nat.
Proof.
  intros N. apply degree_zero. intros [a b] I. apply links_in in I as (l & r & ->). unfold endpoint. cbn [fst snd]. apply orb_false_iff. split; apply Nat.eqb_neq; intros ->; apply N, in_app_iff; right; [left|right; left]; reflexivity.
Qed.

Lemma degree_ends path v : NoDup path -> (2 <= length path)%nat -> degree (links path) v = 1%nat <-> v = hd 0%nat path \/ v = last path 0%nat.
Proof.
  induction path as [|a [|b r] IH]; intros ND L; cbn [length] in L; try lia. change (links (a :: b :: r)) with ((a, b) :: links (b :: r)). rewrite degree_cons. inversion ND as [|? ? Na ND']; subst.
  cbn [hd]. change (last (a :: b :: r) 0%nat) with (last (b :: r) 0%nat). destruct r as [|c r].
  - cbn. unfold endpoint. cbn. destruct (Nat.eqb_spec a v) as [->|N1], (Nat.eqb_spec b v) as [->|N2]; cbn; intuition congruence.
  - assert (IH' := IH ND' ltac:(cbn; lia)). cbn [hd] in IH'. destruct (Nat.eq_dec v a) as [->|Nv].
    + replace (endpoint a (a, b)) with true by (unfold endpoint; cbn; rewrite Nat.eqb_refl; reflexivity). rewrite (degree_absent (b :: c :: r) a Na). tauto.
    + destruct (Nat.eq_dec v b) as [->|Nb].
      * replace (endpoint b (a, b)) with true by (unfold endpoint; cbn; rewrite Nat.eqb_refl, orb_true_r; reflexivity). rewrite (proj2 IH' (or_introl eq_refl)). split; [lia|]. intros [H|H]; [congruence|]. exfalso.
        inversion ND' as [|? ? Nb' _]; subst. apply Nb'. change (last (b :: c :: r) 0%nat) with (last (c :: r) 0%nat) in H. rewrite H. clear. generalize c. induction r as [|d r IH]; intros c'; [left; reflexivity|]. right. exact (IH d).
      * replace (endpoint v (a, b)) with false by (unfold endpoint; cbn; symmetry; apply orb_false_iff; split; apply Nat.eqb_neq; congruence). cbn [Nat.add]. rewrite IH'. split; intros [H|H]; auto; congruence.
Qed.

Lemma links_app l a b r : links (l ++ a :: b :: r) = links (l ++ [a]) ++ (a, b) :: links (b :: r).
Proof. induction l as [|x [|y l] IH]; [reflexivity|reflexivity|]. change (links ((x :: y :: l) ++ a :: b :: r)) with ((x, y) :: links ((y :: l) ++ a :: b :: r)). rewrite IH. reflexivity. Qed.

Lemma links_rev path : Permutation (map undirected (links (rev path))) (map undirected (links path)).
Proof.
  induction path as [|a [|b r] IH]; [reflexivity|reflexivity|]. cbn [rev]. rewrite <- app_assoc. cbn [app]. rewrite links_app, map_app. cbn [links map]. rewrite <- IH. cbn [rev].
  replace (undirected (b, a)) with (undirected (a, b)) by (unfold undirected; cbn; f_equal; lia). rewrite Permutation_app_comm. reflexivity.
Qed.

Lemma is_path_rev path E : is_path path E -> is_path (rev path) E.
Proof. intros [N P]. split; [apply NoDup_rev, N|]. rewrite P. symmetry. apply links_rev. Qed.

Lemma split_unique {A} (u : A) : forall s t s' t', NoDup (s ++ u :: t) -> s ++ u :: t = s' ++ u :: t' -> s = s' /\ t = t'.
Proof.
  induction s as [|x s IH]; intros t s' t' ND H.
  - destruct s' as [|y s']; [injection H as ->; auto|]. injection H as <- H. exfalso. inversion ND as [|? ? N _]; subst. apply N, in_app_iff. right. left. reflexivity.
  - destruct s' as [|y s']; cbn [app] in H; injection H as -> H; cbn [app] in ND; inversion ND as [|? ? N ND']; subst; [exfalso; apply N, in_app_iff; right; left; reflexivity|]. destruct (IH t s' t' ND' H) as [-> -> ]. auto.
Qed.

(** A search from the end of a path follows the path. *)
Lemma search_path path E search : is_path path E -> search_contract search E -> path <> [] -> search E (hd 0%nat path) = path.
Proof.
  intros H C N. destruct path as [|a path]; [congruence|]. cbn [hd]. destruct (C a) as (rest & -> & ND & Pre & Cl). f_equal. assert (NDp := proj1 H).
  assert (LP := linked_path (a :: path) E). assert (Lk : forall u v, linked E u v <-> In (u, v) (links (a :: path)) \/ In (v, u) (links (a :: path))) by (intros; apply LP, H). clear LP.
  (* both continue a common beginning *)
  assert (G : forall p r l, a :: path = l ++ p -> a :: rest = l ++ r -> l <> [] -> p = r).
  { induction p as [|x p IH]; intros r l Ep Er Nl.
    - destruct r as [|y r]; [reflexivity|]. exfalso. destruct l as [|z l]; [congruence|]. injection Er as <- Er. destruct (Pre l y r Er) as (u & Iu & Hu). rewrite app_nil_r in Ep.
      assert (Iy : In y (a :: path)). { apply Lk in Hu as [I|I]; apply links_in in I as (l1 & r1 & ->); apply in_app_iff; right; cbn; auto. }
      rewrite Ep in Iy. rewrite Er in ND. change (a :: l ++ y :: r) with ((a :: l) ++ y :: r) in ND. apply NoDup_remove_2 in ND. apply ND, in_app_iff. left. exact Iy.
    - destruct l as [|z l] using rev_ind; [congruence|]. clear IHl. destruct r as [|y r].
      + exfalso. rewrite app_nil_r in Er. assert (I : In x (a :: rest)). { apply (Cl z x); [rewrite Er; apply in_app_iff; right; left; reflexivity|]. apply Lk. left. rewrite Ep, <- app_assoc. apply in_links. }
        rewrite Er in I. rewrite Ep in NDp. apply NoDup_remove_2 in NDp. apply NDp, in_app_iff. left. exact I.
      + assert (y = x) as ->.
        { assert (Er' : exists l', l ++ [z] = a :: l' /\ rest = l' ++ y :: r). { destruct l as [|w l]; cbn in *; injection Er as -> Er; eauto. } destruct Er' as (l' & El & Er'). destruct (Pre l' y r Er') as (u & Iu & Hu). rewrite <- El in Iu.
          assert (Ny : ~ In y (l ++ [z])). { intros I. rewrite Er in ND. apply NoDup_remove_2 in ND. apply ND, in_app_iff. left. exact I. }
          apply Lk in Hu. rewrite Ep in Hu. destruct Hu as [I|I]; apply links_in in I as (l1 & r1 & E1).
          - (* u before y *) apply in_split in Iu as (s & t & Es). rewrite Es in E1. rewrite <- app_assoc in E1. cbn [app] in E1. rewrite Ep, Es, <- app_assoc in NDp. cbn [app] in NDp.
            assert (s = l1 /\ t ++ x :: p = y :: r1) as [-> E2]. { apply (split_unique u); [exact NDp|exact E1]. }
            destruct t as [|w t]; [injection E2 as -> _; reflexivity|]. injection E2 as -> _. exfalso. apply Ny. rewrite Es. apply in_app_iff. right. right. left. reflexivity.
          - (* y before u *) exfalso. apply Ny. apply in_split in Iu as (s & t & Es). rewrite Es in E1. rewrite <- app_assoc in E1. cbn [app] in E1. rewrite Ep, Es, <- app_assoc in NDp. cbn [app] in NDp.
            assert (s = l1 ++ [y] /\ t ++ x :: p = r1) as [-> _]. { apply (split_unique u); [exact NDp|]. rewrite <- app_assoc. exact E1. }
            rewrite Es. apply in_app_iff. left. apply in_app_iff. right. left. reflexivity. }
        f_equal. apply (IH r ((l ++ [z]) ++ [x])); [rewrite Ep, <- !app_assoc; reflexivity|rewrite Er, <- !app_assoc; reflexivity|]. destruct l; discriminate. }
  symmetry. apply (G path rest [a]); [reflexivity|reflexivity|discriminate].
Qed.
