(** Piecewise cubics. *)
From Verif Require Import Base BaseFacts VecFacts NumpyModel NumpyFacts LsqModel LsqSpec LsqFacts GeomModel MatchModel ApproxModel ApproxSpec ApproxFacts ApproxFacts2.

(** ** Basis functions *)

Lemma compute_c_ok x a b : a <> b -> exists c, compute_c x a b = Ok c.
Proof. intro N. unfold compute_c, Reqb. destruct (Req_EM_T (b - a) 0); [lra|]. eexists. reflexivity. Qed.

Lemma compute_c_hermite x a b c f0 d0 f1 d1 : compute_c x a b = Ok c ->
  a <> b /\ f0 * cf0 c + d0 * cf1 c + f1 * cf2 c + d1 * cf3 c = hermite a b f0 d0 f1 d1 x.
Proof.
  unfold compute_c, Reqb. destruct (Req_EM_T (b - a) 0) as [|N]; [discriminate|]. intro H. injection H as <-. split; [lra|].
  unfold hermite. cbn [cf0 cf1 cf2 cf3]. field. lra.
Qed.

(** ** The loop *)

Lemma last_snoc (l : list R) p d : last (l ++ [p]) d = p.
Proof. apply last_last. Qed.

Lemma np_get_middle {A} (l : list A) x r : np_get (l ++ x :: r) (Z.of_nat (length l)) = Ok x.
Proof. apply np_get_nat. rewrite nth_error_app2 by lia. rewrite Nat.sub_diag. reflexivity. Qed.

Definition coefficients_for (start : R) (l : list R) : result (list coeffs) := mapM (fun x => compute_c x start (last l 0)) l.

Section Loop.
  Variable v : list R.
  Variable size : R.
  Variable mo : nat.

  Definition closed_piece (p : piece) : Prop := p_obs p <> [] /\ closed_first size mo (p_obs p) /\ p_start p = p_first p.
  Definition piece_coeffs (p : piece) (c : list coeffs) : Prop := coefficients_for (p_start p) (p_obs p) = Ok c.

  (** State after the first [i] observations, of which the ones in [int_list] are not yet in an interval *)
  Definition loop_inv (i : nat) (s : cubic_state) : Prop := exists ps,
    concat (map p_obs ps) ++ int_list s = firstn i v /\
    int_start_idx s = length (concat (map p_obs ps)) /\
    Forall closed_piece ps /\
    rev (t_final_rev s) = map p_first ps /\
    rev (intervals_rev s) = map p_obs ps /\
    Forall2 piece_coeffs ps (rev (coefficients_rev s)) /\
    (forall l' m, l' <> [] -> int_list s = l' ++ m -> ~ closed_at size mo l').

  Definition loop_end (s : cubic_state) : Prop := exists ps,
    concat (map p_obs ps) = v /\ pieces_of size mo ps /\
    rev (t_final_rev s) = map p_first ps /\ rev (intervals_rev s) = map p_obs ps /\ Forall2 piece_coeffs ps (rev (coefficients_rev s)).

  Lemma firstn_step i p rest : skipn i v = p :: rest -> firstn (i + 1) v = firstn i v ++ [p] /\ v = firstn i v ++ p :: rest /\ (i < length v)%nat.
  Proof.
    intro H. assert (v = firstn i v ++ p :: rest) as E by (rewrite <- H; symmetry; apply firstn_skipn).
    assert ((i < length v)%nat) as L.
    { destruct (le_lt_dec (length v) i) as [G|G]; [|exact G]. rewrite skipn_all2 in H by exact G. discriminate. }
    split; [|split; [exact E|exact L]]. set (a := firstn i v) in *. assert (length a = i) as LA by (unfold a; rewrite firstn_length; lia).
    rewrite E. rewrite firstn_app, firstn_all2 by lia. replace (i + 1 - length a)%nat with 1%nat by lia. reflexivity.
  Qed.

  Lemma snoc_open l p : (forall l' m, l' <> [] -> l = l' ++ m -> ~ closed_at size mo l') -> open_before size mo (l ++ [p]).
  Proof.
    intros O l' m N M E. destruct (@exists_last _ m M) as [m' [q ->]]. rewrite app_assoc in E. apply app_inj_tail in E as [E _].
    apply (O l' m' N E).
  Qed.
  Lemma snoc_split (l l' m : list R) p : l' <> [] -> l ++ [p] = l' ++ m -> (m = [] /\ l' = l ++ [p]) \/ exists m', m = m' ++ [p] /\ l = l' ++ m'.
  Proof.
    intros N E. destruct m as [|x m] using rev_ind; [left; split; [reflexivity|]; rewrite app_nil_r in E; congruence|].
    right. rewrite app_assoc in E. apply app_inj_tail in E as [-> ->]. exists m. split; reflexivity.
  Qed.

  Lemma hd_snoc (l : list R) p : exists r, l ++ [p] = hd 0 (l ++ [p]) :: r.
  Proof. destruct l; cbn; eexists; reflexivity. Qed.

  Lemma start_found i s p rest ps : skipn i v = p :: rest -> concat (map p_obs ps) ++ int_list s = firstn i v ->
    int_start_idx s = length (concat (map p_obs ps)) -> np_get v (Z.of_nat (int_start_idx s)) = Ok (hd 0 (int_list s ++ [p])).
  Proof.
    intros SK E I. destruct (firstn_step i p rest SK) as [_ [V _]]. rewrite I. rewrite V at 1. rewrite <- E, <- app_assoc.
    destruct (hd_snoc (int_list s) p) as [r R]. replace (int_list s ++ p :: rest) with ((int_list s ++ [p]) ++ rest) by (rewrite <- app_assoc; reflexivity).
    rewrite R. cbn [hd]. rewrite <- R at 1. rewrite R. apply np_get_middle.
  Qed.

  Lemma step_inner i s p rest s' : skipn i v = p :: rest -> rest <> [] -> loop_inv i s ->
    cubic_step v size mo i p s = Ok s' -> loop_inv (i + 1) s'.
  Proof.
    intros SK NR [ps [E [ST [CL [TF [IV [CF OP]]]]]]] H. destruct (firstn_step i p rest SK) as [F [V L]].
    unfold cubic_step in H. rewrite (start_found i s p rest ps SK E ST) in H. cbn [bind] in H.
    assert ((i =? length v - 1)%nat = false) as NL.
    { apply Nat.eqb_neq. rewrite V, app_length, firstn_length. destruct rest; [congruence|]. cbn. lia. }
    rewrite NL in H. rewrite orb_false_r in H. cbn [andb] in H.
    set (il := int_list s ++ [p]) in *. set (start := hd 0 il) in *.
    destruct ((mo <=? length il)%nat && Rleb size (p - start)) eqn:C.
    - apply bind_ok in H as [c [HC H]]. injection H as <-. apply andb_true_iff in C as [C1 C2]. apply Nat.leb_le in C1.
      unfold Rleb in C2. destruct (Rle_dec size (p - start)) as [C2'|]; [|discriminate].
      assert (last il 0 = p) as LA by apply last_snoc.
      exists (ps ++ [mkPiece start il]). cbn [int_list int_start_idx t_final_rev intervals_rev coefficients_rev rev].
      rewrite !map_app, concat_app. cbn [map concat p_obs]. rewrite !app_nil_r.
      split; [rewrite F, <- E; unfold il; rewrite app_assoc; reflexivity|]. split.
      { rewrite app_length. unfold il. rewrite app_length. cbn.
        assert (length (concat (map p_obs ps) ++ int_list s) = i) as LL by (rewrite E, firstn_length; lia). rewrite app_length in LL. lia. }
      split; [|split; [rewrite TF; reflexivity|split; [rewrite IV; reflexivity|split]]].
      + apply Forall_app. split; [exact CL|]. constructor; [|constructor]. split; [cbn; unfold il; destruct (int_list s); discriminate|].
        split; [|reflexivity]. cbn. split; [|apply snoc_open; intros l' m N Q; apply (OP l' m N Q)].
        split; [exact C1|]. rewrite LA. exact C2'.
      + apply Forall2_app; [exact CF|]. constructor; [|constructor]. unfold piece_coeffs, coefficients_for. cbn. rewrite LA. exact HC.
      + intros l' m N Q. symmetry in Q. apply app_eq_nil in Q as [Q _]. congruence.
    - injection H as <-. exists ps. cbn [int_list int_start_idx t_final_rev intervals_rev coefficients_rev].
      split; [rewrite F, <- E; unfold il; rewrite app_assoc; reflexivity|]. split; [exact ST|]. split; [exact CL|]. split; [exact TF|]. split; [exact IV|].
      split; [exact CF|]. intros l' m N Q. apply snoc_split in Q as [[-> Q]|[m' [-> Q]]]; [|apply (OP l' m' N Q)|exact N].
      intros [C1 C2]. subst l'. fold il in C1, C2. apply Nat.leb_le in C1. rewrite C1 in C. cbn in C.
      unfold Rleb in C. destruct (Rle_dec size (p - start)) as [|NC]; [discriminate|]. apply NC.
      replace (last il 0) with p in C2 by (symmetry; apply last_snoc). exact C2.
  Qed.

  Lemma pieces_closed ps tail : Forall closed_piece ps -> pieces_of size mo tail -> pieces_of size mo (ps ++ tail).
  Proof. induction 1 as [|p ps [N [C S]] F IH]; intro T; [exact T|]. cbn. apply pieces_next; auto. Qed.

  Lemma step_last i s p s' : skipn i v = [p] -> loop_inv i s -> cubic_step v size mo i p s = Ok s' -> loop_end s'.
  Proof.
    intros SK [ps [E [ST [CL [TF [IV [CF OP]]]]]]] H. destruct (firstn_step i p [] SK) as [F [V L]].
    assert (v = concat (map p_obs ps) ++ int_list s ++ [p]) as VV by (rewrite V, <- E, <- app_assoc; reflexivity).
    unfold cubic_step in H. rewrite (start_found i s p [] ps SK E ST) in H. cbn [bind] in H.
    assert ((i =? length v - 1)%nat = true) as NL.
    { apply Nat.eqb_eq. rewrite V, app_length, firstn_length. cbn. lia. }
    rewrite NL in H. rewrite orb_true_r in H. cbn [andb] in H.
    set (il := int_list s ++ [p]) in *. set (start := hd 0 il) in *.
    assert (last il 0 = p) as LA by apply last_snoc.
    assert (il <> []) as NI by (unfold il; destruct (int_list s); discriminate).
    destruct (Nat.ltb_spec (length il) mo) as [SM|SM].
    - apply bind_ok in H as [ts [HT H]]. destruct (intervals_rev s) as [|l ls] eqn:IR; [discriminate|].
      apply bind_ok in H as [c [HC H]]. injection H as <-.
      destruct ps as [|q ps _] using rev_ind; [apply (f_equal (@length _)) in IV; cbn in IV; rewrite app_length in IV; cbn in IV; lia|].
      rewrite map_app in IV. cbn in IV. apply app_inj_tail in IV as [IV LQ].
      apply Forall_app in CL as [CL CQ]. apply Forall_inv in CQ as [NQ [[CQ1 CQ2] SQ]]. subst l.
      assert (ts = last (p_obs q) 0) as TS.
      { destruct (@exists_last _ (p_obs q) NQ) as [lq [z EZ]]. rewrite EZ, last_snoc.
        rewrite map_app, concat_app in ST. cbn in ST. rewrite app_nil_r, EZ in ST.
        replace (Z.of_nat (int_start_idx s) - 1)%Z with (Z.of_nat (length (concat (map p_obs ps) ++ lq))) in HT.
        2:{ rewrite ST, !app_length. cbn. lia. }
        rewrite VV, map_app, concat_app in HT. cbn in HT. rewrite app_nil_r, EZ in HT.
        replace (((concat (map p_obs ps) ++ lq ++ [z]) ++ il)) with ((concat (map p_obs ps) ++ lq) ++ z :: il) in HT by (rewrite <- !app_assoc; reflexivity).
        rewrite np_get_middle in HT. congruence. }
      exists (ps ++ [mkPiece ts (p_obs q ++ il)]). cbn [t_final_rev intervals_rev coefficients_rev rev].
      rewrite !map_app, concat_app in *. cbn [map concat p_obs] in *. rewrite !app_nil_r in *.
      split; [rewrite VV, <- app_assoc; reflexivity|]. split.
      { apply pieces_closed; [exact CL|]. apply pieces_merged with (p_obs q) il; try assumption; try reflexivity. split; assumption. }
      split; [rewrite TF; f_equal; unfold p_first; cbn; destruct (p_obs q); [congruence|reflexivity]|].
      split; [rewrite IV; reflexivity|].
      destruct (coefficients_rev s) as [|c0 cs].
      { apply Forall2_app_inv_l in CF as [x1 [x2 [_ [G E2]]]]. destruct x2; [inversion G|]. destruct x1; discriminate E2. }
      cbn [rev tl] in *. apply Forall2_app_inv_l in CF as [x1 [x2 [G1 [G2 E2]]]].
      destruct x2 as [|cq [|]]; [inversion G2| |exfalso; inversion G2 as [|? ? ? ? _ G3]; inversion G3].
      apply app_inj_tail in E2 as [-> _]. apply Forall2_app; [exact G1|]. constructor; [|constructor].
      unfold piece_coeffs, coefficients_for. cbn [p_obs p_start]. replace (last (p_obs q ++ il) 0) with p by (unfold il; rewrite app_assoc, last_snoc; reflexivity). exact HC.
    - apply bind_ok in H as [c [HC H]]. injection H as <-.
      exists (ps ++ [mkPiece start il]). cbn [t_final_rev intervals_rev coefficients_rev rev].
      rewrite !map_app, concat_app. cbn [map concat p_obs]. rewrite !app_nil_r.
      split; [rewrite VV; reflexivity|]. split.
      { apply pieces_closed; [exact CL|]. apply pieces_last; cbn; try assumption; try reflexivity. apply snoc_open. exact OP. }
      split; [rewrite TF; reflexivity|]. split; [rewrite IV; reflexivity|]. apply Forall2_app; [exact CF|]. constructor; [|constructor].
      unfold piece_coeffs, coefficients_for. cbn. rewrite LA. exact HC.
  Qed.

  Lemma loop_spec_from rest : forall i s s', rest <> [] -> skipn i v = rest -> loop_inv i s ->
    cubic_loop v size mo i rest s = Ok s' -> loop_end s'.
  Proof.
    induction rest as [|p rest IH]; intros i s s' N SK I H; [congruence|]. cbn [cubic_loop] in H. apply bind_ok in H as [s1 [H1 H]].
    destruct rest as [|q rest].
    - cbn in H. injection H as <-. apply (step_last i s p s1 SK I H1).
    - apply (IH (i + 1)%nat s1 s'); [discriminate| |apply (step_inner i s p (q :: rest) s1 SK ltac:(discriminate) I H1)|exact H].
      rewrite Nat.add_1_r. apply (skipn_next _ _ _ _ SK).
  Qed.

  Lemma loop_spec s : v <> [] -> cubic_loop v size mo 0 v (mkCubic [] 0 [] [] []) = Ok s -> loop_end s.
  Proof.
    intros N H. apply (loop_spec_from v 0 (mkCubic [] 0 [] [] []) s N eq_refl); [|exact H].
    exists []. cbn. repeat split; try constructor. intros l' m Nl Q. symmetry in Q. apply app_eq_nil in Q as [Q _]. congruence.
  Qed.
End Loop.

(** ** Success *)
Section Total.
  Variable v : list R.
  Variable size : R.
  Variable mo : nat.
  Hypothesis inc : forall i j x y, (i < j)%nat -> nth_error v i = Some x -> nth_error v j = Some y -> x < y.
  Hypothesis two : (2 <= mo)%nat.
  Hypothesis enough : (mo <= length v)%nat.

  Lemma coeffs_all start e l : start <> e -> exists c, mapM (fun x => compute_c x start e) l = Ok c.
  Proof. intro N. apply mapM_all. intros x _. apply compute_c_ok, N. Qed.

  Lemma hd_before l p rest pre : (1 <= length l)%nat -> v = pre ++ (l ++ [p]) ++ rest -> hd 0 (l ++ [p]) < p.
  Proof.
    intros L V. destruct l as [|x l]; [cbn in L; lia|]. cbn [app hd]. apply (inc (length pre) (length pre + S (length l))); [lia| |].
    - rewrite V, nth_error_app2 by lia. rewrite Nat.sub_diag. reflexivity.
    - rewrite V, nth_error_app2 by lia. replace (length pre + S (length l) - length pre)%nat with (S (length l)) by lia.
      cbn. rewrite <- app_assoc, nth_error_app2 by lia. rewrite Nat.sub_diag. reflexivity.
  Qed.

  Lemma step_total i s p rest : skipn i v = p :: rest -> loop_inv v size mo i s -> exists s', cubic_step v size mo i p s = Ok s'.
  Proof.
    intros SK [ps [E [ST [CL [TF [IV [CF OP]]]]]]]. destruct (firstn_step v i p rest SK) as [F [V L]].
    assert (v = concat (map p_obs ps) ++ (int_list s ++ [p]) ++ rest) as VV by (rewrite V at 1; rewrite <- E, <- !app_assoc; reflexivity).
    unfold cubic_step. rewrite (start_found v i s p rest ps SK E ST). cbn [bind].
    destruct (_ || _) eqn:C; [|eexists; reflexivity].
    destruct ((i =? length v - 1)%nat && (length (int_list s ++ [p]) <? mo)%nat) eqn:SM.
    - apply andb_true_iff in SM as [LAST SM]. apply Nat.ltb_lt in SM. apply Nat.eqb_eq in LAST.
      destruct ps as [|q ps _] using rev_ind.
      { exfalso. cbn in VV. assert (length rest = 0)%nat as LR.
        { assert (length (skipn i v) = length (p :: rest)) as Q by (rewrite SK; reflexivity). rewrite skipn_length in Q. cbn in Q. lia. }
        destruct rest; [|discriminate]. rewrite app_nil_r in VV. rewrite VV in enough. lia. }
      apply Forall_app in CL as [CL CQ]. apply Forall_inv in CQ as [NQ _].
      destruct (@exists_last _ (p_obs q) NQ) as [lq [z EZ]].
      rewrite map_app, concat_app in ST, VV. cbn in ST, VV. rewrite app_nil_r, EZ in ST, VV.
      assert (np_get v (Z.of_nat (int_start_idx s) - 1) = Ok z) as HT.
      { replace (Z.of_nat (int_start_idx s) - 1)%Z with (Z.of_nat (length (concat (map p_obs ps) ++ lq))).
        2:{ rewrite ST, !app_length. cbn. lia. }
        rewrite VV. replace ((concat (map p_obs ps) ++ lq ++ [z]) ++ (int_list s ++ [p]) ++ rest)
          with ((concat (map p_obs ps) ++ lq) ++ z :: (int_list s ++ [p]) ++ rest) by (rewrite <- !app_assoc; reflexivity).
        apply np_get_middle. }
      rewrite HT. cbn [bind]. destruct (intervals_rev s) as [|l ls].
      { exfalso. rewrite map_app in IV. cbn in IV. apply (f_equal (@length _)) in IV. rewrite app_length in IV. cbn in IV. lia. }
      assert (z < p) as ZP.
      { apply (hd_before (z :: int_list s) p rest (concat (map p_obs ps) ++ lq)); [cbn; lia|].
        rewrite VV, <- !app_assoc. reflexivity. }
      destruct (coeffs_all z p (l ++ int_list s ++ [p])) as [c HC]; [lra|]. rewrite HC. cbn. eexists. reflexivity.
    - assert ((2 <= length (int_list s ++ [p]))%nat) as L2.
      { apply andb_false_iff in SM. apply orb_true_iff in C as [C|C].
        - apply andb_true_iff in C as [C _]. apply Nat.leb_le in C. lia.
        - destruct SM as [SM|SM]; [congruence|]. apply Nat.ltb_ge in SM. lia. }
      rewrite app_length in L2. cbn in L2.
      assert (hd 0 (int_list s ++ [p]) < p) as HP by (apply (hd_before _ p rest (concat (map p_obs ps))); [lia|exact VV]).
      destruct (coeffs_all (hd 0 (int_list s ++ [p])) p (int_list s ++ [p])) as [c HC]; [lra|]. rewrite HC. cbn. eexists. reflexivity.
  Qed.

  Lemma loop_total_from rest : forall i s, skipn i v = rest -> loop_inv v size mo i s -> exists s', cubic_loop v size mo i rest s = Ok s'.
  Proof.
    induction rest as [|p rest IH]; intros i s SK I; [exists s; reflexivity|]. cbn [cubic_loop].
    destruct (step_total i s p rest SK I) as [s1 H1]. rewrite H1. cbn [bind].
    destruct rest as [|q rest]; [exists s1; reflexivity|].
    apply IH; [rewrite Nat.add_1_r; apply (skipn_next _ _ _ _ SK)|].
    apply (step_inner v size mo i s p (q :: rest) s1 SK ltac:(discriminate) I H1).
  Qed.

  Lemma loop_total : exists s, cubic_loop v size mo 0 v (mkCubic [] 0 [] [] []) = Ok s.
  Proof.
    apply loop_total_from; [reflexivity|]. exists []. cbn. repeat split; try constructor.
    intros l' m Nl Q. symmetry in Q. apply app_eq_nil in Q as [Q _]. congruence.
  Qed.
End Total.

(** Too few observations: the loop reaches the last one without a closed interval. *)
Lemma loop_few v size mo : v <> [] -> (length v < mo)%nat -> cubic_loop v size mo 0 v (mkCubic [] 0 [] [] []) = Err IndexError.
Proof.
  intros N L.
  assert (forall rest pre, rest <> [] -> v = pre ++ rest -> cubic_loop v size mo (length pre) rest (mkCubic pre 0 [] [] []) = Err IndexError) as G.
  { induction rest as [|p rest IH]; intros pre NR V; [congruence|]. cbn [cubic_loop]. unfold cubic_step. cbn [int_start_idx int_list].
    assert (exists st, np_get v (Z.of_nat 0) = Ok st) as [st ->].
    { destruct v as [|x v']; [congruence|]. exists x. apply np_get_nat. reflexivity. }
    cbn [bind]. assert ((length (pre ++ [p]) <= length v)%nat) as LE by (rewrite V, !app_length; cbn; lia).
    destruct (Nat.leb_spec mo (length (pre ++ [p]))); [lia|]. cbn [andb orb].
    destruct rest as [|q rest].
    - assert ((length pre =? length v - 1)%nat = true) as ->.
      { apply Nat.eqb_eq. rewrite V, app_length. cbn. lia. }
      destruct (Nat.ltb_spec (length (pre ++ [p])) mo); [|lia]. cbn [andb].
      destruct (np_get v (Z.of_nat 0 - 1)) as [ts|e] eqn:E; [reflexivity|]. cbn. apply np_get_err in E. subst. reflexivity.
    - assert ((length pre =? length v - 1)%nat = false) as ->.
      { apply Nat.eqb_neq. rewrite V, app_length. cbn. lia. }
      cbn [bind]. replace (length pre + 1)%nat with (length (pre ++ [p])) by (rewrite app_length; reflexivity).
      apply IH; [discriminate|]. rewrite V, <- app_assoc. reflexivity. }
  apply (G v []); [exact N|reflexivity].
Qed.
