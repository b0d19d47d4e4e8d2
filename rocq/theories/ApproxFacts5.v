(** Piecewise cubics: fitted values. *)
From Verif Require Import Base BaseFacts VecFacts NumpyModel NumpyFacts LsqModel LsqSpec LsqFacts LsqProps GeomModel MatchModel ApproxModel ApproxSpec ApproxFacts ApproxFacts2 ApproxFacts4.

(** ** The design matrix *)

Fixpoint fitted_c (params : list R) (cs : list (list coeffs)) : list R :=
  match cs, params with
  | c :: cs', f0 :: d0 :: f1 :: d1 :: rest =>
      map (fun k => f0 * cf0 k + d0 * cf1 k + f1 * cf2 k + d1 * cf3 k) c ++ fitted_c (f1 :: d1 :: rest) cs'
  | _, _ => []
  end.

Lemma dot_pad n r x : dot (repeat 0 n ++ r) x = dot r (skipn n x).
Proof.
  revert x. induction n as [|n IH]; intros [|a x]; cbn [repeat app dot skipn]; try reflexivity.
  - destruct r; reflexivity.
  - rewrite IH. ring.
Qed.
Lemma dot_zero_pad n x : dot (repeat 0 n) x = 0.
Proof. rewrite dot_comm. apply dot_zeros_r. Qed.

Lemma design_row_dot n k c x f0 d0 f1 d1 rest : skipn (2 * k) x = f0 :: d0 :: f1 :: d1 :: rest ->
  dot (design_row n k c) x = f0 * cf0 c + d0 * cf1 c + f1 * cf2 c + d1 * cf3 c.
Proof.
  intro E. unfold design_row. rewrite dot_pad, E. cbn [dot app]. rewrite dot_zero_pad. ring.
Qed.

Lemma long_list {A} n (l : list A) : (n <= length l)%nat -> exists a b, l = a ++ b /\ length a = n.
Proof. intro L. exists (firstn n l), (skipn n l). split; [symmetry; apply firstn_skipn|]. rewrite firstn_length. lia. Qed.

Lemma design_from n x cs k : length x = (2 * n + 2)%nat -> (k + length cs)%nat = n ->
  mv (concat (map (fun kc => map (design_row n (fst kc)) (snd kc)) (combine (seq k (length cs)) cs))) x = fitted_c (skipn (2 * k) x) cs.
Proof.
  intro LX. revert k. induction cs as [|c cs IH]; intros k LK; [reflexivity|]. cbn [length seq combine map concat fst snd].
  cbn in LK. assert ((4 <= length (skipn (2 * k) x))%nat) as L4 by (rewrite skipn_length; lia).
  destruct (skipn (2 * k) x) as [|f0 [|d0 [|f1 [|d1 rest]]]] eqn:E; cbn in L4; try lia.
  cbn [fitted_c]. unfold mv in *. rewrite map_app, map_map. f_equal.
  - apply map_ext. intro q. apply (design_row_dot n k q x _ _ _ _ _ E).
  - rewrite IH by lia. f_equal. replace (2 * S k)%nat with (S (S (2 * k))) by lia.
    apply (skipn_next _ _ d0). apply (skipn_next _ _ f0). exact E.
Qed.

Lemma design_fitted x cs : length x = (2 * length cs + 2)%nat -> mv (design_matrix cs) x = fitted_c x cs.
Proof. intro L. apply (design_from (length cs) x cs 0); [exact L|reflexivity]. Qed.

Lemma fitted_pieces ps cs : Forall2 piece_coeffs ps cs -> forall params, fitted_c params cs = fitted params ps.
Proof.
  induction 1 as [|p c ps cs C F IH]; intro params; [reflexivity|]. destruct params as [|f0 [|d0 [|f1 [|d1 rest]]]]; try reflexivity.
  cbn [fitted_c fitted]. rewrite IH. f_equal. unfold piece_coeffs, coefficients_for, p_last in *.
  generalize (last (p_obs p) 0) C. clear. intro e. revert c. induction (p_obs p) as [|x l IHl]; intros c C.
  - cbn in C. injection C as <-. reflexivity.
  - cbn in C. apply bind_ok in C as [q [Q C]]. apply bind_ok in C as [cs [CS C]]. injection C as <-. cbn.
    destruct (compute_c_hermite x (p_start p) e q f0 d0 f1 d1 Q) as [_ ->]. f_equal. apply IHl, CS.
Qed.

Lemma pieces_nonzero ps cs : Forall2 piece_coeffs ps cs -> Forall (fun p => p_obs p <> [] -> p_start p <> p_last p) ps.
Proof.
  induction 1 as [|p c ps cs C F IH]; constructor; [|exact IH]. intro N. unfold piece_coeffs, coefficients_for, p_last in *.
  destruct (p_obs p) as [|x l]; [congruence|]. cbn [mapM] in C. apply bind_ok in C as [q [Q _]].
  destruct (compute_c_hermite x (p_start p) (last (x :: l) 0) q 0 0 0 0 Q) as [NE _]. exact NE.
Qed.

(** ** Shifting the origin *)

Definition shift (d : R) (p : piece) : piece := mkPiece (p_start p + d) (map (fun x => x + d) (p_obs p)).

Lemma hd_map (f : R -> R) l : l <> [] -> hd 0 (map f l) = f (hd 0 l).
Proof. destruct l; [congruence|reflexivity]. Qed.
Lemma last_map (f : R -> R) l : l <> [] -> last (map f l) 0 = f (last l 0).
Proof. intro N. destruct (@exists_last _ l N) as [l' [x ->]]. rewrite map_app. cbn. rewrite !last_snoc. reflexivity. Qed.

Lemma closed_shift size mo d l : l <> [] -> (closed_at size mo (map (fun x => x + d) l) <-> closed_at size mo l).
Proof.
  intro N. unfold closed_at. rewrite map_length, hd_map, last_map by exact N. cbn. split; intros [A B]; split; try assumption; lra.
Qed.
Lemma map_split {A B} (f : A -> B) l l' m : map f l = l' ++ m -> exists a b, l = a ++ b /\ l' = map f a /\ m = map f b.
Proof.
  revert l'. induction l as [|x l IH]; intros l' E.
  - exists [], []. symmetry in E. apply app_eq_nil in E as [-> ->]. repeat split.
  - destruct l' as [|y l']; [exists [], (x :: l); cbn in E; subst; repeat split|]. cbn in E. injection E as <- E.
    destruct (IH l' E) as [a [b [-> [-> ->]]]]. exists (x :: a), b. repeat split.
Qed.
Lemma open_shift size mo d l : open_before size mo l -> open_before size mo (map (fun x => x + d) l).
Proof.
  intros O l' m N M E. apply map_split in E as [a [b [-> [-> ->]]]]. assert (a <> []) by (intros ->; apply N; reflexivity).
  rewrite closed_shift by assumption. apply (O a b); [assumption| |reflexivity]. intros ->. apply M. reflexivity.
Qed.
Lemma first_shift size mo d l : l <> [] -> closed_first size mo l -> closed_first size mo (map (fun x => x + d) l).
Proof. intros N [C O]. split; [apply closed_shift; assumption|apply open_shift; exact O]. Qed.

Lemma map_not_nil {A B} (f : A -> B) l : l <> [] -> map f l <> [].
Proof. destruct l; [congruence|discriminate]. Qed.

Lemma pieces_shift size mo d ps : pieces_of size mo ps -> pieces_of size mo (map (shift d) ps).
Proof.
  induction 1 as [p N L O S|p l m E NL NM C L S|p ps N C S H IH]; cbn [map].
  - apply pieces_last; cbn; [apply map_not_nil, N|rewrite map_length; exact L|apply open_shift, O|].
    unfold p_first. cbn. rewrite hd_map, S by exact N. reflexivity.
  - apply pieces_merged with (map (fun x => x + d) l) (map (fun x => x + d) m); cbn.
    + rewrite E, map_app. reflexivity.
    + apply map_not_nil, NL.
    + apply map_not_nil, NM.
    + apply first_shift; assumption.
    + rewrite map_length. exact L.
    + rewrite last_map, S by exact NL. reflexivity.
  - apply pieces_next; cbn; [apply map_not_nil, N|apply first_shift; assumption| |exact IH].
    unfold p_first. cbn. rewrite hd_map, S by exact N. reflexivity.
Qed.

Lemma pieces_obs size mo ps : pieces_of size mo ps -> Forall (fun p => p_obs p <> []) ps /\ ps <> [].
Proof.
  induction 1 as [p N L O S|p l m E NL NM C L S|p ps N C S H [IH _]]; split; try discriminate; repeat constructor; try assumption.
  rewrite E. destruct l; [congruence|discriminate].
Qed.

Lemma hermite_shift a b f0 d0 f1 d1 x d : hermite (a + d) (b + d) f0 d0 f1 d1 (x + d) = hermite a b f0 d0 f1 d1 x.
Proof. unfold hermite. replace (b + d - (a + d)) with (b - a) by ring. replace (x + d - (a + d)) with (x - a) by ring. reflexivity. Qed.

Lemma fitted_shift d ps : Forall (fun p => p_obs p <> []) ps -> forall params, fitted params (map (shift d) ps) = fitted params ps.
Proof.
  induction 1 as [|p ps N F IH]; intro params; [reflexivity|]. destruct params as [|f0 [|d0 [|f1 [|d1 rest]]]]; try reflexivity.
  cbn [map fitted]. rewrite IH. f_equal. unfold shift, p_last. cbn [p_start p_obs]. rewrite last_map, map_map by exact N.
  apply map_ext. intro x. apply hermite_shift.
Qed.

Lemma compute_c_shift x a b d : compute_c (x + d) (a + d) (b + d) = compute_c x a b.
Proof. unfold compute_c. replace (b + d - (a + d)) with (b - a) by ring. replace (x + d - (a + d)) with (x - a) by ring. reflexivity. Qed.
Lemma coeffs_shift d p c : p_obs p <> [] -> piece_coeffs p c -> piece_coeffs (shift d p) c.
Proof.
  intros N H. unfold piece_coeffs, coefficients_for in *. cbn [shift p_start p_obs]. rewrite last_map by exact N.
  rewrite <- H. generalize (last (p_obs p) 0). intro e. clear. induction (p_obs p) as [|x l IH]; [reflexivity|]. cbn [map mapM].
  rewrite compute_c_shift, IH. reflexivity.
Qed.

(** ** The whole approximation *)

Lemma cubic_fit_spec f size mo steps s : cubic_fit f size mo = Ok (steps, s) -> exists ps,
  concat (map p_obs ps) = f /\ pieces_of size mo ps /\ steps = map p_first ps ++ [last f 0] /\
  length (coefficients_rev s) = length ps /\ Forall (fun p => p_start p <> p_last p) ps /\
  (forall params, fitted_c params (rev (coefficients_rev s)) = fitted params ps) /\
  Forall2 piece_coeffs ps (rev (coefficients_rev s)).
Proof.
  intro H. unfold cubic_fit in H. apply bind_ok in H as [f0 [F0 H]]. apply bind_ok in H as [la [LA H]].
  destruct (Reqb size 0); [discriminate|]. destruct (length _ =? 0)%nat; [discriminate|]. apply bind_ok in H as [s' [L H]].
  injection H as <- <-.
  assert (f <> []) as NF by (intros ->; discriminate).
  set (v := map (fun x => x - f0) f) in *. assert (v <> []) as NV by (apply map_not_nil, NF).
  destruct (loop_spec v size mo s' NV L) as [ps [C [P [T [_ G]]]]].
  pose proof (pieces_obs size mo ps P) as [NO _].
  exists (map (shift f0) ps). split; [|split; [apply pieces_shift, P|split; [|split; [|split; [|split]]]]].
  - rewrite map_map. replace (map (fun x => p_obs (shift f0 x)) ps) with (map (map (fun x => x + f0)) (map p_obs ps)) by (rewrite map_map; reflexivity).
    rewrite <- concat_map, C. unfold v. rewrite map_map. rewrite <- (map_id f) at 2. apply map_ext. intro x. ring.
  - rewrite T, map_app, map_map. cbn [map]. f_equal.
    + rewrite map_map. apply map_ext_in. intros p Ip. rewrite Forall_forall in NO. unfold shift, p_first. cbn. rewrite hd_map; [reflexivity|apply NO, Ip].
    + assert (la = last f 0 - f0) as ->; [|f_equal; ring].
      destruct (@exists_last _ f NF) as [f' [z EF]]. rewrite EF, last_snoc. unfold v in LA. rewrite EF, map_app in LA.
      assert (np_get (map (fun x => x - f0) f' ++ [z - f0]) (-1) = Ok (z - f0)) as Q.
      { unfold np_get, py_index. rewrite app_length. cbn [length]. cbn [Z.leb]. destruct (Z.leb_spec 0 (-1)); [lia|].
        destruct (Z.leb_spec (- Z.of_nat (length (map (fun x => x - f0) f') + 1)) (-1)); [|lia].
        replace (Z.to_nat (-1 + Z.of_nat (length (map (fun x => x - f0) f') + 1))) with (length (map (fun x => x - f0) f')) by lia.
        rewrite nth_error_app2 by lia. rewrite Nat.sub_diag. reflexivity. }
      cbn in LA, Q. rewrite Q in LA. injection LA as <-. reflexivity.
  - rewrite map_length. clear - G. rewrite <- rev_length. induction G; cbn; congruence.
  - pose proof (pieces_nonzero _ _ G) as NZ. clear - NZ NO. induction ps as [|p ps IH]; cbn; constructor.
    + inversion NZ as [|? ? Z _]; subst. inversion NO as [|? ? N _]; subst. unfold shift, p_last in *. cbn. rewrite last_map by exact N.
      specialize (Z N). lra.
    + apply IH; [apply (Forall_inv_tail NO)|apply (Forall_inv_tail NZ)].
  - intro params. rewrite (fitted_pieces _ _ G), fitted_shift by exact NO. reflexivity.
  - clear - G NO. revert NO. induction G as [|p c ps cs C G IH]; intro NO; cbn [map]; constructor.
    + apply coeffs_shift; [apply (Forall_inv NO)|exact C].
    + apply IH, (Forall_inv_tail NO).
Qed.

Lemma cubic_approx_spec solve f vals size mo ap : solve_contract solve -> cubic_approx solve f vals size mo = Ok ap -> exists ps,
  concat (map p_obs ps) = f /\ pieces_of size mo ps /\ interval_steps ap = map p_first ps ++ [last f 0] /\
  length (parameters ap) = (2 * length ps + 2)%nat /\ Forall (fun p => p_start p <> p_last p) ps /\
  est_obs ap = fitted (parameters ap) ps /\ length (est_obs ap) = length vals /\ residuals ap = vminus (est_obs ap) vals /\
  (forall y, length y = (2 * length ps + 2)%nat -> sum_square (residuals ap) <= sum_square (vminus (fitted y ps) vals)) /\
  (forall z, length z = (2 * length ps + 2)%nat -> vals = fitted z ps -> est_obs ap = vals).
Proof.
  intros SC H. unfold cubic_approx in H. apply bind_ok in H as [[steps s] [F H]]. apply bind_ok in H as [[[x l] r] [S H]]. injection H as <-.
  destruct (cubic_fit_spec f size mo steps s F) as [ps [C [P [ST [LC [NZ [FI _]]]]]]]. exists ps.
  assert (length (rev (coefficients_rev s)) = length ps) as LR by (rewrite rev_length; exact LC). rewrite LR in S.
  destruct (C72_unweighted solve _ _ _ _ _ _ SC (or_intror S)) as [LX [EL [ER [OPT EX]]]].
  destruct (sparse_spec _ _ _ _ _ _ _ SC S) as [_ [_ [_ [LA _]]]].
  cbn [interval_steps parameters est_obs residuals]. split; [exact C|]. split; [exact P|]. split; [exact ST|]. split; [exact LX|]. split; [exact NZ|].
  assert (forall y, length y = (2 * length ps + 2)%nat -> mv (design_matrix (rev (coefficients_rev s))) y = fitted y ps) as D.
  { intros y LY. rewrite design_fitted by lia. apply FI. }
  split; [rewrite EL; apply D, LX|]. split; [rewrite EL, mv_length; exact LA|]. split; [exact ER|]. split.
  - intros y LY. rewrite <- (D y LY). apply OPT, LY.
  - intros z LZ E. apply (EX z LZ). rewrite (D z LZ). exact E.
Qed.
