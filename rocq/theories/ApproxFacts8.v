(** Piecewise cubics: slopes, examples. *)
From Coq Require Import Sorting.Sorted.
From Coquelicot Require Import Coquelicot.
From Verif Require Import Base BaseFacts NumpyModel LsqModel LsqSpec LsqFacts GeomModel MatchModel ApproxModel ApproxSpec ApproxFacts ApproxFacts2 ApproxFacts4 ApproxFacts5 ApproxFacts6 ApproxFacts7.

Lemma hermite_slopes a b f0 d0 f1 d1 : a <> b ->
  derivable_pt_lim (hermite a b f0 d0 f1 d1) a d0 /\ derivable_pt_lim (hermite a b f0 d0 f1 d1) b d1.
Proof.
  intro N. split; apply is_derive_Reals; unfold hermite; auto_derive; try exact I; field; lra.
Qed.

(** ** Voxels *)

Lemma bin_ids_total coords size : coords <> [] -> 0 < size -> exists bs, bin_ids coords size = Ok bs.
Proof.
  intros N S. unfold bin_ids. destruct coords as [|x l]; [congruence|]. cbn [list_min list_max bind]. unfold Rleb.
  destruct (Rle_dec size 0); [lra|]. eexists. reflexivity.
Qed.
Lemma voxels_total pts size : pts <> [] -> 0 < size -> exists vs, create_voxels pts size = Ok vs.
Proof.
  intros N S. unfold create_voxels, voxel_bins.
  destruct (bin_ids_total (map vx pts) size) as [bx ->]; [destruct pts; [congruence|discriminate]|exact S|].
  destruct (bin_ids_total (map vy pts) size) as [b_y ->]; [destruct pts; [congruence|discriminate]|exact S|].
  destruct (bin_ids_total (map vz pts) size) as [bz ->]; [destruct pts; [congruence|discriminate]|exact S|].
  cbn [bind]. eexists. reflexivity.
Qed.

Lemma corner_unique pts lo lo' : lower_corner pts lo -> lower_corner pts lo' -> lo = lo'.
Proof.
  intros [L [[p [IP P]] [[q [IQ Q]] [r [IR R']]]]] [L' [[p' [IP' P']] [[q' [IQ' Q']] [r' [IR' R'']]]]].
  destruct lo as [x y z], lo' as [x' y' z']. cbn in *.
  pose proof (L _ IP'). pose proof (L _ IQ'). pose proof (L _ IR'). pose proof (L' _ IP). pose proof (L' _ IQ). pose proof (L' _ IR).
  f_equal; lra.
Qed.

Lemma voxel_of_cell pts size vs lo p b : create_voxels pts size = Ok vs -> lower_corner pts lo -> In p pts -> in_cell3 lo size p b ->
  exists ps, In (voxel_id b, ps) vs /\ In p ps.
Proof.
  intros V LC IP C. destruct (voxel_member pts size vs V) as [lo' [S [LC' [ND [PM [CT M]]]]]].
  rewrite <- (corner_unique _ _ _ LC LC') in M.
  apply (Permutation_in _ (Permutation_sym PM)) in IP. apply in_concat in IP as [ps [Ips Ip]].
  apply in_map_iff in Ips as [[id ps'] [E Iv]]. cbn in E. subst ps'. exists ps. split; [|exact Ip].
  apply (M id ps p Iv) in Ip as [_ [b' [C' <-]]]. rewrite (cell3_unique _ _ _ _ _ S C C'). exact Iv.
Qed.

Lemma share_iff pts size vs lo p q b c : create_voxels pts size = Ok vs -> lower_corner pts lo -> In p pts -> In q pts ->
  in_cell3 lo size p b -> in_cell3 lo size q c -> (share_voxel vs p q <-> voxel_id b = voxel_id c).
Proof.
  intros V LC IP IQ C D. destruct (voxel_member pts size vs V) as [lo' [S [LC' [ND [PM [CT M]]]]]].
  rewrite <- (corner_unique _ _ _ LC LC') in M. split.
  - intros [id [ps [I [J K]]]]. apply (M id ps p I) in J as [_ [b' [C' E]]]. apply (M id ps q I) in K as [_ [c' [D' E']]].
    rewrite (cell3_unique _ _ _ _ _ S C C'), (cell3_unique _ _ _ _ _ S D D'). congruence.
  - intro E. destruct (voxel_of_cell pts size vs lo p b V LC IP C) as [ps [I J]].
    destruct (voxel_of_cell pts size vs lo q c V LC IQ D) as [qs [I' J']]. exists (voxel_id b), ps. split; [exact I|]. split; [exact J|].
    rewrite <- E in I'. assert (ps = qs) as ->; [|exact J'].
    apply In_nth_error in I as [i I]. apply In_nth_error in I' as [j I'].
    assert (i = j) as ->.
    { apply (proj1 (NoDup_nth_error _) ND); [rewrite map_length; apply nth_error_Some; congruence|].
      rewrite !nth_error_map', I, I'. reflexivity. }
    congruence.
Qed.

Lemma cell_small lo size x k : 0 < size -> in_cell lo size x k -> x - lo <= 9 * size -> (k < 10)%nat.
Proof.
  intros S [A _] H. apply INR_lt. assert (INR k - 1 < 9) as Q.
  { apply Rmult_lt_reg_r with size; [exact S|]. lra. }
  replace (INR 10) with 10 by (cbn; lra). lra.
Qed.

(** ** A fitted example *)

(** a solver that only knows one candidate *)
Definition candidate (x : vec) (N : mat) (b : vec) : result vec :=
  if (if list_eq_dec Req_EM_T (mv N x) b then true else false) && (length x =? length b)%nat then Ok x else Err ValueError.
Lemma candidate_contract x : solve_contract (candidate x).
Proof.
  intros N b y H. unfold candidate in H. destruct (list_eq_dec Req_EM_T (mv N x) b) as [E|]; [|discriminate].
  destruct (Nat.eqb_spec (length x) (length b)) as [L|]; [|discriminate]. cbn in H. injection H as <-. split; assumption.
Qed.

Definition ex_f : list R := [0; 1; 3; 4; 5; 6; 8; 9].
Definition ex_pieces : list piece := [mkPiece 0 [0; 1; 3; 4]; mkPiece 5 [5; 6; 8; 9]].
Definition ex_params : vec := [0; 9/8; 9/2; 43/24; 9; 9/8].

Lemma short_open size mo l : (length l <= mo)%nat -> open_before size mo l.
Proof. intros L l' m N M E [C _]. rewrite E, app_length in L. destruct m; [congruence|]. cbn in L. lia. Qed.

Lemma ex_pieces_ok : pieces_of 4 4 ex_pieces.
Proof.
  apply pieces_next; [discriminate| |reflexivity|apply pieces_last; [discriminate|cbn; lia|apply short_open; cbn; lia|reflexivity]].
  split; [split; [cbn; lia|cbn; lra]|apply short_open; cbn; lia].
Qed.

Lemma increasing_sorted (l : list R) : Sorted Rlt l -> StronglySorted Rlt l.
Proof. apply Sorted_StronglySorted. intros x y z. apply Rlt_trans. Qed.

Lemma fit_total f size mo : StronglySorted Rlt f -> (2 <= mo)%nat -> (mo <= length f)%nat -> 0 < size -> exists steps s, cubic_fit f size mo = Ok (steps, s).
Proof.
  intros SO M L S. destruct f as [|f0 f']; [cbn in L; lia|]. set (f := f0 :: f') in *. unfold cubic_fit.
  assert (np_get f 0 = Ok f0) as -> by reflexivity. cbn [bind]. set (v := map (fun x => x - f0) f).
  assert (v <> []) as NV by discriminate. rewrite (np_get_minus1 v NV).
  assert (length v = length f) as LV by apply map_length.
  destruct (nth_error v (length v - 1)) as [la|] eqn:LA; [|apply nth_error_None in LA; cbn in LA; lia]. cbn [bind].
  unfold Reqb. destruct (Req_EM_T size 0); [lra|].
  assert (forall i j x y, (i < j)%nat -> nth_error v i = Some x -> nth_error v j = Some y -> x < y) as INC.
  { intros i j x y I X Y. unfold v in X, Y. rewrite nth_error_map' in X, Y.
    destruct (nth_error f i) as [x'|] eqn:EX; [|discriminate]. destruct (nth_error f j) as [y'|] eqn:EY; [|discriminate]. cbn in X, Y.
    injection X as <-. injection Y as <-. pose proof (sorted_nth f SO i j x' y' I EX EY). lra. }
  assert (0 < la) as POS.
  { apply (INC 0%nat (length v - 1)%nat); [lia| |exact LA]. unfold v, f. cbn. f_equal. ring. }
  assert (length (np_arange 0 la size) <> 0%nat) as NA.
  { unfold np_arange. rewrite map_length, seq_length. intro Z. assert (0 < (la - 0) / size) as P by (apply Rdiv_lt_0_compat; lra).
    assert ((la - 0) / size <= IZR (Rceil ((la - 0) / size))) as C.
    { unfold Rceil. rewrite opp_IZR, minus_IZR. destruct (archimed (- ((la - 0) / size))) as [_ Q]. lra. }
    assert (0 < Rceil ((la - 0) / size))%Z by (apply lt_IZR; lra). lia. }
  apply Nat.eqb_neq in NA. rewrite NA.
  destruct (loop_total v size mo INC M) as [s LS]; [lia|]. rewrite LS. cbn [bind]. eexists. eexists. reflexivity.
Qed.

Lemma ex_approx : exists steps r, cubic_approx (candidate ex_params) ex_f ex_f 4 4
  = Ok (mkApprox ex_params [0; 1; 3; 9/2; 9/2; 6; 8; 9] r steps) /\ steps = [0; 5; 9].
Proof.
  destruct (fit_total ex_f 4 4) as [steps [s F]]; [|lia|cbn; lia|lra|].
  { apply increasing_sorted. unfold ex_f. repeat (constructor; [|constructor; lra]). constructor; constructor. }
  unfold cubic_approx. rewrite F. cbn [bind].
  destruct (cubic_fit_spec _ _ _ _ _ F) as [ps [C [P [ST [LC [NZ [FI G]]]]]]].
  assert (ps = ex_pieces) as -> by (apply (pieces_unique 4 4); [exact P|exact ex_pieces_ok|exact C]).
  set (cs := rev (coefficients_rev s)) in *.
  assert (cs = [[mkCoeffs 1 0 0 0; mkCoeffs (27/32) (9/16) (5/32) (-3/16); mkCoeffs (5/32) (3/16) (27/32) (-9/16); mkCoeffs 0 0 1 0];
                [mkCoeffs 1 0 0 0; mkCoeffs (27/32) (9/16) (5/32) (-3/16); mkCoeffs (5/32) (3/16) (27/32) (-9/16); mkCoeffs 0 0 1 0]]) as ->.
  { inversion G as [|? c1 ? ? G1 G2]; subst. inversion G2 as [|? c2 ? ? G3 G4]; subst. inversion G4; subst. clear - G1 G3.
    assert (forall x a b q, q = (x - a) / (b - a) -> b <> a -> compute_c x a b = Ok (mkCoeffs (1 - 3 * q ^ 2 + 2 * q ^ 3) ((b - a) * q * (1 - q) ^ 2) (3 * q ^ 2 - 2 * q ^ 3) ((b - a) * q * (q ^ 2 - q)))) as CC.
    { intros x a b q -> N. unfold compute_c, Reqb. destruct (Req_EM_T (b - a) 0); [lra|]. do 2 f_equal; field; lra. }
    unfold piece_coeffs, coefficients_for, ex_pieces in *. cbn [p_start p_obs last mapM] in *.
    rewrite (CC 0 0 4 0), (CC 1 0 4 (1/4)), (CC 3 0 4 (3/4)), (CC 4 0 4 1) in G1 by lra.
    rewrite (CC 5 5 9 0), (CC 6 5 9 (1/4)), (CC 8 5 9 (3/4)), (CC 9 5 9 1) in G3 by lra.
    cbn [bind] in G1, G3. injection G1 as <-. injection G3 as <-.
    assert (forall a b c d a' b' c' d', a = a' -> b = b' -> c = c' -> d = d' -> mkCoeffs a b c d = mkCoeffs a' b' c' d') as MK by (intros; subst; reflexivity).
    repeat first [reflexivity | apply MK; field | apply (f_equal2 cons)]. }
  assert (steps = [0; 5; 9]) as ES by (rewrite ST; reflexivity).
  cbn [length]. change (2 * 2 + 2)%nat with 6%nat.
  set (cs' := [_; _]). assert (length ex_params = 6%nat) as LP by reflexivity.
  assert (mv (design_matrix cs') ex_params = [0; 1; 3; 9/2; 9/2; 6; 8; 9]) as MV.
  { rewrite design_fitted by reflexivity. unfold cs', ex_params. cbn. repeat (apply (f_equal2 cons); [field|]). reflexivity. }
  assert (design_matrix cs' = [[1; 0; 0; 0; 0; 0]; [27/32; 9/16; 5/32; -3/16; 0; 0]; [5/32; 3/16; 27/32; -9/16; 0; 0]; [0; 0; 1; 0; 0; 0];
    [0; 0; 1; 0; 0; 0]; [0; 0; 27/32; 9/16; 5/32; -3/16]; [0; 0; 5/32; 3/16; 27/32; -9/16]; [0; 0; 0; 0; 1; 0]]) as DM by reflexivity.
  unfold sparse_least_squares.
  assert (shaped (length ex_f) 6 (design_matrix cs') = true) as SH by (rewrite DM; reflexivity). rewrite SH.
  assert (candidate ex_params (mm 6 (transpose 6 (design_matrix cs')) (design_matrix cs')) (mv (transpose 6 (design_matrix cs')) ex_f) = Ok ex_params) as CD.
  { unfold candidate. rewrite mv_length, transpose_length, LP. cbn [Nat.eqb].
    rewrite mm_mv; [|apply shaped_spec in SH as [_ SH]; exact SH|apply transpose_rows|exact LP].
    rewrite MV, DM. destruct (list_eq_dec Req_EM_T _ _) as [|NE]; [reflexivity|]. exfalso. apply NE.
    unfold ex_f, transpose, mv, column_of. cbn. repeat (apply (f_equal2 cons); [field|]). reflexivity. }
  rewrite CD. cbn [bind]. rewrite MV. eexists. eexists. split; [reflexivity|exact ES].
Qed.
