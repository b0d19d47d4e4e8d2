(** C116 and C117: direction and shape of spatially sorted tracks. *)
From Verif Require Import Base BaseFacts NumpyModel NumpyFacts TrajModel TrajSpec TrajFacts3 SortModel SortSpec SortFacts SortProps PathSpec PathFacts.

(** * C116 Direction of travel *)
(** If the input and the sorted points both have a direction around the origin, then it is the same one. *)
Theorem C116_partial : forall env pts discard idx, sort env pts discard = Ok idx ->
  exists sorted, np_take pts (map Z.of_nat idx) = Ok sorted /\
    (ups (angle env) sorted <> downs (angle env) sorted -> (anticlockwise (angle env) pts -> anticlockwise (angle env) sorted) /\ (clockwise (angle env) pts -> clockwise (angle env) sorted)).
Proof.
  intros env pts discard idx H. destruct (sort_direction env pts discard idx H) as (idx0 & s0 & _ & [(_ & S & E)|(_ & S & E)]); rewrite !direction_counts in E.
  - exists s0. split; [exact S|]. intros N. unfold anticlockwise, clockwise. split; intros D; apply (f_equal (Z.eqb 1)) in E || idtac; destruct (Z.sgn_spec (Z.of_nat (ups (angle env) s0) - Z.of_nat (downs (angle env) s0))) as [[A B]|[[A B]|[A B]]], (Z.sgn_spec (Z.of_nat (ups (angle env) pts) - Z.of_nat (downs (angle env) pts))) as [[A' B']|[[A' B']|[A' B']]]; rewrite B, B' in E; try discriminate E; lia.
  - exists (rev s0). split; [exact S|]. rewrite ups_rev, downs_rev. intros N. unfold anticlockwise, clockwise. rewrite ups_rev, downs_rev. split; intros D; destruct (Z.sgn_spec (Z.of_nat (ups (angle env) s0) - Z.of_nat (downs (angle env) s0))) as [[A B]|[[A B]|[A B]]], (Z.sgn_spec (Z.of_nat (ups (angle env) pts) - Z.of_nat (downs (angle env) pts))) as [[A' B']|[[A' B']|[A' B']]]; rewrite B, B' in E; try congruence; lia.
Qed.
Print Assumptions C116_partial.

(** A half circle, driven anticlockwise, that is highest in the middle *)
Definition half_circle : list V3 := [mkV3 1 0 0; mkV3 0 1 1; mkV3 (-1) 0 0].
Definition half_env : sort_env :=
  mkSortEnv (fun p => p) (fun _ => Ok [(0, 1); (1, 2); (0, 2)]%nat) (fun _ _ => [(0, 1); (2, 1)]%nat)
    (fun _ r => match r with 0 => [0; 1; 2] | 1 => [1; 0; 2] | 2 => [2; 1; 0] | _ => [r] end%nat)
    (fun _ _ => (0, 1)%nat) (fun p => if Reqb (vx p) 0 then PI / 2 else if Rltb 0 (vx p) then 0 else PI) stable_argsort.

Lemma half_angles : angle half_env (mkV3 1 0 0) = 0 /\ angle half_env (mkV3 0 1 1) = PI / 2 /\ angle half_env (mkV3 (-1) 0 0) = PI.
Proof.
  cbn [angle half_env vx]. rewrite (proj2 (Reqb_true 0 0) eq_refl), (proj2 (Reqb_false 1 0)), (proj2 (Reqb_false (-1) 0)), (proj2 (Rltb_true 0 1)), (proj2 (Rltb_false 0 (-1))) by lra. auto.
Qed.

Lemma half_path : path_contract half_env half_circle [0; 1; 2]%nat.
Proof.
  exists [(0, 1); (1, 2); (0, 2)]%nat. split; [reflexivity|]. split; [|split].
  - intros v L. cbn in L. destruct v as [|[|[|v]]]; [exists (0, 1)%nat|exists (0, 1)%nat|exists (1, 2)%nat|lia]; cbn; auto.
  - split; [repeat constructor; cbn; lia|]. cbn. reflexivity.
  - intros r. destruct r as [|[|[|r]]]; cbn [bfs half_env spanning_tree].
    + exists [1; 2]%nat. split; [reflexivity|]. split; [repeat constructor; cbn; lia|]. split.
      * intros l v r E. destruct l as [|a [|b l]]; injection E as E; subst; [exists 0%nat|exists 1%nat|destruct l; discriminate]; (split; [cbn; auto|]); cbn; unfold linked; cbn; auto.
      * intros u v _ [I|I]; cbn in I; destruct I as [I|[I|[]]]; injection I as <- <-; cbn; auto.
    + exists [0; 2]%nat. split; [reflexivity|]. split; [repeat constructor; cbn; lia|]. split.
      * intros l v r E. exists 1%nat. split; [left; reflexivity|]. destruct l as [|a [|b l]]; injection E as E; subst; try (destruct l; discriminate); unfold linked; cbn; auto.
      * intros u v _ [I|I]; cbn in I; destruct I as [I|[I|[]]]; injection I as <- <-; cbn; auto.
    + exists [1; 0]%nat. split; [reflexivity|]. split; [repeat constructor; cbn; lia|]. split.
      * intros l v r E. destruct l as [|a [|b l]]; injection E as E; subst; [exists 2%nat|exists 1%nat|destruct l; discriminate]; (split; [cbn; auto|]); unfold linked; cbn; auto.
      * intros u v _ [I|I]; cbn in I; destruct I as [I|[I|[]]]; injection I as <- <-; cbn; auto.
    + exists []. split; [reflexivity|]. split; [repeat constructor; cbn; lia|]. split; [intros l v r' E; destruct l; discriminate|].
      intros u v [<-|[]] [I|I]; cbn in I; destruct I as [I|[I|[]]]; discriminate I.
Qed.

Lemma half_direction : ups (angle half_env) half_circle = 2%nat /\ downs (angle half_env) half_circle = 0%nat /\
  ups (angle half_env) [mkV3 0 1 1; mkV3 (-1) 0 0; mkV3 1 0 0] = 1%nat /\ downs (angle half_env) [mkV3 0 1 1; mkV3 (-1) 0 0; mkV3 1 0 0] = 1%nat.
Proof.
  destruct half_angles as (A & B & C). assert (P := PI_RGT_0). unfold half_circle. cbn [ups downs]. rewrite A, B, C.
  assert (L : forall a b, a < b -> Rltb a b = true /\ Rltb b a = false) by (intros a b H; split; [apply Rltb_true; exact H|apply Rltb_false; lra]).
  destruct (L 0 (PI / 2) ltac:(lra)) as [-> -> ], (L (PI / 2) PI ltac:(lra)) as [-> -> ], (L 0 PI P) as [-> -> ]. auto.
Qed.

Lemma half_sorted : sort half_env half_circle true = Ok [0; 2; 1]%nat.
Proof.
  destruct half_direction as (U1 & D1 & U2 & D2).
  assert (E1 : detect_direction half_env half_circle = 1%Z) by (rewrite direction_counts, U1, D1; reflexivity).
  assert (E2 : detect_direction half_env [mkV3 0 1 1; mkV3 (-1) 0 0; mkV3 1 0 0] = 0%Z) by (rewrite direction_counts, U2, D2; reflexivity).
  assert (M : argmax (map vz half_circle) = Ok 1%nat) by (cbn; rb; reflexivity).
  unfold sort. change (mst_sorting half_env half_circle) with (Ok ([0; 1; 2]%nat, @nil nat)). cbn [bind length Nat.eqb negb andb]. rewrite M. cbn [bind]. change (begin_with [0; 1; 2]%nat 1) with (Ok [1; 2; 0]%nat). cbn [bind].
  change (np_take half_circle (map Z.of_nat [1; 2; 0]%nat)) with (Ok [mkV3 0 1 1; mkV3 (-1) 0 0; mkV3 1 0 0]). cbn [bind]. rewrite E1, E2. reflexivity.
Qed.

(** The order of a half circle that is highest in the middle is turned round: its second half is driven backwards and the highest point is last. *)
Theorem C116_refuted : exists env pts path idx sorted, path_contract env pts path /\ Permutation path (seq 0 (length pts)) /\ (forall p, In p pts -> polar (angle env p) p) /\ highest pts 1 /\ anticlockwise (angle env) pts /\ sort env pts true = Ok idx /\ np_take pts (map Z.of_nat idx) = Ok sorted /\ ~ anticlockwise (angle env) sorted /\ last idx 0%nat = 1%nat.
Proof.
  destruct half_angles as (A & B & C). assert (P := PI_RGT_0). destruct half_direction as (U1 & D1 & U2 & D2).
  exists half_env, half_circle, [0; 1; 2]%nat, [0; 2; 1]%nat, (rev [mkV3 0 1 1; mkV3 (-1) 0 0; mkV3 1 0 0]).
  split; [exact half_path|]. split; [reflexivity|]. split; [|split; [|split; [|split; [|split; [|split]]]]].
  - intros p I. assert (S1 : sqrt 1 = 1) by apply sqrt_1. cbn in I. destruct I as [<-|[<-|[<-|[]]]]; [rewrite A|rewrite B|rewrite C]; unfold polar; cbn [vx vy].
    + replace (1 * 1 + 0 * 0) with 1 by ring. rewrite S1, cos_0, sin_0. lra.
    + replace (0 * 0 + 1 * 1) with 1 by ring. rewrite S1, cos_PI2, sin_PI2. lra.
    + replace (-1 * -1 + 0 * 0) with 1 by ring. rewrite S1, cos_PI, sin_PI. lra.
  - exists (mkV3 0 1 1). split; [reflexivity|]. split; [intros q I; cbn in I; destruct I as [<-|[<-|[<-|[]]]]; cbn; lra|]. intros j q L Hj. destruct j; [|lia]. cbn in Hj. injection Hj as <-. cbn. lra.
  - unfold anticlockwise. rewrite U1, D1. lia.
  - exact half_sorted.
  - reflexivity.
  - unfold anticlockwise. rewrite ups_rev, downs_rev, U2, D2. lia.
  - reflexivity.
Qed.
Print Assumptions C116_refuted.

Example C116_case : sort half_env half_circle true = Ok [0; 2; 1]%nat /\ anticlockwise (angle half_env) half_circle /\ ups (angle half_env) half_circle <> downs (angle half_env) half_circle.
Proof. destruct half_direction as (U1 & D1 & _). split; [exact half_sorted|]. unfold anticlockwise. rewrite U1, D1. split; lia. Qed.

(** * C117 Tracks without branches *)
Lemma filter_two (p : nat -> bool) n x y : (x < y)%nat -> (y < n)%nat -> (forall v, (v < n)%nat -> (p v = true <-> v = x \/ v = y)) -> filter p (seq 0 n) = [x; y].
Proof.
  intros L1 L2 H. apply sorted_le_unique.
  - assert (S := seq_sorted 0 n). revert S. generalize (seq 0 n). clear. induction l as [|a l IH]; intros S; [constructor|]. apply StronglySorted_inv in S as [S F]. cbn. destruct (p a); [|exact (IH S)]. constructor; [exact (IH S)|]. rewrite Forall_forall in *. intros z I. apply filter_In in I as [I _]. exact (F z I).
  - repeat constructor. lia.
  - apply NoDup_Permutation; [apply NoDup_filter, seq_NoDup|repeat constructor; cbn; lia|]. intros v. rewrite filter_In, in_seq. cbn. split.
    + intros [I E]. apply (H v) in E; [|lia]. intuition.
    + intros [<-|[<-|[]]]; (split; [lia|]); apply H; auto; lia.
Qed.

(** If the spanning tree of all points is a path, the sorted points follow this path from the highest point to the end and from the other end
    to the highest point, or backwards. *)
Theorem C117_path : forall env pts path discard, path_contract env pts path -> Permutation path (seq 0 (length pts)) -> (2 <= length pts)%nat ->
  exists idx top, sort env pts discard = Ok idx /\ highest pts top /\ (started_at top path idx \/ started_at top (rev path) idx).
Proof.
  intros env pts path discard (edges & T & Ev & Hp & Hs) P L. set (E := spanning_tree env pts edges) in *. assert (Lp : length path = length pts) by (rewrite (Permutation_length P), seq_length; reflexivity). assert (ND := proj1 Hp).
  assert (Np : path <> []) by (intro Z; rewrite Z in Lp; cbn in Lp; lia).
  set (x := hd 0%nat path). set (y := last path 0%nat).
  assert (Ix : In x path) by (unfold x; destruct path; [congruence|left; reflexivity]). assert (Iy : In y path) by (unfold y; apply last_in, Np).
  assert (Lx : (x < length pts)%nat) by (apply (Permutation_in _ P), in_seq in Ix; lia). assert (Ly : (y < length pts)%nat) by (apply (Permutation_in _ P), in_seq in Iy; lia).
  assert (Nxy : x <> y). { unfold x, y. destruct path as [|a [|b r]]; cbn in Lp; try lia. cbn [hd]. change (last (a :: b :: r) 0%nat) with (last (b :: r) 0%nat). inversion ND as [|? ? Na _]; subst. intros Z. apply Na. rewrite Z. apply last_in. discriminate. }
  assert (Mi : filter (fun v => negb (existsb (endpoint v) edges)) (seq 0 (length pts)) = []).
  { apply filter_none. intros v I. apply in_seq in I. apply negb_false_iff, existsb_endpoint, Ev. lia. }
  assert (Dg : forall v, (v < length pts)%nat -> ((degree E v =? 1)%nat = true <-> v = x \/ v = y)) by (intros v _; rewrite Nat.eqb_eq, (degree_path path E v Hp); apply degree_ends; [exact ND|lia]).
  assert (Hr : hd 0%nat (rev path) = y) by (unfold y; rewrite <- (rev_involutive path) at 2; destruct (rev path) as [|z l]; [reflexivity|cbn [rev hd]; symmetry; apply last_last]).
  assert (S : exists p, (p = path \/ p = rev path) /\ mst_sorting env pts = Ok (p, [])).
  { unfold mst_sorting, compute_mst. rewrite T. cbn [bind]. fold E. rewrite Mi. destruct (Nat.lt_gt_cases x y) as [K _]. destruct (K Nxy) as [K'|K'].
    - exists path. split; [auto|]. rewrite (filter_two _ _ x y K' Ly Dg). cbn [bind]. unfold x. rewrite (search_path path E (bfs env) Hp Hs Np). reflexivity.
    - exists (rev path). split; [auto|]. rewrite (filter_two _ _ y x K' Lx) by (intros v Lv; rewrite (Dg v Lv); tauto). cbn [bind]. rewrite <- Hr. rewrite (search_path (rev path) E (bfs env) (is_path_rev _ _ Hp) Hs) by (intro Z; apply Np; rewrite <- (rev_involutive path), Z; reflexivity). reflexivity. }
  destruct S as (p & Cp & S). assert (Pp : Permutation p (seq 0 (length pts))) by (destruct Cp as [-> | -> ]; [exact P|rewrite <- Permutation_rev; exact P]).
  destruct (argmax_ok pts) as (top & Et & Ht); [intro Z; rewrite Z in L; cbn in L; lia|].
  assert (It : In top p). { apply (Permutation_in _ (Permutation_sym Pp)), in_seq. destruct Ht as (q & Hq & _). apply nth_error_Some_lt in Hq. lia. }
  destruct (begin_with_ok p top It) as (a & b & Ep & Eb). assert (Per : Permutation (top :: b ++ a) (seq 0 (length pts))) by (eapply Permutation_trans; [|exact Pp]; rewrite Ep; change (top :: b ++ a) with ((top :: b) ++ a); apply Permutation_app_comm).
  destruct (np_take_nat pts (top :: b ++ a)) as (s & Es & _). { apply Forall_forall. intros i I. apply (Permutation_in _ Per), in_seq in I. lia. }
  assert (St : forall idx, idx = top :: b ++ a \/ idx = rev (top :: b ++ a) -> started_at top path idx \/ started_at top (rev path) idx).
  { intros idx Hi. destruct Cp as [K|K]; [left|right]; exists a, b; rewrite <- K; auto. }
  unfold sort. rewrite S. cbn [bind length Nat.eqb negb andb]. rewrite Et. cbn [bind]. rewrite Eb. cbn [bind]. rewrite Es. cbn [bind].
  destruct (detect_direction env s =? detect_direction env pts)%Z; eexists; exists top; (split; [reflexivity|]; split; [exact Ht|]); apply St; auto.
Qed.
Print Assumptions C117_path.

(** A point that the triangulation dropped is inserted between its two nearest neighbours in the order, and the positions are kept in step. *)
Theorem C117_inserted : forall env m p idx xyzs idx' xyzs' i j, two_nearest env xyzs p = (i, j) -> i <> j -> (i < length xyzs)%nat -> (j < length xyzs)%nat -> length idx = length xyzs ->
  insert_point env m p (idx, xyzs) = (idx', xyzs') ->
  exists a b u v, idx = a ++ b /\ xyzs = u ++ v /\ idx' = a ++ m :: b /\ xyzs' = u ++ p :: v /\ length a = length u /\ (Nat.min i j < length a <= Nat.max i j)%nat.
Proof.
  intros env m p idx xyzs idx' xyzs' i j T N Li Lj L H. unfold insert_point in H. rewrite T in H. cbv zeta in H. set (k := if (Nat.max i j - Nat.min i j =? 1)%nat then _ else _) in H. injection H as <- <-.
  assert (K : (Nat.min i j < k <= Nat.max i j)%nat).
  { unfold k. destruct (Nat.eqb_spec (Nat.max i j - Nat.min i j) 1) as [E|E]; [lia|]. assert (2 <= Nat.max i j - Nat.min i j)%nat by lia. set (d := (Nat.max i j - Nat.min i j)%nat) in *. assert (1 <= d / 2)%nat by (apply Nat.div_le_lower_bound; lia). assert (d / 2 <= d)%nat by (apply Nat.div_le_upper_bound; lia). unfold d in *. lia. }
  clearbody k. exists (firstn k idx), (skipn k idx), (firstn k xyzs), (skipn k xyzs). rewrite !firstn_skipn. unfold py_insert. rewrite !firstn_length. repeat split; lia.
Qed.
Print Assumptions C117_inserted.

Example C117_case : path_contract half_env half_circle [0; 1; 2]%nat /\ Permutation [0; 1; 2]%nat (seq 0 (length half_circle)) /\
  insert_point half_env 3 (mkV3 1 1 1) ([0; 1; 2]%nat, half_circle) = ([0; 3; 1; 2]%nat, [mkV3 1 0 0; mkV3 1 1 1; mkV3 0 1 1; mkV3 (-1) 0 0]).
Proof. split; [exact half_path|]. split; [reflexivity|]. reflexivity. Qed.
