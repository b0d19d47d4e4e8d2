(** Piecewise cubics: uniqueness of the intervals, reproduction of data. *)
From Coq Require Import Sorting.Sorted.
From Verif Require Import Base BaseFacts VecFacts NumpyModel NumpyFacts LsqModel LsqSpec LsqFacts GeomModel MatchModel ApproxModel ApproxSpec ApproxFacts ApproxFacts2 ApproxFacts4 ApproxFacts5 ApproxFacts6.

(** ** The intervals are determined by the observations *)

Lemma app_split {A} (a b c d : list A) : a ++ b = c ++ d -> (exists e, c = a ++ e /\ b = e ++ d) \/ (exists e, a = c ++ e /\ d = e ++ b).
Proof.
  revert c. induction a as [|x a IH]; intros c E; [left; exists c; split; [reflexivity|exact E]|].
  destruct c as [|y c]; [right; exists (x :: a); split; [reflexivity|symmetry; exact E]|]. cbn in E. injection E as <- E.
  destruct (IH c E) as [[e [-> ->]]|[e [-> ->]]]; [left|right]; exists e; split; reflexivity.
Qed.

Lemma closed_first_unique size mo l l' m m' : l <> [] -> l' <> [] -> closed_first size mo l -> closed_first size mo l' -> l ++ m = l' ++ m' -> l = l' /\ m = m'.
Proof.
  intros N N' [C O] [C' O'] E. apply app_split in E as [[e [-> ->]]|[e [-> ->]]]; (destruct e as [|x e]; [rewrite app_nil_r; split; reflexivity|exfalso]).
  - apply (O' l (x :: e)); [exact N|discriminate|reflexivity|exact C].
  - apply (O l' (x :: e)); [exact N'|discriminate|reflexivity|exact C'].
Qed.

Lemma pieces_enough size mo ps : pieces_of size mo ps -> (mo <= length (concat (map p_obs ps)))%nat /\ concat (map p_obs ps) <> [].
Proof.
  induction 1 as [p N L O S|p l m E NL NM [[C _] _] L S|p ps N [[C _] _] S H IH]; cbn [map concat].
  - rewrite app_nil_r. split; assumption.
  - rewrite app_nil_r, E, app_length. split; [lia|]. destruct l; [congruence|discriminate].
  - rewrite app_length. split; [lia|]. destruct (p_obs p); [congruence|discriminate].
Qed.

Lemma piece_eq p q : p_start p = p_start q -> p_obs p = p_obs q -> p = q.
Proof. destruct p, q. cbn. intros -> ->. reflexivity. Qed.

Lemma pieces_unique size mo ps : pieces_of size mo ps -> forall qs, pieces_of size mo qs -> concat (map p_obs ps) = concat (map p_obs qs) -> ps = qs.
Proof.
  induction 1 as [p N L O S|p l m E NL NM C L S|p ps N C S H IH]; intros qs Q EQ.
  - inversion Q as [q N' L' O' S'|q l' m' E' NL' NM' C' L' S'|q qs' N' C' S' H']; subst; cbn [map concat] in EQ; rewrite ?app_nil_r in EQ.
    + f_equal. apply piece_eq; [|exact EQ]. rewrite S, S'. unfold p_first. rewrite EQ. reflexivity.
    + exfalso. rewrite E' in EQ. destruct C' as [C' _]. apply (O l' m' NL' NM' EQ C').
    + exfalso. destruct C' as [C' _]. apply (O (p_obs q) (concat (map p_obs qs')) N'); [apply (pieces_enough _ _ _ H')|exact EQ|exact C'].
  - inversion Q as [q N' L' O' S'|q l' m' E' NL' NM' C' L' S'|q qs' N' C' S' H']; subst; cbn [map concat] in EQ; rewrite ?app_nil_r in EQ.
    + exfalso. rewrite E in EQ. destruct C as [C _]. apply (O' l m NL NM (eq_sym EQ) C).
    + assert (l ++ m = l' ++ m') as EE by congruence. apply closed_first_unique with (size := size) (mo := mo) in EE as [-> ->]; try assumption.
      f_equal. apply piece_eq; congruence.
    + exfalso. rewrite E in EQ. apply closed_first_unique with (size := size) (mo := mo) in EQ as [_ ->]; try assumption.
      pose proof (proj1 (pieces_enough _ _ _ H')). lia.
  - inversion Q as [q N' L' O' S'|q l' m' E' NL' NM' C' L' S'|q qs' N' C' S' H']; subst; cbn [map concat] in EQ; rewrite ?app_nil_r in EQ.
    + exfalso. destruct C as [C _]. apply (O' (p_obs p) (concat (map p_obs ps)) N); [apply (pieces_enough _ _ _ H)|symmetry; exact EQ|exact C].
    + exfalso. rewrite E' in EQ. apply closed_first_unique with (size := size) (mo := mo) in EQ as [_ EQ]; try assumption.
      pose proof (proj1 (pieces_enough _ _ _ H)) as LE. rewrite EQ in LE. lia.
    + apply closed_first_unique with (size := size) (mo := mo) in EQ as [EO EQ]; try assumption. f_equal; [|apply IH; assumption].
      apply piece_eq; [|exact EO]. rewrite S, S'. unfold p_first. rewrite EO. reflexivity.
Qed.

(** ** Nodes *)

Lemma sorted_app (l m : list R) : StronglySorted Rlt (l ++ m) -> StronglySorted Rlt l /\ StronglySorted Rlt m /\ forall x y, In x l -> In y m -> x < y.
Proof.
  induction l as [|a l IH]; cbn; intro S; [split; [constructor|split; [exact S|intros x y []]]|].
  inversion S as [|? ? S' F]; subst. destruct (IH S') as [A [B C]]. rewrite Forall_forall in F. split; [|split; [exact B|]].
  - constructor; [exact A|]. apply Forall_forall. intros x I. apply F, in_app_iff. left. exact I.
  - intros x y [<-|I] J; [apply F, in_app_iff; right; exact J|apply C; assumption].
Qed.

Lemma hd_in (l : list R) : l <> [] -> In (hd 0 l) l.
Proof. destruct l; [congruence|left; reflexivity]. Qed.
Lemma last_in (l : list R) : l <> [] -> In (last l 0) l.
Proof. intro N. destruct (@exists_last _ l N) as [l' [x ->]]. rewrite last_snoc. apply in_app_iff. right. left. reflexivity. Qed.
Lemma hd_least (l : list R) x : StronglySorted Rlt l -> In x l -> hd 0 l <= x.
Proof. intros S I. destruct S as [|a l S F]; [destruct I|]. cbn. destruct I as [<-|I]; [lra|]. rewrite Forall_forall in F. left. apply F, I. Qed.

Lemma last_app_ne (l m : list R) : m <> [] -> last (l ++ m) 0 = last m 0.
Proof. intro N. destruct (@exists_last _ m N) as [m' [x ->]]. rewrite app_assoc, !last_snoc. reflexivity. Qed.

Lemma steps_sorted size mo ps : pieces_of size mo ps -> Forall (fun p => p_start p <> p_last p) ps ->
  StronglySorted Rlt (concat (map p_obs ps)) -> StronglySorted Rlt (map p_first ps ++ [last (concat (map p_obs ps)) 0]).
Proof.
  intro P. assert (forall p l, p_obs p = l -> l <> [] -> (p_start p = p_first p \/ exists a b, l = a ++ b /\ a <> [] /\ b <> []) -> p_start p <> p_last p ->
    StronglySorted Rlt l -> p_first p < last l 0) as G.
  { intros p l E N D NE S. assert (p_first p <= last l 0) as LE.
    { unfold p_first. rewrite E. apply hd_least; [exact S|apply last_in, N]. }
    destruct LE as [LT|EQ]; [exact LT|]. exfalso. destruct D as [D|[a [b [-> [NA NB]]]]].
    - apply NE. rewrite D, EQ. unfold p_last. rewrite E. reflexivity.
    - destruct (sorted_app a b S) as [_ [_ LT]]. rewrite last_app_ne in EQ by exact NB. unfold p_first in EQ. rewrite E in EQ.
      assert (hd 0 (a ++ b) = hd 0 a) as HA by (destruct a; [congruence|reflexivity]). rewrite HA in EQ.
      specialize (LT (hd 0 a) (last b 0) (hd_in a NA) (last_in b NB)). lra. }
  induction P as [p N L O S|p l m E NL NM C L S|p ps N C S H IH]; intros F SO.
  - cbn [map concat app] in *. rewrite app_nil_r in *. constructor; [constructor; [constructor|constructor]|]. constructor; [|constructor].
    apply (G p (p_obs p)); auto. apply (Forall_inv F).
  - cbn [map concat app] in *. rewrite app_nil_r in *. constructor; [constructor; [constructor|constructor]|]. constructor; [|constructor].
    apply (G p (p_obs p)); auto; [rewrite E; destruct l; [congruence|discriminate]|right; exists l, m; auto|apply (Forall_inv F)].
  - cbn [map concat] in *. destruct (sorted_app _ _ SO) as [S1 [S2 LT]]. pose proof (proj2 (pieces_enough _ _ _ H)) as NE.
    rewrite last_app_ne by exact NE. cbn [app]. constructor; [apply IH; [apply (Forall_inv_tail F)|exact S2]|].
    apply Forall_forall. intros x I. apply in_app_iff in I as [I|[<-|[]]].
    + apply in_map_iff in I as [q [<- I]]. apply LT; [unfold p_first; apply hd_in, N|]. pose proof (pieces_obs size mo ps H) as [NO _].
      rewrite Forall_forall in NO. apply in_concat. exists (p_obs q). split; [apply in_map, I|]. unfold p_first. apply hd_in, NO, I.
    + apply LT; [unfold p_first; apply hd_in, N|apply last_in, NE].
Qed.

(** ** What is reproduced *)

Lemma hermite_const a b c x : a <> b -> hermite a b c 0 c 0 x = c.
Proof. intro N. unfold hermite. field. lra. Qed.

Lemma fitted_const c ps : Forall (fun p => p_start p <> p_last p) ps ->
  fitted (concat (repeat [c; 0] (S (length ps)))) ps = repeat c (length (concat (map p_obs ps))).
Proof.
  induction 1 as [|p ps N F IH]; [reflexivity|]. cbn [length repeat concat app fitted map]. cbn [length repeat concat app] in IH. rewrite IH.
  rewrite app_length, repeat_app. f_equal. rewrite <- (map_length (hermite (p_start p) (p_last p) c 0 c 0)).
  induction (p_obs p) as [|x l IHl]; [reflexivity|]. cbn. rewrite hermite_const by exact N. f_equal. exact IHl.
Qed.

Lemma hermite_cubic a0 a1 a2 a3 a b x : a <> b ->
  hermite a b (cubic_poly a0 a1 a2 a3 a) (a1 + 2 * a2 * a + 3 * a3 * a ^ 2) (cubic_poly a0 a1 a2 a3 b) (a1 + 2 * a2 * b + 3 * a3 * b ^ 2) x
  = cubic_poly a0 a1 a2 a3 x.
Proof. intro N. unfold hermite, cubic_poly. field. lra. Qed.

Lemma fitted_joint params ps qs p q : Forall (fun p => p_start p <> p_last p) (ps ++ p :: q :: qs) -> Forall (fun p => p_obs p <> []) (ps ++ p :: q :: qs) ->
  p_start q = p_first q -> length params = (2 * length (ps ++ p :: q :: qs) + 2)%nat ->
  let i := length (concat (map p_obs (ps ++ [p]))) in
  exists y, nth_error (fitted params (ps ++ p :: q :: qs)) (i - 1) = Some y /\ nth_error (fitted params (ps ++ p :: q :: qs)) i = Some y /\ (0 < i)%nat.
Proof.
  cbv zeta. revert params. induction ps as [|r ps IH]; intros params F NO SQ L.
  - cbn [app] in *. cbn in L. destruct params as [|f0 [|d0 [|f1 [|d1 [|f2 [|d2 rest]]]]]]; cbn in L; try lia. exists f1.
    cbn [map concat fitted]. rewrite app_nil_r. pose proof (Forall_inv F) as NP. pose proof (Forall_inv (Forall_inv_tail F)) as NQ.
    pose proof (Forall_inv NO) as OP. pose proof (Forall_inv (Forall_inv_tail NO)) as OQ. cbn beta in *.
    destruct (@exists_last _ (p_obs p) OP) as [lp [z EZ]]. destruct (p_obs q) as [|y lq] eqn:EQ; [congruence|].
    assert ((0 < length (p_obs p))%nat) as LP by (rewrite EZ, app_length; cbn; lia). split; [|split; [|exact LP]].
    + rewrite nth_error_app1 by (rewrite map_length; lia). rewrite nth_error_map'. rewrite EZ at 1 2. rewrite app_length. cbn [length].
      replace (length lp + 1 - 1)%nat with (length lp) by lia. rewrite nth_error_app2 by lia. rewrite Nat.sub_diag. cbn. f_equal.
      assert (z = p_last p) as -> by (unfold p_last; rewrite EZ, last_snoc; reflexivity). apply hermite_end. exact NP.
    + rewrite nth_error_app2 by (rewrite map_length; lia). rewrite map_length, Nat.sub_diag. cbn. f_equal.
      assert (y = p_start q) as -> by (rewrite SQ; unfold p_first; rewrite EQ; reflexivity). apply hermite_end. exact NQ.
  - cbn [app length] in *. destruct params as [|f0 [|d0 [|f1 [|d1 rest]]]]; cbn in L; try lia.
    destruct (IH (f1 :: d1 :: rest) (Forall_inv_tail F) (Forall_inv_tail NO) SQ) as [y [Y1 [Y2 I]]]; [cbn; lia|].
    exists y. cbn [fitted map concat]. rewrite app_length. set (n := length (p_obs r)). set (i := length (concat (map p_obs (ps ++ [p])))) in *.
    assert (length (map (hermite (p_start r) (p_last r) f0 d0 f1 d1) (p_obs r)) = n) as LN by apply map_length.
    split; [|split; [|lia]]; rewrite nth_error_app2 by lia; rewrite LN.
    + replace (n + i - 1 - n)%nat with (i - 1)%nat by lia. exact Y1.
    + replace (n + i - n)%nat with i by lia. exact Y2.
Qed.
