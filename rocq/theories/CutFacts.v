(** Lines of a text that was cut off, and reading the pairs of a relative result from them. *)
From Verif Require Import Base BaseFacts EstModel TextModel TextFacts HeaderModel HeaderFacts NumpyModel TrajModel GeomModel IoModel IoSpec IoFacts EvalModel RpeModel RpeSpec RpeFacts RpeFacts2 RpeFacts3 TornModel TornFacts CutModel CutSpec.
Local Open Scope string_scope.

Lemma file_lines_some c r : file_lines (String c r) <> [].
Proof. cbn [file_lines]. destruct (_ || _)%bool; [discriminate|]. destruct r as [|d r]; [discriminate|]. destruct (file_lines (String d r)); discriminate. Qed.

(** The lines of a beginning of a text are lines of the text and perhaps a beginning of one more. *)
Definition beginning_of (ls : list string) (i : nat) (p : string) : Prop := p = "" \/ (p <> "" /\ exists l q, nth_error ls i = Some l /\ l = p ++ q).
Lemma cut_lines_bounded N : forall s n, (String.length s <= N)%nat -> exists i p, file_lines (take n s) = (firstn i (file_lines s) ++ rest_line p)%list /\ beginning_of (file_lines s) i p.
Proof.
  induction N as [|N IH]; intros s n L.
  - destruct s; [|cbn in L; lia]. exists 0%nat, "". destruct n; (split; [reflexivity|left; reflexivity]).
  - destruct s as [|c r]; [exists 0%nat, ""; destruct n; (split; [reflexivity|left; reflexivity])|]. cbn in L. destruct n as [|n]; [exists 0%nat, ""; split; [reflexivity|left; reflexivity]|].
    cbn [take]. cbn [file_lines]. destruct (Ascii.eqb c newline || Ascii.eqb c return_char)%bool.
    + destruct r as [|c' r']; [exists 1%nat, ""; split; [destruct n; reflexivity|left; reflexivity]|]. destruct n as [|n]; [exists 1%nat, ""; split; [reflexivity|left; reflexivity]|]. cbn [take].
      destruct (Ascii.eqb c return_char && Ascii.eqb c' newline)%bool.
      * destruct (IH r' n ltac:(cbn in L; lia)) as (i & p & E & B). exists (S i), p. rewrite E. split; [reflexivity|exact B].
      * destruct (IH (String c' r') (S n) ltac:(lia)) as (i & p & E & B). exists (S i), p. cbn [take] in E. rewrite E. split; [reflexivity|exact B].
    + destruct r as [|c' r']; [exists 1%nat, ""; split; [destruct n; reflexivity|left; reflexivity]|]. assert (SM := file_lines_some c' r').
      destruct n as [|n].
      * cbn [take]. destruct (file_lines (String c' r')) as [|l ls]; [congruence|]. exists 0%nat, (String c ""). split; [reflexivity|]. right. split; [discriminate|]. exists (String c l), l. split; reflexivity.
      * destruct (IH (String c' r') (S n) ltac:(lia)) as (i & p & E & B). cbn [take] in *. assert (SM' := file_lines_some c' (take n r')). rewrite E in *.
        destruct (file_lines (String c' r')) as [|l ls]; [congruence|]. destruct i as [|i].
        -- cbn [firstn app] in *. unfold rest_line in *. destruct (String.eqb p "") eqn:NP; [congruence|]. apply String.eqb_neq in NP. exists 0%nat, (String c p). split; [reflexivity|].
           right. split; [discriminate|]. destruct B as [B|(_ & l' & q & E' & ->)]; [congruence|]. cbn in E'. injection E' as ->. exists (String c (p ++ q)), q. split; reflexivity.
        -- cbn [firstn app]. exists (S i), p. split; [reflexivity|exact B].
Qed.
Lemma cut_lines s n : exists i p, file_lines (take n s) = (firstn i (file_lines s) ++ rest_line p)%list /\ beginning_of (file_lines s) i p.
Proof. apply (cut_lines_bounded (String.length s)). lia. Qed.

Section Cut.
  Context (T : text_ops) (show12 : R -> string) (TC : text_contract T) (FC : format12 T show12).
  Notation cells := (cells show12).
  Notation rd := (rd12 T show12).

  (** ** Reading a column *)
  Lemma column_read names rows nm ds x : frame_column T names rows nm = Ok ds -> all_some (map finite ds) = Some x ->
    exists j, index_of nm names = Ok j /\ Forall2 (fun row y => exists w, nth j row None = Some w /\ number T w = Some (Fin y)) rows x.
  Proof.
    unfold frame_column. intros H F. destruct (index_of nm names) as [j|] eqn:J; [|discriminate]. exists j. split; [reflexivity|]. revert ds x H F.
    induction rows as [|row rows IH]; intros ds x H F; cbn [map] in H; [cbn in H; injection H as <-; cbn in F; injection F as <-; constructor|].
    change (to_nums T (nth j row None :: map (fun r => nth j r None) rows) = Ok ds) in H. unfold to_nums in H, IH. cbn [mapM] in H.
    apply bind_ok in H as [d [D H]]. apply bind_ok in H as [ds' [DS H]]. injection H as <-. cbn in F. destruct (finite d) as [y|] eqn:FD; [|discriminate].
    destruct (all_some (map finite ds')) as [x'|] eqn:F'; [|discriminate]. injection F as <-. constructor; [|apply (IH ds' x' DS F')].
    unfold to_num in D. destruct (nth j row None) as [w|] eqn:NR; [|inversion D; subst; discriminate]. exists w. split; [exact NR|]. destruct (number T w) as [z|]; [|discriminate].
    injection D as ->. destruct d; cbn in FD; try discriminate. injection FD as ->. reflexivity.
  Qed.

  (** ** Rows that were begun *)
  Definition torn (w : nat) (f : list R) (g : list cell) : Prop :=
    nth (w - 1) g None = None \/ forall j, (j < w - 1)%nat -> nth j g None = Some (show12 (nth j f 0)).
  Fixpoint begun (w : nat) (full : list (list R)) (got : list (list cell)) {struct got} : Prop :=
    match got with
    | [] => True
    | g :: got' => match full with [] => False | f :: full' => (g = cells f /\ begun w full' got') \/ (got' = [] /\ torn w f g) end
    end.
  Lemma begun_split w a b : forall got, begun w (a ++ b) got -> begun w a (firstn (length a) got) /\ begun w b (skipn (length a) got).
  Proof.
    induction a as [|f a IH]; intros got H; [split; [exact I|exact H]|]. destruct got as [|g got]; [split; exact I|]. cbn [app length firstn skipn begun] in *.
    destruct H as [[E H]|[-> H]].
    - destruct (IH got H). auto.
    - split; [right; split; [destruct (length a); reflexivity|exact H]|]. destruct (length a); exact I.
  Qed.
  Lemma begun_complete w full : forall k, begun w full (map cells (firstn k full)).
  Proof. induction full as [|f full IH]; intros [|k]; cbn; auto. Qed.

  (** Values of a column other than the last are those of the rows; the last value of the last column can be another one. *)
  Lemma begun_column w j full : forall got x, begun w full got -> Forall (fun f => length f = w) full -> (j < w)%nat ->
    Forall (fun g => nth (w - 1) g None <> None) got ->
    Forall2 (fun row y => exists v, nth j row None = Some v /\ number T v = Some (Fin y)) got x ->
    length x = length got /\ (length got <= length full)%nat /\
    (forall i f y, nth_error full i = Some f -> nth_error x i = Some y -> near12 (nth j f 0) y \/ (j = w - 1 /\ S i = length got)%nat).
  Proof.
    induction full as [|f full IH]; intros [|g got] x B W J NN F; cbn [begun] in B.
    - inversion F; subst. cbn. repeat split; auto. intros [|i]; discriminate.
    - contradiction.
    - inversion F; subst. cbn. split; [reflexivity|]. split; [lia|]. intros i f0 y _ Y. destruct i; discriminate.
    - inversion F as [|? y ? x' [v [V Y]] F' ]; subst. inversion W as [|? ? Wf W']; subst. inversion NN as [|? ? Ng NN']; subst. destruct B as [[-> B]|[-> TO]].
      + destruct (IH got x' B W' J NN' F') as (L1 & L2 & H). cbn [length]. split; [lia|]. split; [lia|]. intros [|i] f0 y0 E0 Y0; cbn in E0, Y0.
        * injection E0 as <-. injection Y0 as <-. left. unfold cells in V. rewrite (nth_indep _ None (Some (show12 0))) in V by (rewrite map_length; exact J).
          rewrite (map_nth (fun x => Some (show12 x))) in V. injection V as <-. destruct (rd12_near T show12 FC (nth j f 0)) as [E N]. rewrite E in Y. injection Y as <-. exact N.
        * destruct (H i f0 y0 E0 Y0) as [N|[N1 N2]]; [left; exact N|right; split; [exact N1|lia]].
      + inversion F'; subst. cbn [length]. split; [reflexivity|]. split; [lia|]. intros [|i] f0 y0 E0 Y0; cbn in E0, Y0; [|destruct i; discriminate]. injection E0 as <-. injection Y0 as <-.
        destruct (Nat.eq_dec j (length f - 1)) as [->|NJ]; [right; split; [reflexivity|lia]|]. left. destruct TO as [TO|TO]; [exfalso; apply Ng, TO|]. specialize (TO j ltac:(lia)). assert (Some v = Some (show12 (nth j f 0))) as VV by (etransitivity; [symmetry; exact V|exact TO]). injection VV as ->.
        destruct (rd12_near T show12 FC (nth j f 0)) as [E N]. rewrite E in Y. injection Y as <-. exact N.
  Qed.
End Cut.
