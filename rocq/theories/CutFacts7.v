(** Absolute results read from files that were cut off: cases. *)
From Verif Require Import Base BaseFacts EstModel TextModel TextFacts HeaderModel HeaderFacts NumpyModel TrajModel TrajSpec TrajFacts2 GeomModel GeomSpec IoModel IoSpec IoFacts IoFacts2 EvalModel RpeModel RpeSpec RpeFacts RpeFacts2 RpeFacts3 AteModel AteSpec AteFacts AteFacts2 TornModel TornFacts CutModel CutSpec CutFacts CutFacts2 CutFacts3 CutFacts4 CutFacts5 CutFacts6.
Local Open Scope string_scope.

Lemma forall2_length {A B} (P : A -> B -> Prop) l x : Forall2 P l x -> length x = length l.
Proof. induction 1; cbn; congruence. Qed.

Section Cut7.
  Context {Q : Type} (ops : rot_ops Q) (qops : quat_ops Q) (QC : quat_contract ops qops) (T : text_ops) (show12 : R -> string) (TC : text_contract T) (FC : format12 T show12).

  Lemma empty_columns nms wanted cols : frame_columns T nms [] wanted = Ok (Some cols) -> Forall (fun x => x = []) cols.
  Proof. intro H. apply columns_valued in H. induction H as [|? x ? ? (j & _ & V) F IH]; constructor; [inversion V; reflexivity|exact IH]. Qed.
  Lemma empty_three cols : Forall (fun x : list R => x = []) cols -> v3_of cols = [].
  Proof. intro F. destruct cols as [|x [|y [|z [|u cols]]]]; try reflexivity. inversion F; subst. reflexivity. Qed.

  Lemma header_of_cut (r : ate_result Q) text more h : file_lines text = (ate_head T r ++ more)%list -> handle_lines T (ate_header r) more = Ok (ate_header r) -> header_from_file T text = Ok h -> h = ate_header r.
  Proof. intros L M H. unfold header_from_file in H. rewrite L, handle_lines_app, (ate_head_handled T TC) in H. cbn [bind] in H. rewrite app_nil_r, M in H. congruence. Qed.
  Lemma ate_heads_hash (r : ate_result Q) : Forall (fun l => exists x, l = "#" ++ x) (ate_head T r).
  Proof. repeat constructor; eexists; reflexivity. Qed.

  Lemma ate_cut_read (r r' : ate_result Q) loc counted n : complete r -> xyz (ate_trajectory r) <> [] -> one_line (ate_name r) -> String.eqb (join " " (words (ate_name r))) "" = false ->
    ate_from_file qops T loc counted (take n (ate_content T show12 r (names2 (has_quats (rot (ate_trajectory r))) (has_quats (rot_dev r))) (all_rows qops r))) = Ok (Some r') ->
    ate_name r' = join " " (words (ate_name r)) /\ name (ate_trajectory r') = ate_name r' /\ epsg (ate_trajectory r') = epsg (ate_trajectory r) /\ first_deviations qops r r'.
  Proof.
    intros CR NE O NM H. set (nms := names2 _ _) in *. assert (has_char "#" (join "," nms) = false) as NH by (exact (proj1 (proj2 (names2_good _ _)))). set (s := ate_content _ _ _ _ _) in *.
    assert (file_lines s = (ate_head T r ++ body show12 nms (all_rows qops r))%list) as L.
    { unfold s. rewrite <- (append_nil (ate_content _ _ _ _ _)), (ate_lines T show12 TC FC) by (try exact O; apply names2_good). cbn [file_lines]. rewrite app_nil_r. reflexivity. }
    unfold ate_from_file in H. apply bind_ok in H as [h [HH H]]. apply bind_ok in H as [fr [HF H]]. apply bind_ok in H as [ts [E1 H]]. apply bind_ok in H as [al [E2 H]]. apply bind_ok in H as [ps [E3 H]].
    apply bind_ok in H as [ro [E4 H]]. apply bind_ok in H as [pd [E5 H]]. apply bind_ok in H as [dd [E6 H]]. apply bind_ok in H as [rd [E7 H]].
    destruct ts as [[|ts [|? ?]]|]; try discriminate. destruct al as [[|al [|? ?]]|]; try discriminate. destruct ps as [ps|]; [|discriminate]. destruct ro as [ro|]; [|discriminate].
    destruct pd as [pd|]; [|discriminate]. destruct dd as [dd|]; [|discriminate]. destruct rd as [rd|]; [|discriminate].
    apply bind_ok in H as [t [HT H]]. injection H as <-. unfold new_traj in HT. destruct (match ro with Some q => negb (length q =? length (v3_of ps))%nat | None => false end); [discriminate|].
    apply bind_ok in HT as [v [_ HT]]. injection HT as <-. cbn [ate_name name ate_trajectory epsg].
    assert (h = ate_header r -> (if String.eqb (h_name h) "" then counted else h_name h) = join " " (words (ate_name r)) /\ h_epsg h = epsg (ate_trajectory r)) as FIN.
    { intros ->. assert (h_name (ate_header r) = join " " (words (ate_name r))) as -> by reflexivity. rewrite NM. split; reflexivity. }
    destruct (cut_cases show12 s _ _ _ n L (ate_heads_hash r)) as [D|[(p & q & NP & JP & L')|(i & p & L' & B)]].
    - rewrite (no_frame _ D) in HF. discriminate.
    - assert (h = ate_header r) as EH.
      { apply (header_of_cut r _ [p] h L'); [|exact HH]. cbn [handle_lines]. rewrite hashless_untouched; [reflexivity|]. apply (has_char_prefix _ p q). rewrite <- JP. exact NH. }
      destruct fr as [nm got]. pose proof (names_frame _ _ _ _ _ L' eq_refl HF) as ->. cbn [fst snd] in *.
      apply empty_columns in E1, E2, E3, E5, E6. inversion E1; subst. inversion E2; subst. rewrite !(empty_three _ E3), !(empty_three _ E5), !(empty_three _ E6).
      destruct (FIN eq_refl) as (F1 & F2). split; [exact F1|]. split; [reflexivity|]. split; [exact F2|].
      exists 0%nat. cbn. split; [lia|]. do 4 (split; [constructor|]). split; [split; [reflexivity|intros [|?]; discriminate]|]. split; [intros _; constructor|]. split; congruence.
    - assert (h = ate_header r) as EH.
      { apply (header_of_cut r _ _ h L'); [|exact HH]. cbn [handle_lines]. rewrite hashless_untouched by exact NH. cbn [bind]. apply (torn_untouched T show12 FC _ _ _ _ B). }
      destruct (cut_table T show12 FC _ _ _ _ _ _ L' eq_refl (names2_good _ _) (names2_some _ _) (wide_all qops r) B) as (got & E & BG & _).
      rewrite E in HF. injection HF as <-. cbn [fst snd] in *.
      destruct (parts_read ops qops QC T show12 FC r CR got ts al ps ro pd dd rd BG E1 E2 E3 E4 E5 E6 E7) as (LM & P1 & P2 & P3 & P4 & P5 & P6 & P7 & P8).
      assert (length al = length (v3_of ps)) as LA.
      { rewrite (forall2_length _ _ _ P2), (forall2_length _ _ _ P3), !firstn_length. destruct CR as ((_ & _ & LC & _) & _). rewrite LC. reflexivity. }
      destruct (FIN EH) as (F1 & F2). split; [exact F1|]. split; [reflexivity|]. split; [exact F2|].
      exists (length got). cbn [ate_trajectory tstamps arc xyz rot pos_dev directed_pos_dev rot_dev]. rewrite LA, Nat.eqb_refl. auto 20.
  Qed.

  (** ** Cut off after [k] rows *)
  Lemma beside_firstn k x y : beside (firstn k x) (firstn k y) = firstn k (beside x y).
  Proof. unfold beside. rewrite firstn_map. f_equal. revert x y. induction k as [|k IH]; intros [|u x] [|v y]; cbn; try reflexivity. f_equal. apply IH. Qed.
  Lemma first_all_rows k (r : ate_result Q) : all_rows qops (first_rows k r) = firstn k (all_rows qops r).
  Proof.
    unfold all_rows, left_rows, right_rows, base_rows, dev_rows, first_rows, quat_rows, as_column. cbn [ate_trajectory tstamps arc xyz rot pos_dev directed_pos_dev rot_dev]. rewrite <- beside_firstn. f_equal.
    - destruct (rot (ate_trajectory r)) as [q|]; cbn [option_map]; rewrite <- !firstn_map, !beside_firstn; reflexivity.
    - destruct (rot_dev r) as [q|]; cbn [option_map]; rewrite <- !firstn_map, !beside_firstn; reflexivity.
  Qed.
  Lemma first_complete k (r : ate_result Q) : complete r -> complete (first_rows k r).
  Proof.
    intros ((A & B & C & D) & E & F & G). unfold complete, consistent, first_rows. cbn [ate_trajectory tstamps arc xyz rot speed pos_dev directed_pos_dev rot_dev]. rewrite !firstn_length, A, C, D, E, F.
    split; [|split; [reflexivity|split; [reflexivity|]]].
    - split; [reflexivity|]. split; [|split; reflexivity]. destruct (rot (ate_trajectory r)) as [q|]; [|exact I]. cbn. rewrite firstn_length, B. reflexivity.
    - destruct (rot_dev r) as [q|]; [|exact I]. cbn. rewrite firstn_length, G. reflexivity.
  Qed.
  Lemma has_quats_first k (o : option (list Q)) : has_quats (option_map (firstn k) o) = has_quats o.
  Proof. destruct o; reflexivity. Qed.

  Lemma ate_start k (r : ate_result Q) : complete r -> xyz (ate_trajectory r) <> [] -> (0 < k)%nat ->
    exists text rest, ate_to_file qops T show12 "" (first_rows k r) = Ok text /\ ate_to_file qops T show12 "" r = Ok (text ++ rest).
  Proof.
    intros CR NE K. assert (xyz (ate_trajectory (first_rows k r)) <> []) as NE' by (cbn; destruct k; [lia|]; destruct (xyz (ate_trajectory r)); [congruence|discriminate]).
    rewrite (written qops (first_rows k r) (first_complete k r CR) NE' T show12), (written qops r CR NE T show12). cbn [append].
    assert (has_quats (rot (ate_trajectory (first_rows k r))) = has_quats (rot (ate_trajectory r))) as -> by apply has_quats_first.
    assert (has_quats (rot_dev (first_rows k r)) = has_quats (rot_dev r)) as -> by apply has_quats_first. rewrite first_all_rows.
    eexists. exists (fold_right (fun row s => (join "," (map show12 row) ++ nl) ++ s) "" (skipn k (all_rows qops r))). split; [reflexivity|].
    f_equal. unfold ate_content. cbn [ate_name ate_trajectory first_rows epsg]. rewrite !append_assoc. repeat f_equal.
    rewrite <- (firstn_skipn k (all_rows qops r)) at 1. generalize (firstn k (all_rows qops r)), (skipn k (all_rows qops r)). clear. intros x y. induction x as [|u x IH]; [reflexivity|]. cbn [app fold_right]. rewrite IH, !append_assoc. reflexivity.
  Qed.
End Cut7.
