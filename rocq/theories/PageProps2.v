(** Property C110, continued: where no report can be written. *)
From Verif Require Import Base PageModel PageSpec PageFacts.

(** A report is written exactly to paths that name a file: not empty, not ending in a slash, not an existing directory, in a directory that exists. *)
Theorem C110_unwritten : forall d text p,
  write_report d p text = None <-> p = ""%string \/ up_to_slash p = p \/ In p (d_dirs d) \/ (dirname p <> ""%string /\ ~ In (dirname p) (d_dirs d)).
Proof.
  intros d text p. unfold write_report, write_file, has_parent.
  assert (M : forall s, mem s (d_dirs d) = true <-> In s (d_dirs d)) by (intro s; apply mem_in).
  specialize (M (dirname p)) as M1. specialize (M p) as M2.
  destruct (String.eqb_spec p "") as [E1|E1]; cbn [orb]; [tauto|].
  destruct (mem p (d_dirs d)); cbn [orb]; [split; [intros _; right; right; left; apply M2; reflexivity|reflexivity]|].
  destruct (String.eqb_spec (dirname p) "") as [E2|E2]; cbn [orb negb].
  - destruct (String.eqb_spec (up_to_slash p) p) as [E3|E3]; [tauto|]. split; [discriminate|]. intros [H|[H|[H|[H _]]]]; try contradiction. apply M2 in H. discriminate.
  - destruct (mem (dirname p) (d_dirs d)); cbn [negb orb].
    + destruct (String.eqb_spec (up_to_slash p) p) as [E3|E3]; [tauto|]. split; [discriminate|]. intros [H|[H|[H|[_ H]]]]; try contradiction; [apply M2 in H; discriminate|]. contradiction H. apply M1. reflexivity.
    + split; [|reflexivity]. intros _. right; right; right. split; [exact E2|]. intro I. apply M1 in I. discriminate.
Qed.
Print Assumptions C110_unwritten.

Example C110_case_unwritten : let home := mkDisk ["/"; "/home"]%string [] in
  write_report home "/home" "text" = None /\ write_report home "" "text" = None /\ write_report home "/home/x/" "text" = None /\ write_report home "/tmp/a" "text" = None /\
  write_report home "/home/a" "text" <> None.
Proof. repeat split. discriminate. Qed.
Print Assumptions C110_case_unwritten.
