(** Vocabulary for the contents of reports and the geometry of plots. *)
From Verif Require Import Base NumpyModel EvalModel EstModel TextModel RpeModel HeaderModel PageModel.

(** Which plots a report of an absolute error [a] (does it have orientations?) and of relative errors ought to show *)
Definition wanted (detailed : bool) (a : option bool) (with_rpe : Prop) (k : plot_kind) : Prop :=
  match k with
  | Rpe => with_rpe
  | PosOnTrack | PosHistogram | PosBars | Edf | Combined | PosComponents => a <> None
  | RotOnTrack | RotHistogram | RotBars | RotComponents => a = Some true
  | PosXOnTrack | PosYOnTrack | PosZOnTrack => a <> None /\ detailed = true
  | RollOnTrack | PitchOnTrack | YawOnTrack => a = Some true /\ detailed = true
  end.

(** A path without a slash names a file in the working directory; the empty text is never a path. *)
Fixpoint no_slash (p : string) : Prop := match p with ""%string => True | String c r => c <> "/"%char /\ no_slash r end.
Definition sane (d : disk) : Prop := ~ In ""%string (d_dirs d) /\ ~ In ""%string (map fst (d_files d)).

(** The bars of the result with number [i] *)
Definition of_result (i : nat) (bars : list bar) : list bar := filter (fun b => (b_result b =? i)%nat) bars.

(** Bars of different results or characteristics do not overlap, and the bars of characteristic k stay within k - 9/20 and k + 9/20. *)
Definition disjoint (bars : list bar) : Prop :=
  (forall b, In b bars -> 0 < b_width b /\ Rabs (b_centre b - INR (b_characteristic b)) + b_width b / 2 <= 9 / 20) /\
  (forall b b', In b bars -> In b' bars -> (b_result b, b_characteristic b) <> (b_result b', b_characteristic b') -> b_width b / 2 + b_width b' / 2 <= Rabs (b_centre b - b_centre b')).

(** Automatic edges are strictly increasing and enclose all values. *)
Definition encloses (edges l : list R) : Prop :=
  StronglySorted Rlt edges /\ (2 <= length edges)%nat /\ (forall x, In x l -> hd 0 edges <= x <= last edges 0).
Definition auto_contract (auto : list R -> list R) : Prop := forall l, encloses (auto l) l.
