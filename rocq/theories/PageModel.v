(** What reports consist of, where they are written, and the geometry of some plots. *)
From Verif Require Import Base NumpyModel TrajModel EvalModel ParamModel DataModel EstModel TextModel HeaderModel IoModel AngModel RpeModel ReportModel ViewModel.

(** * Contents of reports *)
Inductive plot_kind :=
| PosOnTrack | RotOnTrack
| Rpe | PosHistogram | RotHistogram | PosBars | RotBars | Edf | Combined | PosComponents | RotComponents
| PosXOnTrack | PosYOnTrack | PosZOnTrack | RollOnTrack | PitchOnTrack | YawOnTrack.

(** [list.insert(n, x)] for n >= 0 *)
Definition py_insert {A} (n : nat) (x : A) (l : list A) : list A := firstn n l ++ x :: skipn n l.

(** report/single.py:24-32 [render_side_by_side_plots] *)
Definition side_by_side {Q} (r : ate_result Q) : list plot_kind := if has_orientation r then [PosOnTrack; RotOnTrack] else [PosOnTrack].

(** report/single.py:35-79 [render_one_line_plots] *)
Definition single_lines {Q} (detailed : bool) (a : option (ate_result Q)) (r : option rpe) : list plot_kind :=
  let lines := match r with Some _ => [Rpe] | None => [] end in
  match a with
  | None => lines
  | Some a =>
      let lines := lines ++ [PosHistogram; PosBars; Edf; Combined; PosComponents] in
      let lines := if detailed then lines ++ [PosXOnTrack; PosYOnTrack; PosZOnTrack] else lines in
      if negb (has_orientation a) then lines
      else
        let lines := py_insert 2 RotHistogram lines in
        let lines := py_insert 4 RotBars lines in
        let lines := lines ++ [RotComponents] in
        if detailed then lines ++ [RollOnTrack; PitchOnTrack; YawOnTrack] else lines
  end.

Section Single.
  Context {Q : Type} (as_rotvec : Q -> V3) (fixed : nat -> num -> string).

  Definition rad2deg (o : option R) : num := in_degrees (as_num o).

  (** The numbers above the plots of a single report *)
  Record card := mkCard { c_title : string; c_ate_pos : string; c_ate_pos_unit : string; c_ate_rot : string; c_rpe : option (string * string * string * string) }.

  (** report/single.py:82-137 [render_single_report]: the card, the plots next to each other and the plots below.  Making the report data scales
      the deviations of the result (report/data.py:33-36). *)
  Definition single_report (mm detailed : bool) (a : option (ate_result Q)) (r : option rpe) : result (card * list plot_kind * list plot_kind) :=
    match a, r with
    | None, None => Err ValueError
    | _, _ =>
        let a := option_map (report_data mm) a in
        let side := match a with Some a => side_by_side a | None => [] end in
        let lines := single_lines detailed a r in
        let lines' := if (length side =? 1)%nat then side ++ lines else lines in
        let side' := if (length side =? 1)%nat then [] else side in
        Ok (mkCard (match a, r with Some a, _ => ate_name a | None, Some r => r_name r | None, None => "" end)
                   (match a with Some a => fixed 3%nat (as_num (pos_ate a)) | None => "-" end)
                   (if mm then "mm" else "m")
                   (match a with Some a => fixed 3%nat (rad2deg (rot_ate as_rotvec a)) | None => "-" end)
                   (option_map (fun r => (fixed 3%nat (as_num (pos_rpe r)), pos_drift_unit r, fixed 3%nat (rad2deg (rot_rpe r)), rot_drift_unit r)) r),
            side', lines')%string
    end.

  (** report/multi.py:23-48 [render_one_line_plots] and 51-100 [render_multi_report]; an empty list of results raises IndexError in
      setup_dev_comb_axis and setup_rpe_axis. *)
  Definition multi_report (mm : bool) (a : option (list (ate_result Q))) (r : option (list rpe)) : result (list plot_kind) :=
    match a, r with
    | None, None => Err ValueError
    | Some [], _ | _, Some [] => Err IndexError
    | None, Some _ => Ok [Rpe]
    | Some a, _ =>
        let a := map (report_data mm) a in
        let lines := [Combined; Edf; PosBars; PosComponents] in
        let lines := if existsb has_orientation a then lines ++ [RotBars; RotComponents] else lines in
        Ok (match r with Some _ => py_insert 1 Rpe lines | None => lines end)
    end.
End Single.

(** plotting/plotly/multi_line_plots.py:170-234 [setup_rpe_axis], [render_rpe]: the units written at the axes (pair distance, positions,
    orientations if there are any) and the curves: pair distances against drifts *)
Record rpe_figure := mkRpeFigure { f_distance_unit : string; f_pos_unit : string; f_rot_unit : option string; f_pos : list (list R * list R); f_rot : list (list R * list R) }.
Definition render_rpe (rs : list rpe) : result rpe_figure :=
  match rs with
  | [] => Err IndexError
  | first :: _ =>
      let rotated := filter has_rot_dev rs in
      Ok (mkRpeFigure (match rotated with r :: _ => pair_distance_unit_str r | [] => pair_distance_unit_str first end)
            (pos_drift_unit first) (match rotated with r :: _ => Some (rot_drift_unit r) | [] => None end)
            (map (fun r => (mean_pair_distances r, pos_dev_of mean1 r)) rs)
            (map (fun r => (mean_pair_distances r, map (fun x => x * (180 / PI)) (rot_dev_of mean1 r))) rotated))
  end.

(** plotting/mpl/deviation_plot.py:268-369 [plot_rpe]: the curves of the figure over distances and of the figure over times; a figure
    without results is not returned.  A result with another unit than metres or seconds raises KeyError. *)
Definition plot_rpe (rs : list rpe) : result (option (list (list R * list R)) * option (list (list R * list R))) :=
  if forallb (fun r => match r_unit r with METER | SECOND => true | _ => false end) rs then
    let curves u := map (fun r => (mean_pair_distances r, pos_dev_of mean1 r)) (filter (fun r => Bool.eqb (is_meter (r_unit r)) u) rs) in
    let some u := existsb (fun r => Bool.eqb (is_meter (r_unit r)) u) rs in
    Ok (if some true then Some (curves true) else None, if some false then Some (curves false) else None)
  else Err KeyError.

(** * Files *)
(** Existing directories and the files with their contents; paths are texts and are not normalised. *)
Record disk := mkDisk { d_dirs : list string; d_files : list (string * string) }.
Definition slash : ascii := "/"%char.

(** posixpath.dirname: the part up to the last slash, ... *)
Fixpoint up_to_slash (p : string) : string :=
  match p with
  | "" => ""
  | String c r => match up_to_slash r with "" => if Ascii.eqb c slash then String c "" else "" | h => String c h end
  end%string.
(** ... without trailing slashes unless it consists of slashes *)
Fixpoint strip_slashes (p : string) : string :=
  match p with
  | "" => ""
  | String c r => match strip_slashes r with "" => if Ascii.eqb c slash then "" else String c "" | h => String c h end
  end%string.
Definition dirname (p : string) : string :=
  let h := up_to_slash p in match strip_slashes h with "" => h | s => s end%string.

Definition mem (s : string) (l : list string) : bool := existsb (String.eqb s) l.
Definition path_exists (d : disk) (p : string) : bool := mem p (d_dirs d) || mem p (map fst (d_files d)).
(** the directory a path lies in exists; the working directory always does *)
Definition has_parent (d : disk) (p : string) : bool := String.eqb (dirname p) "" || mem (dirname p) (d_dirs d).

(** os.mkdir and open(..., "w") with write; None stands for the exceptions of the operating system *)
Definition mkdir (d : disk) (p : string) : option disk :=
  if String.eqb p "" || path_exists d p || negb (has_parent d p) then None else Some (mkDisk (p :: d_dirs d) (d_files d)).
Definition write_file (d : disk) (p text : string) : option disk :=
  if String.eqb p "" || mem p (d_dirs d) || negb (has_parent d p) || String.eqb (up_to_slash p) p then None
  else Some (mkDisk (d_dirs d) ((p, text) :: filter (fun f => negb (String.eqb (fst f) p)) (d_files d))).
Definition read_file (d : disk) (p : string) : option string := option_map snd (find (fun f => String.eqb (fst f) p) (d_files d)).

(** report/utils.py:74-85 [write_report] *)
Definition write_report (d : disk) (output_file text : string) : option disk := write_file d output_file text.

(** report/utils.py:88-109 [show_report]: the disk and the file that is opened in the browser *)
Definition show_report (random : string) (d : disk) (text filepath : string) : option (disk * string) :=
  let dir := dirname filepath in
  let d := if path_exists d dir then Some d else mkdir d dir in
  match d with
  | None => None
  | Some d =>
      let file := if String.eqb filepath "" then (random ++ ".html")%string else filepath in
      match write_file d file text with Some d => Some (d, file) | None => None end
  end.

(** * Bars *)
(** np.linspace(a, b, n) *)
Definition linspace (a b : R) (n : nat) : list R :=
  match n with
  | 1%nat => [a]
  | _ => map (fun i => a + INR i * ((b - a) / INR (n - 1))) (seq 0 n)
  end.

Record bar := mkBar { b_result : nat; b_characteristic : nat; b_centre : R; b_width : R; b_height : num }.

(** plotting/mpl/deviation_plot.py:163-211 [plot_bars] *)
Definition characteristics {Q} (as_rotvec : Q -> V3) (positions mm : bool) (r : ate_result Q) : result (list num) :=
  let scaled x := match x with Fin v => Fin (v * (if mm then 1000 else 1)) | n => n end in
  if positions then
    let! lo := pos_dev_min r in
    let! hi := pos_dev_max r in
    Ok (map scaled [Fin lo; Fin hi; as_num (pos_ate r); as_num (pos_dev_median r); as_num (pos_dev_rms r); as_num (pos_dev_std r)])
  else
    let! lo := rot_dev_min as_rotvec r in
    let! hi := rot_dev_max as_rotvec r in
    Ok (map in_degrees [Fin lo; Fin hi; as_num (rot_ate as_rotvec r); as_num (rot_dev_median as_rotvec r); as_num (rot_dev_rms as_rotvec r); as_num (rot_dev_std as_rotvec r)]).
Definition plot_bars {Q} (as_rotvec : Q -> V3) (positions mm : bool) (rs : list (ate_result Q)) : result (list bar) :=
  match rs with
  | [] => Err ZeroDivisionError
  | _ =>
      let n := INR (length rs) in
      let width := 9 / 10 / n in
      let spacings := linspace (- width * (n - 1) / 2) (width * (n - 1) / 2) (length rs) in
      let! groups := mapM (fun irs =>
        let '(i, r, s) := irs in
        if (negb positions && negb (has_orientation r))%bool then Ok []
        else let! values := characteristics as_rotvec positions mm r in
             Ok (map (fun kv => mkBar i (fst kv) (INR (fst kv) + s) width (snd kv)) (combine (seq 0 6) values)))
        (combine (combine (seq 0 (length rs)) rs) spacings) in
      Ok (concat groups)
  end.

(** * Histograms *)
(** np.histogram with given edges: half-open bins, the last one closed *)
Fixpoint histogram (edges l : list R) : list nat :=
  match edges with
  | a :: ((b :: r) as rest) =>
      match r with
      | [] => [length (filter (fun x => Rleb a x && Rleb x b)%bool l)]
      | _ => length (filter (fun x => Rleb a x && Rltb x b)%bool l) :: histogram rest l
      end
  | _ => []
  end.
(** plotting/mpl/deviation_plot.py:27-38 [_norm_hist]: the edges in the unit of the plot and the heights; the automatic choice of the edges is
    an argument.  0 / 0 is not-a-number. *)
Definition norm_hist (auto : list R -> list R) (mm norm : bool) (l : list R) : list R * list num :=
  let l := filter (fun x => Rltb (1 / 1000000) (Rabs x)) l in
  let edges := auto l in
  let heights := map (fun c => if norm then (if (length l =? 0)%nat then NaN else Fin (INR c / INR (length l))) else Fin (INR c)) (histogram edges l) in
  (if mm then map (fun e => e * 1000) edges else edges, heights).

(** * Equal axes *)
(** plotting/mpl/trajectory_plot.py:139-157 [set_aspect_equal_3d]: the new limits of the three axes *)
Definition set_aspect_equal (lims : list (R * R)) : result (list (R * R)) :=
  let mean l := (fst l + snd l) / 2 in
  let! radius := np_max (flat_map (fun l => [Rabs (fst l - mean l); Rabs (snd l - mean l)]) lims) in
  Ok (map (fun l => (mean l - radius, mean l + radius)) lims).
