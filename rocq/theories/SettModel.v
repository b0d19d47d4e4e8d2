(** Settings objects: settings/base.py and the concrete settings classes. *)
From Coq Require Export String.
From Verif Require Import Base NumpyModel.

(** ** Python values that occur in settings and in JSON data *)
(** An enumeration with members of value 1 .. [en_size] ([auto()]). *)
Record enum := mkEnum { en_name : string; en_size : Z }.

(** A settings class: its annotated attributes in order.  An attribute is a plain value, a value
    converted by the class's encoder and decoder to and from the number of an enumeration member, or
    another settings object. *)
Inductive cls := Cls (name : string) (fs : fields)
with fields := FNil | FCons (n : string) (t : ftype) (r : fields)
with ftype := FPlain | FEnum (e : enum) | FNested (c : cls).

(** Values; a settings object knows its class and has its attributes ([__dict__]) in order. *)
Inductive val :=
| VNull | VBool (b : bool) | VInt (z : Z) | VNum (x : R) | VStr (s : string)
| VDict (d : kvs)
| VEnum (e : string) (n : Z)
| VObj (c : cls) (attrs : kvs)
with kvs := KNil | KCons (k : string) (v : val) (r : kvs).

(** [dct[name]] / [getattr] *)
Fixpoint lookup (n : string) (d : kvs) : option val :=
  match d with
  | KNil => None
  | KCons k v r => if String.eqb n k then Some v else lookup n r
  end.

(** [setattr] on an instance dictionary *)
Fixpoint set_attr (n : string) (v : val) (d : kvs) : kvs :=
  match d with
  | KNil => KCons n v KNil
  | KCons k w r => if String.eqb n k then KCons k v r else KCons k w (set_attr n v r)
  end.

(** The type of an attribute in its class. *)
Fixpoint field_type (n : string) (fs : fields) : option ftype :=
  match fs with
  | FNil => None
  | FCons k t r => if String.eqb n k then Some t else field_type n r
  end.

(** settings/base.py:27-35, matching.py:30-36, comparison.py:50-60: encoders and decoders.
    The encoder of an enumeration attribute takes [value.value]. *)
Definition encode (fs : fields) (n : string) (v : val) : result val :=
  match field_type n fs with
  | Some (FEnum _) => match v with VEnum _ k => Ok (VInt k) | _ => Err AttributeError end
  | _ => Ok v
  end.

(** [MatchingMethod(value)], [Unit(value)]: numbers equal to a member's value give the member, a member
    is returned as it is, everything else raises ValueError *)
Definition member (e : enum) (k : Z) : result val :=
  if ((1 <=? k)%Z && (k <=? en_size e)%Z)%bool then Ok (VEnum (en_name e) k) else Err ValueError.
Fixpoint find_member (e : enum) (x : R) (n : nat) : result val :=
  match n with
  | O => Err ValueError
  | S n' => if Reqb x (IZR (Z.of_nat n)) then member e (Z.of_nat n) else find_member e x n'
  end.
Definition decode_enum (e : enum) (v : val) : result val :=
  match v with
  | VInt k => member e k
  | VBool b => member e (if b then 1 else 0)%Z
  | VNum x => find_member e x (Z.to_nat (en_size e))
  | VEnum m k => if String.eqb m (en_name e) then member e k else Err ValueError
  | _ => Err ValueError
  end.

(** settings/base.py:17-25 [to_dict]: over the instance dictionary *)
Fixpoint to_dict (v : val) : result val :=
  match v with
  | VObj (Cls _ fs) attrs => let! d := attrs_to_dict fs attrs in Ok (VDict d)
  | _ => Err AttributeError
  end
with attrs_to_dict (fs : fields) (attrs : kvs) : result kvs :=
  match attrs with
  | KNil => Ok KNil
  | KCons k v r =>
      let! x := match v with VObj _ _ => to_dict v | _ => encode fs k v end in
      let! r' := attrs_to_dict fs r in
      Ok (KCons k x r')
  end.

(** settings/base.py:45-59 [from_dict].  [cls()] creates the attributes with their defaults in field
    order and the loop overwrites all of them, so the defaults are not modelled here. *)
Fixpoint from_dict (c : cls) (d : kvs) : result val :=
  match c with
  | Cls _ fs => let! a := from_fields fs d in Ok (VObj c a)
  end
with from_fields (fs : fields) (d : kvs) : result kvs :=
  match fs with
  | FNil => Ok KNil
  | FCons n t r =>
      match lookup n d with
      | None => Err ValueError
      | Some v => let! x := from_field t v in let! r' := from_fields r d in Ok (KCons n x r')
      end
  end
with from_field (t : ftype) (v : val) : result val :=
  match t with
  | FPlain => Ok v
  | FEnum e => decode_enum e v
  | FNested c => match v with VDict dd => from_dict c dd | _ => Ok v end
  end.

(** settings/base.py:68-78 [update_from_dict].  The object is changed attribute by attribute; the
    result is the object after the call and the exception, if any.  Nested settings objects are updated
    in place by their own method; anything else in their place has no such method. *)
Definition update_result : Type := val * option err.

Definition assoc_updater (n : string) (ups : list (string * option (kvs -> update_result))) : option (kvs -> update_result) :=
  match find (fun kf => String.eqb n (fst kf)) ups with
  | Some (_, f) => f
  | None => None
  end.

Fixpoint update_fields (fs : fields) (ups : list (string * option (kvs -> update_result))) (attrs : kvs) (d : kvs)
  : kvs * option err :=
  match fs with
  | FNil => (attrs, None)
  | FCons n t r =>
      match lookup n d with
      | None => (attrs, Some ValueError)
      | Some x =>
          match t, x with
          | FNested _, VDict dd =>
              match assoc_updater n ups with
              | None => (attrs, Some AttributeError)
              | Some f =>
                  match f dd with
                  | (v', Some e) => (set_attr n v' attrs, Some e)
                  | (v', None) => update_fields r ups (set_attr n v' attrs) d
                  end
              end
          | FEnum e, _ =>
              match decode_enum e x with
              | Ok v' => update_fields r ups (set_attr n v' attrs) d
              | Err er => (attrs, Some er)
              end
          | _, _ => update_fields r ups (set_attr n x attrs) d
          end
      end
  end.

Fixpoint updater (v : val) : option (kvs -> update_result) :=
  match v with
  | VObj (Cls nm fs) attrs =>
      Some (fun d => let ae := update_fields fs (updaters attrs) attrs d in (VObj (Cls nm fs) (fst ae), snd ae))
  | _ => None
  end
with updaters (l : kvs) : list (string * option (kvs -> update_result)) :=
  match l with
  | KNil => []
  | KCons k v r => (k, updater v) :: updaters r
  end.

Definition update_from_dict (v : val) (d : kvs) : update_result :=
  match updater v with
  | Some f => f d
  | None => (v, Some AttributeError)
  end.

(** ** Files *)
(** [json.dumps] accepts None, booleans, numbers, strings and dictionaries of such (lists do not occur)
    and raises TypeError for anything else; [json.load] gives the data back. *)
Fixpoint json_ok (v : val) : bool :=
  match v with
  | VNull | VBool _ | VInt _ | VNum _ | VStr _ => true
  | VDict d => json_ok_all d
  | VEnum _ _ | VObj _ _ => false
  end
with json_ok_all (d : kvs) : bool :=
  match d with
  | KNil => true
  | KCons _ v r => (json_ok v && json_ok_all r)%bool
  end.

(** The content of a file: nothing at all, or a JSON document. *)
Inductive content := Empty | Document (v : val).

(** settings/base.py:37-43 [to_json], [to_file]: the file is opened for writing, and thereby emptied,
    before the text is made.  Result: content afterwards and outcome. *)
Definition to_json (v : val) : result val :=
  let! d := to_dict v in if json_ok d then Ok d else Err TypeError.
Definition settings_to_file (v : val) (old : option content) : content * result unit :=
  match to_json v with
  | Ok d => (Document d, Ok tt)
  | Err e => (Empty, Err e)
  end.

(** settings/base.py:61-66 [from_file]; an empty file is not JSON (JSONDecodeError, a ValueError); data
    that is no dictionary: the membership test raises TypeError for numbers, finds nothing in strings
    unless the name is a substring (not modelled: documents are dictionaries here); the file exists *)
Definition settings_from_file (c : cls) (f : content) : result val :=
  match f with
  | Document (VDict d) => from_dict c d
  | Document _ => Err TypeError
  | Empty => Err ValueError
  end.

(** ** The concrete classes *)
Definition plain (l : list string) : fields := fold_right (fun n r => FCons n FPlain r) FNil l.
Fixpoint fields_app (a b : fields) : fields :=
  match a with FNil => b | FCons n t r => FCons n t (fields_app r b) end.

(** settings/alignment.py:18-24 *)
Definition AlignmentPreprocessing : cls :=
  Cls "AlignmentPreprocessing" (plain ["min_speed"; "time_start"; "time_end"]%string).
(** settings/alignment.py:28-55 *)
Definition AlignmentEstimationSettings : cls :=
  Cls "AlignmentEstimationSettings" (plain ["trans_x"; "trans_y"; "trans_z"; "rot_x"; "rot_y"; "rot_z"; "scale"; "time_shift";
    "use_x_speed"; "use_y_speed"; "use_z_speed"; "lever_x"; "lever_y"; "lever_z"; "sensor_rotation"; "auto_update"]%string).
(** settings/alignment.py:219-231 *)
Definition AlignmentStochastics : cls :=
  Cls "AlignmentStochastics" (plain ["std_xy_from"; "std_z_from"; "std_xy_to"; "std_z_to"; "std_roll_pitch"; "std_yaw"; "std_speed";
    "error_probability"; "variance_estimation"]%string).
(** settings/alignment.py:262-288 *)
Definition AlignmentSettings : cls :=
  Cls "AlignmentSettings"
    (FCons "preprocessing" (FNested AlignmentPreprocessing)
    (FCons "estimation_settings" (FNested AlignmentEstimationSettings)
    (FCons "stochastics" (FNested AlignmentStochastics) (plain ["metric_threshold"; "time_threshold"]%string)))).
(** settings/matching.py:15-28 *)
Definition MatchingMethod : enum := mkEnum "MatchingMethod" 5.
Definition MatchingSettings : cls :=
  Cls "MatchingSettings" (FCons "method" (FEnum MatchingMethod) (plain ["max_time_diff"; "max_distance"; "k_nearest"]%string)).
(** settings/comparison.py:34-48, definitions.py:15-25 *)
Definition Unit : enum := mkEnum "Unit" 6.
Definition RelativeComparisonSettings : cls :=
  Cls "RelativeComparisonSettings" (fields_app (plain ["pair_min_distance"; "pair_max_distance"; "pair_distance_step"]%string)
    (FCons "pair_distance_unit" (FEnum Unit) (plain ["use_all_pose_pairs"]%string))).
(** settings/approximation.py:6-12, settings/sorting.py:10-17 *)
Definition ApproximationSettings : cls :=
  Cls "ApproximationSettings" (plain ["fe_int_size"; "fe_min_obs"; "rot_approx_win_size"]%string).
Definition SortingSettings : cls :=
  Cls "SortingSettings" (plain ["discard_missing"; "voxel_size"; "movement_threshold"; "k_nearest"]%string).
(** settings/processing.py:18-26 *)
Definition ProcessingSettings : cls :=
  Cls "ProcessingSettings"
    (FCons "alignment" (FNested AlignmentSettings) (FCons "matching" (FNested MatchingSettings)
    (FCons "relative_comparison" (FNested RelativeComparisonSettings)
    (FCons "approximation" (FNested ApproximationSettings) (FCons "sorting" (FNested SortingSettings) FNil))))).
(** settings/report.py:13-18, 31-131 *)
Definition ExportSettings : cls := Cls "ExportSettings" (plain ["format"; "height"; "width"; "scale"]%string).
Definition ReportSettings : cls :=
  Cls "ReportSettings" (fields_app (plain [
    "single_plot_height"; "two_subplots_height"; "three_subplots_height"; "scatter_max_std"; "ate_unit_is_mm"; "directed_ate";
    "histogram_opacity"; "histogram_bargap"; "histogram_barmode"; "histogram_yaxis_title"; "plot_mode"; "scatter_mode";
    "scatter_colorscale"; "scatter_axis_order"; "scatter_marker_size"; "scatter_detailed"; "scatter_mapbox"; "scatter_mapbox_style";
    "scatter_mapbox_zoom"; "scatter_mapbox_token"; "pos_x_name"; "pos_y_name"; "pos_z_name"; "pos_x_unit"; "pos_y_unit"; "pos_z_unit";
    "pos_dir_dev_x_name"; "pos_dir_dev_y_name"; "pos_dir_dev_z_name"; "rot_x_name"; "rot_y_name"; "rot_z_name"; "rot_unit"]%string)
    (FCons "single_plot_export" (FNested ExportSettings) (FCons "two_subplots_export" (FNested ExportSettings)
    (FCons "three_subplots_export" (FNested ExportSettings) FNil)))).

(** settings/mpl_settings.py:15-27 *)
Definition MPLPlotSettings : cls :=
  Cls "MPLPlotSettings" (plain ["scatter_cbar_show_zero"; "scatter_cbar_steps"; "scatter_no_axis"; "scatter_sigma_factor"; "ate_unit_is_mm"; "hist_as_stairs";
    "heatmap_spacing"; "show_directed_devs"]%string).

Definition all_classes : list cls :=
  [ AlignmentPreprocessing; AlignmentEstimationSettings; AlignmentStochastics; AlignmentSettings; MatchingSettings;
    RelativeComparisonSettings; ApproximationSettings; SortingSettings; ProcessingSettings; ExportSettings; ReportSettings; MPLPlotSettings ].
