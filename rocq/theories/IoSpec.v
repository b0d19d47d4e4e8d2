(** Vocabulary of the file properties: contracts of the external text and quaternion functions, what a header line says,
    and when a trajectory read from a file agrees with the one written. *)
From Verif Require Import Base EstModel TextModel TextFacts HeaderModel NumpyModel TrajModel TrajSpec GeomModel GeomSpec IoModel.
Local Open Scope string_scope.

(** Contract of the number formats: integers are written exactly and as one word, "%.9f" writes one word without comma and
    hash that is read as a number at most half a unit of the last digit away. *)
Record text_contract (T : text_ops) : Prop := mkTextContract {
  tc_int : forall z, integer T (show_int T z) = Some z;
  tc_int_word : forall z, word (show_int T z);
  tc_num : forall x, exists y, number T (show9 T x) = Some (Fin y) /\ Rabs (y - x) <= 5 / 10 ^ 10;
  tc_num_word : forall x, word (show9 T x);
  tc_num_comma : forall x, has_char "," (show9 T x) = false;
  tc_num_hash : forall x, has_char "#" (show9 T x) = false
}.

(** ** Header lines *)

(** [l] is a header line with tag [k]: it starts with "#", and its first word is "#k". *)
Definition tag_line (k l : string) : Prop :=
  (exists r, l = "#" ++ r) /\ (exists ws, words l = ("#" ++ k) :: ws).
Definition untagged (k : string) (lines : list string) : Prop := forall l, In l lines -> ~ tag_line k l.
(** [l] is the last header line with tag [k]. *)
Definition last_tagged (k : string) (lines : list string) (l : string) : Prop :=
  exists before after, lines = (before ++ l :: after)%list /\ tag_line k l /\ untagged k after.

(** [v] is the value of tag [k]: the default without such a line, otherwise what the last such line says. *)
Definition tag_value {A} (lines : list string) (k : string) (default : A) (says : string -> option A) (v : A) : Prop :=
  (untagged k lines -> v = default) /\ (forall l, last_tagged k lines l -> says l = Some v).

(** What a header line says: the words after the tag, joined by single spaces. *)
Definition says_text (l : string) : option string := Some (join " " (tl (words l))).
(** The first word after the tag as a number *)
Definition says_int (T : text_ops) (l : string) : option Z :=
  match words l with _ :: w :: _ => integer T w | _ => None end.
Definition says_num (T : text_ops) (l : string) : option num :=
  match words l with _ :: w :: _ => number T w | _ => None end.

(** ** Written and read trajectories *)

Definition near (x y : R) : Prop := Rabs (y - x) <= 5 / 10 ^ 10.
Definition near_v3 (a b : V3) : Prop := near (vx a) (vx b) /\ near (vy a) (vy b) /\ near (vz a) (vz b).
(** Components of unit quaternions; reading normalises them again. *)
Definition near_quat (a b : V4) : Prop :=
  Rabs (q_x b - q_x a) <= 15 / 10 ^ 10 /\ Rabs (q_y b - q_y a) <= 15 / 10 ^ 10 /\
  Rabs (q_z b - q_z a) <= 15 / 10 ^ 10 /\ Rabs (q_w b - q_w a) <= 15 / 10 ^ 10.

Definition qnorm (v : V4) : R := sqrt (q_x v * q_x v + q_y v * q_y v + q_z v * q_z v + q_w v * q_w v).
Definition qscale (s : R) (v : V4) : V4 := mkV4 (s * q_x v) (s * q_y v) (s * q_z v) (s * q_w v).

(** Contract of scipy's quaternions: unit norm, [from_quat] normalises and refuses zero, multiplying with the rotation
    of the identity matrix changes nothing. *)
Record quat_contract {Q} (ops : rot_ops Q) (qops : quat_ops Q) : Prop := mkQuatContract {
  qc_unit : forall q, qnorm (as_quat qops q) = 1;
  qc_zero : forall v, qnorm v = 0 -> from_quat qops v = None;
  qc_from : forall v, qnorm v <> 0 -> exists q, from_quat qops v = Some q /\ as_quat qops q = qscale (/ qnorm v) v;
  qc_ident : forall q, as_quat qops (rmul ops (from_matrix ops mident) q) = as_quat qops q
}.

Definition near_pose {Q} (qops : quat_ops Q) (a b : pose Q) : Prop :=
  near (p_t a) (p_t b) /\ near_v3 (p_xyz a) (p_xyz b) /\ near (p_arc a) (p_arc b) /\ near_v3 (p_speed a) (p_speed b) /\
  match p_rot a, p_rot b with
  | None, None => True
  | Some q, Some r => near_quat (as_quat qops q) (as_quat qops r)
  | _, _ => False
  end.

(** ** Navigation frames *)

(** ENU coordinates of the direction a letter stands for *)
Definition direction (c : ascii) : option V3 :=
  if Ascii.eqb c "e" then Some (mkV3 1 0 0)
  else if Ascii.eqb c "n" then Some (mkV3 0 1 0)
  else if Ascii.eqb c "u" then Some (mkV3 0 0 1)
  else if Ascii.eqb c "d" then Some (mkV3 0 0 (-1))
  else None.
(** [m] turns coordinates in the frame with the axes [a], [b], [c] into ENU coordinates. *)
Definition converts (m : M3) (a b c : ascii) : Prop :=
  direction a = Some (mapply m (mkV3 1 0 0)) /\ direction b = Some (mapply m (mkV3 0 1 0)) /\
  direction c = Some (mapply m (mkV3 0 0 1)).
(** The frame names made of the letters e, n and u or d, once each *)
Definition frame_names : list string :=
  ["enu"; "eun"; "neu"; "nue"; "uen"; "une"; "end"; "edn"; "ned"; "nde"; "den"; "dne"].

(** ** Columns and streams *)

(** The column of numbers [xs] at position [j] of a table *)
Definition number_column (T : text_ops) (d : data) (j : nat) (xs : list R) : Prop :=
  exists n rows, d = Table n rows /\ (j < n)%nat /\
    Forall2 (fun r x => exists s, nth_error r j = Some (Some s) /\ number T s = Some (Fin x)) rows xs.

(** Dates: the cells of one text column [j] *)
Definition text_cells (T : text_ops) (d : data) (j : nat) (ss : list string) : Prop :=
  exists n rows, d = Table n rows /\ (j < n)%nat /\
    Forall2 (fun r s => nth_error r j = Some (Some s)) rows ss /\ (exists s, In s ss /\ number T s = None).

(** Only \n, \r and \r\n end lines in this text. *)
Fixpoint plain_ends (s : string) : bool :=
  match s with
  | "" => true
  | String c r => (implb (ends_line c) (Ascii.eqb c newline || Ascii.eqb c return_char) && plain_ends r)%bool
  end.

(** The text read with the header's delimiter is a table with at least two columns. *)
Definition several_columns (T : text_ops) (text : string) : Prop :=
  exists h n rows, header_from_file T text = Ok h /\ read_csv (h_delimiter h) text = Some (Table n rows) /\ n <> 1%nat.
