(** Alignment parameters and estimation settings: alignment/parameters.py and
    settings/alignment.py. *)
From Verif Require Import Base NumpyModel EvalModel.

(** * Matrices *)
(** A two-dimensional array; entries outside the shape are never read. *)
Record mat := mkMat { m_rows : nat; m_cols : nat; m_at : nat -> nat -> R }.

Definition np_zeros (n : nat) : mat := mkMat n n (fun _ _ => 0).

(** Position of [i] in a list of indices. *)
Fixpoint index_of (i : nat) (l : list nat) : option nat :=
  match l with
  | [] => None
  | j :: r => if (i =? j)%nat then Some 0%nat else option_map S (index_of i r)
  end.

(** [m[np.ix_(idx, idx)]]; IndexError if an index is out of range *)
Definition np_ix (m : mat) (idx : list nat) : result mat :=
  if forallb (fun i => (i <? m_rows m)%nat && (i <? m_cols m)%nat)%bool idx then
    Ok (mkMat (length idx) (length idx) (fun a b => m_at m (nth a idx 0%nat) (nth b idx 0%nat)))
  else Err IndexError.

(** [m[np.ix_(idx, idx)] = sub] for indices in range and a [sub] of matching shape (the only use) *)
Definition np_ix_set (m : mat) (idx : list nat) (sub : mat) : mat :=
  mkMat (m_rows m) (m_cols m) (fun i j =>
    match index_of i idx, index_of j idx with
    | Some a, Some b => m_at sub a b
    | _, _ => m_at m i j
    end).

(** [np.diag(m)] *)
Definition np_diag (m : mat) : list R := map (fun i => m_at m i i) (seq 0 (Nat.min (m_rows m) (m_cols m))).

(** [np.fill_diagonal(m, vals)]: the values are repeated if there are too few.  (Filling with no
    values at all raises in numpy; here it changes nothing.  It happens only for sets without
    parameters, which do not exist.) *)
Definition fill_diagonal (m : mat) (vals : list R) : mat :=
  mkMat (m_rows m) (m_cols m) (fun i j =>
    if (i =? j)%nat then
      match nth_error vals (i mod length vals) with Some v => v | None => m_at m i j end
    else m_at m i j).

(** [m[idx, idx] = vals] with as many values as indices (the only use) *)
Definition np_set_pairs (m : mat) (idx : list nat) (vals : list R) : result mat :=
  if forallb (fun i => (i <? m_rows m)%nat && (i <? m_cols m)%nat)%bool idx then
    Ok (mkMat (m_rows m) (m_cols m) (fun i j =>
      if (i =? j)%nat then
        match index_of i idx with
        | Some a => match nth_error vals a with Some v => v | None => m_at m i j end
        | None => m_at m i j
        end
      else m_at m i j))
  else Err IndexError.

(** * Parameters *)
(** parameters.py:25-67 [Parameter] ([name or "Parameter n"]: the running number is not modelled,
    an empty name stays empty) *)
Record param := mkParam {
  p_stored : R;        (* _value *)
  p_stored_var : R;    (* _variance *)
  p_default : R;
  p_enabled : bool;
  p_name : string;
  p_unit : unit_kind
}.

(** parameters.py:96-98 and 104-106: the value and variance properties *)
Definition p_value (p : param) : R := if p_enabled p then p_stored p else p_default p.
Definition p_variance (p : param) : R := if p_enabled p then p_stored_var p else 0.
(** parameters.py:100-102, 108-115: setters, enable, disable *)
Definition p_set_value (v : R) (p : param) : param :=
  mkParam v (p_stored_var p) (p_default p) (p_enabled p) (p_name p) (p_unit p).
Definition p_set_variance (v : R) (p : param) : param :=
  mkParam (p_stored p) v (p_default p) (p_enabled p) (p_name p) (p_unit p).
Definition p_set_enabled (b : bool) (p : param) : param :=
  mkParam (p_stored p) (p_stored_var p) (p_default p) b (p_name p) (p_unit p).

(** parameters.py:73-94: difference, sum and negation *)
Definition p_combine (f : R -> R -> R) (a b : param) : param :=
  mkParam (f (p_value a) (p_value b)) (sqrt (p_variance a ^ 2 + p_variance b ^ 2)) 0 true "" U_NONE.
Definition p_sub := p_combine Rminus.
Definition p_add := p_combine Rplus.
Definition p_neg (p : param) : param :=
  mkParam (- p_value p) (p_variance p) (- p_default p) (p_enabled p) (p_name p) (p_unit p).

(** parameters.py:118-131 [ParameterSet]: the Parameter fields in declaration order and the
    covariance matrix *)
Record pset := mkPset { ps_params : list param; ps_cov : mat; ps_enabled : bool }.

Definition ps_set_params (s : pset) (l : list param) : pset := mkPset l (ps_cov s) (ps_enabled s).
Definition ps_set_cov (s : pset) (m : mat) : pset := mkPset (ps_params s) m (ps_enabled s).

(** Which attribute [_get] and [_set] access. *)
Inductive key := KValue | KVariance.
Definition key_get (k : key) : param -> R := match k with KValue => p_value | KVariance => p_variance end.
Definition key_set (k : key) : R -> param -> param := match k with KValue => p_set_value | KVariance => p_set_variance end.

(** parameters.py:241-253 [_get] *)
Definition ps_get (s : pset) (k : key) (enabled_only : bool) : list R :=
  map (key_get k) (filter (fun p => negb (negb (p_enabled p) && enabled_only))%bool (ps_params s)).

(** parameters.py:280-282, 288-290, 296-298, 305-307 *)
Definition values s := ps_get s KValue false.
Definition values_enabled s := ps_get s KValue true.
Definition variances s := ps_get s KVariance false.
Definition variances_enabled s := ps_get s KVariance true.

(** parameters.py:133-134 [__len__], 147-153 [num_enabled], [any_enabled] *)
Definition ps_len (s : pset) : nat := length (values s).
Definition num_enabled (s : pset) : nat := length (values_enabled s).
Definition any_enabled (s : pset) : bool := (0 <? num_enabled s)%nat.

(** parameters.py:203-205, 212-214 *)
Definition enabled_bool_list (s : pset) : list bool := map p_enabled (ps_params s).
Definition enabled_indices (s : pset) : list nat :=
  map fst (filter (fun ib => snd ib) (enumerate (enabled_bool_list s))).

(** parameters.py:267-277: the loop of [_set]; running out of values raises IndexError *)
Fixpoint set_loop (k : key) (enabled_only : bool) (l : list param) (vals : list R) : result (list param) :=
  match l with
  | [] => Ok []
  | p :: r =>
      if (negb (p_enabled p) && enabled_only)%bool then
        let! r' := set_loop k enabled_only r vals in Ok (p :: r')
      else
        match vals with
        | [] => Err IndexError
        | v :: vs => let! r' := set_loop k enabled_only r vs in Ok (key_set k v p :: r')
        end
  end.

(** parameters.py:255-277 [_set] *)
Definition ps_set (s : pset) (vals : list R) (k : key) (enabled_only : bool) : result pset :=
  if (negb (num_enabled s =? length vals)%nat && enabled_only)%bool then Err ValueError
  else if (negb (ps_len s =? length vals)%nat && negb enabled_only)%bool then Err ValueError
  else let! l := set_loop k enabled_only (ps_params s) vals in Ok (ps_set_params s l).

(** parameters.py:284-286, 292-294: setters of the values *)
Definition set_values (s : pset) (vals : list R) := ps_set s vals KValue false.
Definition set_values_enabled (s : pset) (vals : list R) := ps_set s vals KValue true.
(** parameters.py:300-303, 309-312: setters of the variances *)
Definition set_variances (s : pset) (vals : list R) : result pset :=
  let! s' := ps_set s vals KVariance false in
  Ok (ps_set_cov s' (fill_diagonal (ps_cov s') vals)).
Definition set_variances_enabled (s : pset) (vals : list R) : result pset :=
  let! s' := ps_set s vals KVariance true in
  let! m := np_set_pairs (ps_cov s') (enabled_indices s') vals in
  Ok (ps_set_cov s' m).

(** parameters.py:155-159 [get_covariance_matrix] *)
Definition get_covariance (s : pset) (enabled_only : bool) : result mat :=
  if enabled_only then np_ix (ps_cov s) (enabled_indices s) else Ok (ps_cov s).

(** parameters.py:165-189 [validate_covariance] *)
Definition validate_covariance (s : pset) : result pset :=
  if negb (m_rows (ps_cov s) =? m_cols (ps_cov s))%nat then Err AlignmentParametersError
  else if (m_rows (ps_cov s) =? ps_len s)%nat then set_variances s (np_diag (ps_cov s))
  else if negb (m_rows (ps_cov s) =? num_enabled s)%nat then Err AlignmentParametersError
  else
    let s' := ps_set_cov s (np_ix_set (np_zeros (ps_len s)) (enabled_indices s) (ps_cov s)) in
    let! sub := get_covariance s' true in
    set_variances_enabled s' (np_diag sub).

(** parameters.py:161-163 [set_covariance_matrix].  The matrix is assigned before it is validated:
    the object after the call is the second component if the call raises. *)
Definition set_covariance_matrix (s : pset) (m : mat) : result pset := validate_covariance (ps_set_cov s m).
Definition after_set_covariance (s : pset) (m : mat) : pset :=
  match set_covariance_matrix s m with Ok s' => s' | Err _ => ps_set_cov s m end.

(** parameters.py:191-201 [enable], [disable] *)
Definition ps_enable (s : pset) : pset := mkPset (map (p_set_enabled true) (ps_params s)) (ps_cov s) true.
Definition ps_disable (s : pset) : pset := mkPset (map (p_set_enabled false) (ps_params s)) (ps_cov s) false.

(** parameters.py:207-210: [zip] stops at the shorter list *)
Fixpoint set_flags (l : list param) (bs : list bool) : list param :=
  match l, bs with
  | p :: r, b :: bs' => p_set_enabled b p :: set_flags r bs'
  | l, [] => l
  | [], _ => []
  end.
Definition set_enabled_bool_list (s : pset) (bs : list bool) : pset := ps_set_params s (set_flags (ps_params s) bs).

(** parameters.py:126-131 [__post_init__] *)
Definition post_init (l : list param) (cov : mat) : result pset :=
  let s := mkPset l cov true in
  if (m_rows cov =? ps_len s)%nat then validate_covariance s
  else Ok (ps_set_cov s (np_zeros (ps_len s))).

(** The calls that change a parameter set.  A call that raises leaves the set as it was, except
    for [set_covariance_matrix] (see [after_set_covariance]).  The variance setters raise before they
    change anything if the number of values is wrong; given a covariance matrix of the wrong shape they
    raise after changing the variances, which is not modelled: [call] is meant for sets with a
    covariance matrix of the right shape. *)
Inductive call :=
| CallValues (v : list R) | CallValuesEnabled (v : list R)
| CallVariances (v : list R) | CallVariancesEnabled (v : list R)
| CallCovariance (m : mat)
| CallEnable | CallDisable | CallFlags (bs : list bool).

Definition or_same (s : pset) (r : result pset) : pset := match r with Ok s' => s' | Err _ => s end.
Definition run_call (s : pset) (c : call) : pset :=
  match c with
  | CallValues v => or_same s (set_values s v)
  | CallValuesEnabled v => or_same s (set_values_enabled s v)
  | CallVariances v => or_same s (set_variances s v)
  | CallVariancesEnabled v => or_same s (set_variances_enabled s v)
  | CallCovariance m => after_set_covariance s m
  | CallEnable => ps_enable s
  | CallDisable => ps_disable s
  | CallFlags bs => set_enabled_bool_list s bs
  end.
Definition run_calls (s : pset) (cs : list call) : pset := fold_left run_call cs s.

(** * Estimation settings *)
(** settings/alignment.py:28-55 [AlignmentEstimationSettings] *)
Record est_settings := mkEst {
  trans_x : bool; trans_y : bool; trans_z : bool;
  rot_x : bool; rot_y : bool; rot_z : bool;
  scale : bool;
  time_shift : bool; use_x_speed : bool; use_y_speed : bool; use_z_speed : bool;
  lever_x : bool; lever_y : bool; lever_z : bool;
  sensor_rotation : bool; auto_update : bool
}.

Definition any (l : list bool) : bool := existsb (fun b => b) l.

(** settings/alignment.py:147-149, 151-153 *)
Definition helmert_enabled (e : est_settings) : bool :=
  any [trans_x e; trans_y e; trans_z e; rot_x e; rot_y e; rot_z e; scale e].
Definition leverarm_enabled (e : est_settings) : bool := any [lever_x e; lever_y e; lever_z e].
(** settings/alignment.py:178-183 *)
Definition time_shift_filter (e : est_settings) : list bool :=
  if negb (time_shift e) then [false; false; false] else [use_x_speed e; use_y_speed e; use_z_speed e].
(** settings/alignment.py:155-157 *)
Definition time_shift_enabled (e : est_settings) : bool := any (time_shift_filter e).
(** settings/alignment.py:185-197 *)
Definition helmert_filter (e : est_settings) : list bool :=
  if negb (helmert_enabled e) then [false; false; false; false; false; false; false]
  else [trans_x e; trans_y e; trans_z e; rot_x e; rot_y e; rot_z e; scale e].
Definition leverarm_filter (e : est_settings) : list bool :=
  if negb (leverarm_enabled e) then [false; false; false] else [lever_x e; lever_y e; lever_z e].
(** settings/alignment.py:199-212 *)
Definition enabled_lq_parameter_filter (e : est_settings) : list bool :=
  (if helmert_enabled e then helmert_filter e else [])
  ++ (if time_shift_enabled e then [time_shift e] else [])
  ++ (if leverarm_enabled e then leverarm_filter e else []).
(** settings/alignment.py:214-216 *)
Definition lq_parameter_filter (e : est_settings) : list bool :=
  helmert_filter e ++ [time_shift_enabled e] ++ leverarm_filter e.
(** settings/alignment.py:131-145, 57-58 *)
Definition all_disabled (e : est_settings) : bool :=
  negb (any [helmert_enabled e; time_shift_enabled e; leverarm_enabled e; sensor_rotation e]).
Definition all_lq_disabled (e : est_settings) : bool :=
  negb (any [helmert_enabled e; time_shift_enabled e; leverarm_enabled e]).
Definition est_bool (e : est_settings) : bool := negb (all_lq_disabled e).

(** settings/alignment.py:60-86 [from_components] *)
Definition from_components (similarity time_shift leverarm sensor auto : bool) : est_settings :=
  mkEst similarity similarity similarity similarity similarity similarity similarity
        time_shift time_shift time_shift time_shift leverarm leverarm leverarm sensor auto.

(** settings/alignment.py:88-107 [all] *)
Definition est_all (sensor auto : bool) : est_settings :=
  mkEst true true true true true true true true true true true true true true sensor auto.

(** settings/alignment.py:109-129 [from_bool_list]; the speed switches keep their default *)
Definition from_bool_list (l : list bool) : result est_settings :=
  match l with
  | [a; b; c; d; e; f; g; h; i; j; k; x; y; z] =>
      Ok (mkEst a b c d e f g h true true true i j k (any [x; y; z]) false)
  | _ => Err ValueError
  end.

(** settings/alignment.py:159-176 [short_mode_str] *)
Definition short_mode_str (e : est_settings) : string :=
  ((if helmert_enabled e then "Helmert " else "")
   ++ (if time_shift_enabled e then "Time-Shift " else "")
   ++ (if leverarm_enabled e then "Leverarm " else "")
   ++ (if sensor_rotation e then "Sensor-Rotation" else ""))%string.

(** * Alignment parameters *)
(** parameters.py:399-435: the eleven fields with their defaults *)
Definition default_params : list param :=
  [ mkParam 0 0 0 false "Translation x" U_METER; mkParam 0 0 0 false "Translation y" U_METER;
    mkParam 0 0 0 false "Translation z" U_METER;
    mkParam 0 0 0 false "Rotation x" U_RADIAN; mkParam 0 0 0 false "Rotation y" U_RADIAN;
    mkParam 0 0 0 false "Rotation z" U_RADIAN;
    mkParam 1 0 1 false "Scale" U_SCALE;
    mkParam 0 0 0 false "Time Shift" U_SECOND;
    mkParam 0 0 0 false "Leverarm x" U_METER; mkParam 0 0 0 false "Leverarm y" U_METER;
    mkParam 0 0 0 false "Leverarm z" U_METER ].
Definition default_alignment : pset := mkPset default_params (np_zeros 11) true.

(** parameters.py:569-604 *)
Definition default_sensor_params : list param :=
  [ mkParam 0 0 0 false "Sensor Rotation x" U_RADIAN; mkParam 0 0 0 false "Sensor Rotation y" U_RADIAN;
    mkParam 0 0 0 false "Sensor Rotation z" U_RADIAN ].
Definition default_sensor : pset := mkPset default_sensor_params (np_zeros 3) true.

(** parameters.py:457-471 [from_settings] *)
Definition from_settings (e : est_settings) : pset :=
  let par (en : bool) (v : R) := mkParam v 0 v en "" U_NONE in
  mkPset [ par (trans_x e) 0; par (trans_x e) 0; par (trans_x e) 0;
           par (rot_x e) 0; par (rot_y e) 0; par (rot_z e) 0; par (scale e) 1; par (time_shift e) 0;
           par (lever_x e) 0; par (lever_y e) 0; par (lever_z e) 0 ] (np_zeros 11) true.

(** parameters.py:473-487 [apply_settings]: assigns the flags of the eleven fields (the list has eleven
    elements) *)
Definition apply_settings (s : pset) (e : est_settings) : pset :=
  ps_set_params s (set_flags (ps_params s)
    [ trans_x e && helmert_enabled e; trans_y e && helmert_enabled e; trans_z e && helmert_enabled e;
      rot_x e && helmert_enabled e; rot_y e && helmert_enabled e; rot_z e && helmert_enabled e;
      scale e && helmert_enabled e;
      time_shift_enabled e;
      lever_x e && leverarm_enabled e; lever_y e && leverarm_enabled e; lever_z e && leverarm_enabled e ])%bool.

(** parameters.py:552-566 [to_estimation_settings]; the other switches keep their defaults *)
Definition to_estimation_settings (s : pset) : result est_settings :=
  match enabled_bool_list s with
  | [a; b; c; d; e; f; g; h; i; j; k] => Ok (mkEst a b c d e f g h true true true i j k false false)
  | _ => Err AttributeError
  end.

(** * Files *)
(** A csv file: comment lines and rows of numbers. *)
Inductive csv_line := CsvComment (text : string) | CsvRow (cells : list R).

(** [pd.read_csv(filename, comment="#", header=None)]: the number of columns is that of the first
    row; shorter rows are filled with nan (None), a longer row raises a parser error (a ValueError);
    a file without rows raises EmptyDataError (a ValueError). *)
Fixpoint csv_rows (f : list csv_line) : list (list R) :=
  match f with
  | [] => []
  | CsvComment _ :: r => csv_rows r
  | CsvRow c :: r => c :: csv_rows r
  end.
Definition pad (n : nat) (c : list R) : list (option R) := map Some c ++ repeat None (n - length c).
Definition read_csv (f : list csv_line) : result (list (list (option R))) :=
  match csv_rows f with
  | [] => Err ValueError
  | c0 :: r =>
      if forallb (fun c => (length c <=? length c0)%nat) r then Ok (map (pad (length c0)) (c0 :: r))
      else Err ValueError
  end.

(** One column of the table; a column beyond the table raises IndexError.  A nan among the values is
    not a number here: reading one is outside the model (ValueError), it does not occur in files
    written by the package. *)
Definition column (t : list (list (option R))) (k : nat) : result (list R) :=
  mapM (fun row => match nth_error row k with
                   | None => Err IndexError
                   | Some None => Err ValueError
                   | Some (Some v) => Ok v
                   end) t.

(** Numbers of a block of the table. *)
Definition numbers (t : list (list (option R))) : result (list (list R)) :=
  mapM (mapM (fun c => match c with Some v => Ok v | None => Err ValueError end)) t.

Definition mat_of_rows (cols : nat) (l : list (list R)) : mat :=
  mkMat (length l) cols (fun i j => nth j (nth i l []) 0).

Definition bool_num (b : bool) : R := if b then 1 else 0.

(** [np.c_[values, cov]] and [np.c_[values, flags, cov]], row by row *)
Definition cov_row (m : mat) (i : nat) : list R := map (m_at m i) (seq 0 (m_cols m)).
Definition param_rows (s : pset) : list (list R) :=
  map (fun iv => snd iv :: cov_row (ps_cov s) (fst iv)) (enumerate (values s)).
Definition param_rows_flags (s : pset) : list (list R) :=
  map (fun ivb => snd (snd ivb) :: bool_num (fst (snd ivb)) :: cov_row (ps_cov s) (fst ivb))
      (enumerate (combine (enabled_bool_list s) (values s))).

(** parameters.py:510-532 [AlignmentParameters.to_file]: a fresh file, floats written with full
    precision *)
Definition params_to_file (s : pset) : list csv_line := map CsvRow (param_rows s).

(** parameters.py:537-550 [AlignmentParameters.from_file] *)
Definition params_from_file (f : list csv_line) : result pset :=
  let! t := read_csv f in
  let head := firstn 11 t in
  let! vals := column head 0 in
  let! s := set_values default_alignment vals in
  let! flags := column head 1 in
  let s := set_enabled_bool_list s (map (fun x => negb (Reqb x 0)) flags) in
  let! rows := numbers (map (skipn 2) head) in
  set_covariance_matrix s (mat_of_rows (match t with r :: _ => length r - 2 | [] => 0 end)%nat rows).

(** parameters.py:614-625 [SensorRotationParameters.from_file] *)
Definition sensor_from_file (f : list csv_line) : result pset :=
  let! t := read_csv f in
  if negb (length t =? 14)%nat then Err ValueError
  else
    let tail := skipn 11 t in
    let! flags := column tail 1 in
    let! vals := column tail 0 in
    let! s := set_values default_sensor vals in
    Ok (set_enabled_bool_list s (map (fun x => negb (Reqb x 0)) flags)).

(** parameters.py:627-631 [SensorRotationParameters.to_file]: appended rows, full precision *)
Definition sensor_rows (s : pset) : list csv_line :=
  map (fun p => CsvRow [p_value p; bool_num (p_enabled p)]) (ps_params s).

(** alignment/result.py:17-24 [AlignmentResult] without the name (see HeaderModel) *)
Record align_result := mkResult {
  position_parameters : pset;
  rotation_parameters : pset;
  estimation_of : est_settings;
  converged : bool
}.

(** alignment/result.py:39-55 [to_file]: everything is appended to the previous content [old];
    [fmt] is the effect of writing a number with 15 decimals and reading it back *)
Definition result_to_file (fmt : R -> R) (old : list csv_line) (name : string) (r : align_result) : list csv_line :=
  old ++ [CsvComment ("#name " ++ name)%string]
  ++ map (fun c => CsvRow (map fmt c)) (param_rows_flags (position_parameters r))
  ++ sensor_rows (rotation_parameters r).

(** alignment/result.py:57-78 [from_file] (parameters only) *)
Definition result_from_file (f : list csv_line) : result align_result :=
  let! p := params_from_file f in
  let! q := sensor_from_file f in
  let! e := from_bool_list (enabled_bool_list p ++ enabled_bool_list q) in
  Ok (mkResult p q e true).
