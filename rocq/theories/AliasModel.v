(** Settings objects and the results that refer to them: alignment/estimation.py:40-98 [estimate_alignment] with its default
    arguments (44-46), and settings/alignment.py:262-287.  The estimation itself is a function of the values of the settings. *)
From Verif Require Import Base ParamModel.

Section Alias.
  (** X: the other settings (preprocessing, stochastics, thresholds); D: the two trajectories and matching settings; Out: name,
      parameters and convergence of the result, which are objects of their own *)
  Context {X D Out : Type}.
  Variable align : est_settings -> X -> D -> result Out.

  (** The objects: AlignmentEstimationSettings by their addresses; AlignmentSettings, each with the address of its
      estimation settings (the first one is the default argument); AlignmentResults, each with its own contents and the address
      stored in [estimation_of] *)
  Record objects := mkObjects { ests : list est_settings; setts : list (nat * X); outcomes : list (Out * nat) }.

  (** What a user does *)
  Inductive action :=
  | NewSettings (e : est_settings) (x : X)                      (* AlignmentSettings(...) *)
  | Align (s : option nat) (d : D)                              (* estimate_alignment, with or without settings *)
  | SetSettings (s : nat) (f : est_settings -> est_settings)    (* assigning to settings.estimation_settings.<field> *)
  | SetResult (i : nat) (f : est_settings -> est_settings).     (* assigning to result.estimation_of.<field> *)

  Fixpoint update {A} (l : list A) (i : nat) (f : A -> A) : list A :=
    match l, i with
    | [], _ => []
    | a :: l, 0%nat => f a :: l
    | a :: l, S i => a :: update l i f
    end.

  (** One action; actions on objects that do not exist and estimations that raise change nothing *)
  Definition act (o : objects) (a : action) : objects :=
    match a with
    | NewSettings e x => mkObjects (ests o ++ [e]) (setts o ++ [(length (ests o), x)]) (outcomes o)
    | Align s d =>
        (* estimation.py:44-46: the default argument is one object, created with the module *)
        match nth_error (setts o) (match s with Some i => i | None => 0 end) with
        | Some (a, x) =>
            match nth_error (ests o) a with
            | Some e => match align e x d with
                        (* estimation.py:93-99: [estimation_of] is the object in the settings *)
                        | Ok r => mkObjects (ests o) (setts o) (outcomes o ++ [(r, a)])
                        | Err _ => o
                        end
            | None => o
            end
        | None => o
        end
    | SetSettings s f =>
        match nth_error (setts o) s with Some (a, _) => mkObjects (update (ests o) a f) (setts o) (outcomes o) | None => o end
    | SetResult i f =>
        match nth_error (outcomes o) i with Some (_, a) => mkObjects (update (ests o) a f) (setts o) (outcomes o) | None => o end
    end.
  Definition acts (o : objects) (l : list action) : objects := fold_left act l o.

  (** After the module was imported *)
  Definition imported (defaults : est_settings) (x : X) : objects := mkObjects [defaults] [(0%nat, x)] [].

  (** [result.estimation_of] of a result *)
  Definition estimation_of (o : objects) (i : nat) : option est_settings :=
    match nth_error (outcomes o) i with Some (_, a) => nth_error (ests o) a | None => None end.
End Alias.
Arguments objects : clear implicits.
Arguments action : clear implicits.
