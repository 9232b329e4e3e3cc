(** Model of calibration.py:74-289, 440-472 and 494-547 (ModelObjectives, CalibrationProblem and the table of run_minimize),
    without plots (plot=False, plotly=False, the default), timing and printing.  Definitions only.
    Simulations, test tables and serialised models are abstract: [api] collects what the code does with them. *)
From Verif Require Import Num Numpy CycleModel UtilModel.

(** A value read from a simulation: a number or an array. calibration.py:203 (values fetched by path). *)
Inductive sigval (F : Type) := Scalar (x : F) | Array (l : list F).
Arguments Scalar {F}. Arguments Array {F}.

(** Dicts with string keys, in insertion order. calibration.py:150-151 (Python dicts). *)
Definition dict (V : Type) : Type := list (string * V).
(** calibration.py:167, 211 (d[k] = v) *)
Fixpoint dset {V} (d : dict V) (k : string) (v : V) : dict V :=
  match d with [] => [(k, v)] | (k', w) :: r => if String.eqb k' k then (k, v) :: r else (k', w) :: dset r k v end.
(** dict(zip(keys, values)). calibration.py:159 (zip(self.dfs.items(), sim_drives.values())). *)
Definition dict_zip {V} (ks : list string) (vs : list V) : dict V := fold_left (fun d kv => dset d (fst kv) (snd kv)) (combine ks vs) [].

(** What is used of simulations [S], test tables [D], serialised models [J] and parameter values [X]:
    sim_drive.copy() and sim_drive(); cyc.time_s; get_attr_with_path (C52); df[name]; from_json; set_attrs_with_path (C52);
    veh.set_derived() (C44). *)
Record api (F S D J X : Type) := mkapi {
  simulate : S -> Res S; times : S -> list F; signal : S -> string -> Res (sigval F); column : D -> string -> Res (list F);
  parse : J -> Res S; assign : S -> dict X -> Res S; derive : S -> Res S }.
Arguments mkapi {F S D J X}. Arguments simulate {F S D J X}. Arguments times {F S D J X}. Arguments signal {F S D J X}.
Arguments column {F S D J X}. Arguments parse {F S D J X}. Arguments assign {F S D J X}. Arguments derive {F S D J X}.

(** An objective: the path of the model's value and the rest of the tuple (the name of the reference column). *)
(** calibration.py:86-97, 192-201 *)
Definition objective : Type := string * list (option string).
(** bool(ref_path). calibration.py:205 (if ref_path). *)
Definition given (r : option string) : option string := match r with Some r => if String.eqb r "" then None else Some r | None => None end.

(** A ModelObjectives object, 74-110. *)
Record model_objectives (D J : Type) := mkmo { mo_models : dict J; mo_dfs : dict D; mo_objs : list objective; mo_params : list string }.
Arguments mkmo {D J}. Arguments mo_models {D J}. Arguments mo_dfs {D J}. Arguments mo_objs {D J}. Arguments mo_params {D J}.

Section Cal.
  Context {F : Type} {N : Num F} {S D J X : Type} (A : api F S D J X).
  Local Open Scope num_scope.

  (** __post_init__, 112-115: n_obj. *)
  Definition post_init (m : model_objectives D J) : Res nat :=
    do _ <- assertR (Nat.eqb (length (mo_dfs m)) (length (mo_models m)));
    Ok (length (mo_models m) * length (mo_objs m))%nat.

  (** get_error_val on values read: len(number) is a TypeError. calibration.py:52-71, called at 211-215. *)
  Definition signal_error (s : sigval F) (ref ts : list F) : Res F :=
    match s with Array l => get_error_val l ref ts | Scalar _ => Err TypeError end.
  (** One objective of a trip, 192-236: the errors of this trip so far, and ref_sig, a local variable that outlives the trip.
      Without a reference nothing is stored, but ref_sig is an argument of update_plots. *)
  Definition one_objective (df : D) (s : S) (st : dict F * option (list F)) (o : objective) : Res (dict F * option (list F)) :=
    do _ <- assertR (Nat.leb (length (snd o)) 1);
    do m <- signal A s (fst o);
    match match snd o with r :: _ => given r | [] => None end with
    | Some r =>
        do ref <- column A df r;
        do e <- signal_error m ref (times A s);
        Ok (dset (fst st) (fst o) e, Some ref)
    | None => match snd st with None => Err UnboundLocalError | Some _ => Ok st end
    end.
  (** calibration.py:192-219 *)
  Fixpoint objectives (df : D) (s : S) (st : dict F * option (list F)) (os : list objective) : Res (dict F * option (list F)) :=
    match os with [] => Ok st | o :: r => do st' <- one_objective df s st o; objectives df s st' r end.
  (** The loop over the trips, 160-251. *)
  Fixpoint trips (os : list objective) (l : list ((string * D) * S)) (acc : dict (dict F)) (ref : option (list F)) : Res (dict (dict F)) :=
    match l with
    | [] => Ok acc
    | ((k, df), s) :: r =>
        do s' <- simulate A s;
        do st <- objectives df s' ([], ref) os;
        trips os r (dset acc k (fst st)) (snd st)
    end.
  (** get_errors with default arguments, 117-256. *)
  Definition get_errors (m : model_objectives D J) (sims : dict S) : Res (dict (dict F)) :=
    trips (mo_objs m) (combine (mo_dfs m) (map snd sims)) [] None.

  (** update_params, 258-289. *)
  Definition update_params (m : model_objectives D J) (xs : list X) : Res (dict S) :=
    do _ <- assertR (Nat.eqb (length xs) (length (mo_params m)));
    do sims <- mapR (fun kj => do s <- parse A (snd kj); Ok (fst kj, s)) (mo_models m);
    mapR (fun ks => do s <- assign A (snd ks) (dict_zip (mo_params m) xs); do s' <- derive A s; Ok (fst ks, s')) sims.

  (** CalibrationProblem.__init__, 447-466: the bounds are only counted. *)
  Definition problem_init (m : model_objectives D J) (bounds : list (F * F)) : Res (list F * list F) :=
    do _ <- assertR (Nat.eqb (length bounds) (length (mo_params m)));
    Ok (map fst bounds, map snd bounds).
  (** CalibrationProblem._evaluate, 468-472. *)
  Definition evaluate (m : model_objectives D J) (xs : list X) : Res (list F) :=
    do sims <- update_params m xs;
    do e <- get_errors m sims;
    Ok (List.concat (map (fun t => map snd (snd t)) e)).

  (** run_minimize, 520-540, for one solution: the labels of the error columns, f"{key}: {obj[0]}", as pairs (a DataFrame
      needs as many values as labels), and the column 'euclidean'. *)
  Definition f_columns (m : model_objectives D J) : list (string * string) :=
    List.concat (map (fun kd => map (fun o => (fst kd, fst o)) (mo_objs m)) (mo_dfs m)).
  (** calibration.py:468-472, 530-540 *)
  Definition result_row (m : model_objectives D J) (values : list F) : Res (list ((string * string) * F) * F) :=
    if Nat.eqb (length values) (length (f_columns m))
    then Ok (combine (f_columns m) values, nsqrt (nsum (map nsq values)))
    else Err ValueError.
End Cal.
