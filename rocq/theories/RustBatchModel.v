(** Model of SimDriveVec, rust/fastsim-core/src/simdrive/simdrive_iter.rs: running a list of simulations one after another or in parallel.
    A run is a function from a simulation to what it is afterwards and its error, if any; it works on its own simulation only (iter_mut and
    par_iter_mut hand out one element each).  The text that names the index in an error is the index. *)
From Verif Require Import Num Numpy SimState RustWalkModel.

Section Batch.
  Context {S E : Type} (run : S -> S * option E).
  (** iter_mut().enumerate().try_for_each, simdrive_iter.rs:55-58, from the index [i]. *)
  Fixpoint serial (i : nat) (l : list S) : list S * option (nat * E) :=
    match l with
    | [] => ([], None)
    | x :: r => match run x with
                | (y, Some e) => (y :: r, Some (i, e))
                | (y, None) => let (r', o) := serial (Datatypes.S i) r in (y :: r', o)
                end
    end.
  (** A state of par_iter_mut().enumerate().try_for_each (rayon library), simdrive_iter.rs:50-53: the list, the indices not yet taken up
      and the error to be returned. *)
  Definition pstate : Type := (list S * list nat * option (nat * E))%type.
  (** The error returned, simdrive_iter.rs:50-53: which of several it is, is left open by the rayon library. *)
  Inductive kept (o : option (nat * E)) (i : nat) : option E -> option (nat * E) -> Prop :=
  | no_error : kept o i None o
  | this_error e : kept o i (Some e) (Some (i, e))
  | other_error e d : o = Some d -> kept o i (Some e) o.
  (** A step, simdrive_iter.rs:50-53 (rayon library): any index not yet taken up is run, in any order; after an error it may be skipped.
      Runs that overlap in time have the effect of any order, as they share nothing. *)
  Inductive pstep : pstate -> pstate -> Prop :=
  | p_run a x b p q o y e o' : run x = (y, e) -> kept o (length a) e o' ->
      pstep (a ++ x :: b, p ++ length a :: q, o) (a ++ y :: b, p ++ q, o')
  | p_skip l p i q d : pstep (l, p ++ i :: q, Some d) (l, p ++ q, Some d).
  (** Several steps, simdrive_iter.rs:50-53. *)
  Inductive psteps : pstate -> pstate -> Prop :=
  | p_none s : psteps s s
  | p_more s t u : pstep s t -> psteps t u -> psteps s u.
  (** A finished parallel run, simdrive_iter.rs:50-53. *)
  Definition parallel (l l' : list S) (o : option (nat * E)) : Prop := psteps (l, seq 0 (length l), None) (l', [], o).
  (** sim_drive, simdrive_iter.rs:47-61: in parallel unless told otherwise. *)
  Definition batch (parallelize : option bool) (l l' : list S) (o : option (nat * E)) : Prop :=
    match parallelize with Some false => serial 0 l = (l', o) | _ => parallel l l' o end.
  (** push, simdrive_iter.rs:63-65. *)
  Definition v_push (x : S) (l : list S) : list S := l ++ [x].
  (** pop, simdrive_iter.rs:67-69. *)
  Definition v_pop (l : list S) : option S * list S := match rev l with [] => (None, []) | x :: r => (Some x, rev r) end.
  (** remove, simdrive_iter.rs:71-73: an index beyond the end panics. *)
  Definition v_remove (i : nat) (l : list S) : Res (list S) := if Nat.ltb i (length l) then Ok (firstn i l ++ skipn (i + 1) l) else Err IndexError.
  (** insert, simdrive_iter.rs:75-77: an index beyond the end panics. *)
  Definition v_insert (i : nat) (x : S) (l : list S) : Res (list S) := if Nat.leb i (length l) then Ok (firstn i l ++ x :: skipn i l) else Err IndexError.
End Batch.
(** sd.sim_drive(None, None), simdrive_iter.rs:51 and 56.  What a run that fails leaves behind is not modelled and may be anything, [spoiled]. *)
Definition run_drive {F} {N : Num F} (spoiled : sdrive F -> sdrive F) (d : sdrive F) : sdrive F * option exn :=
  match r_sim_drive d None None with Ok d' => (d', None) | Err e => (spoiled d, Some e) end.
