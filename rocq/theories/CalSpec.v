(** Small specifications for calibration. *)
From Verif Require Import Num UtilModel CalModel PrepSpec.

(** The objective compares the path [p] with the column [r]. *)
Definition compares (o : objective) (p r : string) : Prop := o = (p, [Some r]) /\ r <> ""%string.
Definition referenced (o : objective) : Prop := exists p r, compares o p r.
Section CalSpec.
  Context {F : Type} {N : Num F} {S D J X : Type} (A : api F S D J X).
  (** [x] is the error of the array at path [p] of the simulated [s] against column [r] of [df]. *)
  Definition error_is (s : S) (df : D) (p r : string) (x : F) : Prop :=
    exists l ref, signal A s p = Ok (Array l) /\ column A df r = Ok ref /\ get_error_val l ref (times A s) = Ok x.
  (** [e] holds the errors of the objectives [os], in their order, under their paths. *)
  Definition errors_are (s : S) (df : D) (os : list objective) (e : list (string * F)) : Prop :=
    Forall2 (fun o px => exists r, compares o (fst px) r /\ error_is s df (fst px) r (snd px)) os e.
  (** [e] holds under the key of the table [df] the errors of the simulation [s] after it has run. *)
  Definition trip_is (os : list objective) (t : (string * D) * (string * S)) (e : string * list (string * F)) : Prop :=
    fst e = fst (fst t) /\ exists s', simulate A (snd (snd t)) = Ok s' /\ errors_are s' (snd (fst t)) os (snd e).
  (** [d] gives every parameter the value that stands for it last. *)
  Definition last_values (ps : list string) (xs : list X) (d : list (string * X)) : Prop :=
    NoDup (map fst d) /\ forall p x, In (p, x) d <->
      exists i, nth_error ps i = Some p /\ nth_error xs i = Some x /\ forall j, (i < j < length xs)%nat -> nth_error ps j <> Some p.
  (** [s] is the serialised [j] with the parameters [d]. *)
  Definition model_with (j : J) (d : list (string * X)) (s : S) : Prop :=
    exists s0 s1, parse A j = Ok s0 /\ assign A s0 d = Ok s1 /\ derive A s1 = Ok s.
End CalSpec.
