(** Specifications for C115-C117, independent of the model's functions. *)
From Verif Require Import Num Numpy CycleModel.

(** A number that is not half way between two whole numbers. *)
Definition no_tie (x : R) : Prop := forall z : Z, (x <> IZR z + 1 / 2)%R.

(** A dict with times and speeds and perhaps grades, road types and a name. *)
Definition cycle_entries {F} (t v : list F) (g r : option (list F)) (nm : option string) : pdict F :=
  app [("time_s", Arr t); ("mps", Arr v)]%string
   (app match g with Some g => [("grade", Arr g)]%string | None => [] end
   (app match r with Some r => [("road_type", Arr r)]%string | None => [] end
        match nm with Some nm => [("name", Str nm)]%string | None => [] end)).

(** The report of a passing without its verdict. *)
Definition passing_figures {F} (p : @PassingInfo F) : nat * nat * (F * F) * (F * F) * F :=
  (pi_idx p, num_steps p, (start_distance_m p, distance_m p), (start_speed p, pi_speed p), time_step_duration p).
