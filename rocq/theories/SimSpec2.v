(** Small specifications for the refined grade, the best engine power and roadway charging. *)
From Verif Require Import Num Numpy ListFacts CycleModel CycleSpec VehModel SimModel SimState WalkModel SimSpec.
Local Open Scope R_scope.

(** With grade [g] the Newton search for the speed at which the wheels take the power limit [lim] ends after [n]
    iterates with speed [x]. *)
Definition search_result (v : vehicle R) (pr : physprops R) (sp : simparams R) (lim v1 dt g x : R) (n : nat) : Prop :=
  exists f' xs b, let f := fun y => wheel_kw v pr g v1 dt y - lim in
    (forall y, derivable_pt_lim f y (f' y)) /\
    newton_search f f' (newton_gain sp) (newton_xtol sp) (newton_max_iter sp) (Rmax 1 v1) xs /\
    best_of f xs b /\ x = Rmax b 0 /\ n = length xs.

(** A grade is used for a search; as long as the grade of the road covered at the speed found differs by more than a
    millionth, the search is repeated with that grade, at most [k] times. *)
Inductive refined (look : R -> R) (found : R -> R -> nat -> Prop) : nat -> R -> R -> nat -> Prop :=
| settled k g x n : found g x n -> Rabs (g - look x) <= 1 / 1000000 -> refined look found k g x n
| given_up g x n : found g x n -> refined look found 0 g x n
| again k g y m x n : found g y m -> 1 / 1000000 < Rabs (g - look y) -> refined look found k (look y) x n ->
    refined look found (S k) g x n.

(** The first of the powers [ps] at which the efficiencies [es] are greatest. *)
Definition most_efficient (ps es : list R) (p : R) : Prop :=
  exists k e, nth_error es k = Some e /\ nth_error ps k = Some p /\
    (forall j x, nth_error es j = Some x -> x <= e) /\
    (forall j x, (j < k)%nat -> nth_error es j = Some x -> x < e).
