(** Independent vocabulary for the utility properties C51-C55 and C69-C75. *)
From Coq Require Import Ascii.
From Verif Require Import Num Numpy ListFacts CycleModel UtilModel.

(** *** Objects and their attributes *)
Section Objects.
  Context {A : Type}.
  (** Attribute [n] of the object at [l] is [x]. *)
  Definition has_attr (h : heap A) (l : nat) (n : string) (x : pyval A) : Prop :=
    exists ob k, nth_error h l = Some ob /\ find (fun kv => String.eqb (fst kv) n) (attrs ob) = Some (k, x).
  Definition has_reset (h : heap A) (l : nat) : Prop := exists ob, nth_error h l = Some ob /\ resettable ob = true.
  (** Following the names of [p] from [o] leads to [x]. *)
  Inductive leads (h : heap A) : pyval A -> list string -> pyval A -> Prop :=
  | leads_here o : leads h o [] o
  | leads_next l n p y x : has_attr h l n y -> leads h y p x -> leads h (Ref l) (n :: p) x.
  (** [p], followed from [o], goes through attribute [n] of the object at [l]. *)
  Definition goes_through (h : heap A) (o : pyval A) (p : list string) (l : nat) (n : string) : Prop :=
    exists q r, p = q ++ n :: r /\ leads h o q (Ref l).
  (** Attribute [n] of the object at [l] becomes [v], everything else stays. *)
  Definition only_changes (h h' : heap A) (l : nat) (n : string) (v : pyval A) : Prop :=
    length h' = length h /\ has_attr h' l n v /\
    (forall l' n', (l', n') <> (l, n) -> forall x, has_attr h' l' n' x <-> has_attr h l' n' x) /\
    (forall l', has_reset h' l' <-> has_reset h l').
  (** No object is reachable in two ways: every object is the value of at most one attribute, the root of none. *)
  Definition tree (h : heap A) (root : nat) : Prop :=
    (forall l n, ~ has_attr h l n (Ref root)) /\
    (forall l n l' n' c, has_attr h l n (Ref c) -> has_attr h l' n' (Ref c) -> l = l' /\ n = n').
  Definition is_prefix (p q : list string) : Prop := exists r, q = p ++ r.
End Objects.

(** *** Log levels *)
Definition standard (z : Z) : Prop := (z = 0 \/ z = 10 \/ z = 20 \/ z = 30 \/ z = 40 \/ z = 50 \/ z = 51)%Z.

(** *** Text *)
Fixpoint text_all (p : ascii -> Prop) (s : string) : Prop := match s with EmptyString => True | String c r => p c /\ text_all p r end.
Fixpoint join (sep : string) (l : list string) : string :=
  match l with [] => EmptyString | [w] => w | w :: r => append w (append sep (join sep r)) end.
Fixpoint remove_char (x : ascii) (s : string) : string :=
  match s with EmptyString => EmptyString | String c r => if Ascii.eqb c x then remove_char x r else String c (remove_char x r) end.
(** Snake case written in one go: a word starts at an upper-case letter that follows a lower-case letter or digit, or
    that is followed by a lower-case letter. *)
Definition word_starts (before u : ascii) (after : string) : bool :=
  (is_upper u && (is_lower before || is_digit before ||
     (negb (Ascii.eqb before "010") && match after with String a _ => is_lower a | EmptyString => false end)))%bool.
Fixpoint snake_after (before : ascii) (s : string) : string :=
  match s with
  | EmptyString => EmptyString
  | String u r => let tail := String (to_lower u) (snake_after u r) in if word_starts before u r then String "_" tail else tail
  end.
Definition snake (s : string) : string := match s with EmptyString => EmptyString | String c r => String (to_lower c) (snake_after c r) end.

(** The number written by decimal digits. *)
Fixpoint decimal (acc : Z) (s : string) : Z :=
  match s with EmptyString => acc | String c r => decimal (10 * acc + (Z.of_nat (nat_of_ascii c) - 48)) r end.
Definition digits (s : string) : Prop := s <> EmptyString /\ text_all (fun c => is_digit c = true) s.
(** [s] writes the number [x]: digits, or [lo] to [hi] digits, a point and digits. *)
Definition numeral (lo hi : nat) (s : string) (x : R) : Prop :=
  (digits s /\ x = IZR (decimal 0 s)) \/
  (exists a b, digits a /\ digits b /\ (lo <= String.length a <= hi)%nat /\ s = append a (String "." b) /\
     x = (IZR (decimal 0 (append a b)) / 10 ^ String.length b)%R).
(** At most one character, one of those of [chars]. *)
Definition at_most_one (chars s : string) : Prop := s = EmptyString \/ exists c, s = String c EmptyString /\ In c (list_ascii_of_string chars).
(** The text does not go on with a digit or a point. *)
Definition ends_number (s : string) : Prop := match s with EmptyString => True | String c _ => is_digit c = false /\ c <> "."%char end.
(** Sizes of a tyre: rim radius plus side wall, in millimetres (1 inch = 25.4 mm). *)
Definition tire_mm (width_mm aspect_percent rim_in : R) : R := (rim_in / 2 * (254 / 10) + width_mm * (aspect_percent / 100))%R.

(** *** Signals *)
Open Scope R_scope.
(** The area below the straight lines through the points. *)
Fixpoint area (t y : list R) : R :=
  match t, y with
  | t0 :: ((t1 :: _) as t'), y0 :: ((y1 :: _) as y') => (t1 - t0) * ((y0 + y1) / 2) + area t' y'
  | _, _ => 0
  end.
Definition gaps (a b : list R) : list R := map (fun p => Rabs (fst p - snd p)) (combine a b).
(** Integral of a rate that has the value [vs_j] since the previous stamp. *)
Definition held_integral (ts vs : list R) (k : nat) : R :=
  Rsum (map (fun j => (nth (S j) ts 0 - nth j ts 0) * nth (S j) vs 0) (seq 0 k)).
Definition held_integrals (ts vs : list R) : list R := map (held_integral ts vs) (seq 0 (length ts)).
(** Road load [N] at [v] m/s: rolling resistance and drag. *)
Definition road_load (kg rr g rho cd area v : R) : R := kg * g * rr + 1 / 2 * rho * cd * area * v ^ 2.
