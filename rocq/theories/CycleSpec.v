(** Specifications for the cycle properties, independent of the model's helpers.
    They use only standard-library list functions and the arrays of a cycle. *)
From Verif Require Import Num Numpy CycleModel.

(** All four arrays have the same length. *)
Definition wf {F} (c : cyc F) : Prop :=
  length (mps c) = length (time_s c) /\
  length (grade c) = length (time_s c) /\
  length (road_type c) = length (time_s c).

(** The cycle with its first time stamp moved to 0. *)
Definition rebased (c : cyc R) : cyc R :=
  mkcyc (map (fun t => t - hd 0 (time_s c))%R (time_s c)) (mps c) (grade c) (road_type c).

(** The last time stamp. *)
Definition end_time (c : cyc R) : R := last (time_s c) 0%R.

(** Time stamps strictly increase / never decrease. *)
Definition increasing (l : list R) : Prop :=
  forall i j x y, (i < j)%nat -> nth_error l i = Some x -> nth_error l j = Some y -> (x < y)%R.
Definition nondecreasing (l : list R) : Prop :=
  forall i j x y, (i < j)%nat -> nth_error l i = Some x -> nth_error l j = Some y -> (x <= y)%R.
Definition nonneg (l : list R) : Prop := forall x, In x l -> (0 <= x)%R.

(** Trapezoidal distance travelled from sample [j] over the next [n] sample intervals,
    written directly from the definition of the trapezoid rule. *)
Fixpoint trapezoid (c : cyc R) (j n : nat) : R :=
  match n with
  | O => 0
  | S m => (nth (S j) (time_s c) 0 - nth j (time_s c) 0)
             * ((nth j (mps c) 0 + nth (S j) (mps c) 0) / 2)
           + trapezoid c (S j) m
  end%R.

(** A speed counts as moving when it is above the stop speed; for real speeds this is
    [stop < v], for binary64 it is the IEEE comparison (false for NaN). *)
Definition is_moving {F} {N : Num F} (stop v : F) : Prop := nltb stop v = true.

(** Samples (one array) whose time lies in the closed window. *)
Fixpoint in_window {A} (lo hi : R) (ts : list R) (l : list A) : list A :=
  match ts, l with
  | t :: ts', x :: l' =>
      if Rle_dec lo t then if Rle_dec t hi then x :: in_window lo hi ts' l' else in_window lo hi ts' l'
      else in_window lo hi ts' l'
  | _, _ => []
  end.

(** [y] is the height at [x] of the broken line through the points (xs_i, ys_i), continued
    horizontally outside. *)
Definition on_polyline (xs ys : list R) (x y : R) : Prop :=
  (x <= hd 0 xs /\ y = hd 0 ys)%R \/ (last xs 0 <= x /\ y = last ys 0)%R \/
  exists i a b c d,
    nth_error xs i = Some a /\ nth_error xs (S i) = Some b /\
    nth_error ys i = Some c /\ nth_error ys (S i) = Some d /\
    (a <= x <= b)%R /\ (y = c + (d - c) * ((x - a) / (b - a)))%R.

(** [y] is the value at the last point not after [x] / at the first point not before [x]. *)
Definition held_from (xs ys : list R) (x y : R) : Prop :=
  exists i a, nth_error xs i = Some a /\ nth_error ys i = Some y /\ (a <= x)%R /\
              forall j b, (i < j)%nat -> nth_error xs j = Some b -> (x < b)%R.
Definition held_until (xs ys : list R) (x y : R) : Prop :=
  exists i a, nth_error xs i = Some a /\ nth_error ys i = Some y /\ (x <= a)%R /\
              forall j b, (j < i)%nat -> nth_error xs j = Some b -> (b < x)%R.

(** Cumulative trapezoidal distance at every sample. *)
Definition cumulative_distance (c : cyc R) : list R :=
  map (trapezoid c 0) (seq 0 (length (time_s c))).

(** The step, start and end that a resample request asks for. *)
Definition want_dt (o : @resample_opts R) (ts : list R) : R :=
  match o_new_dt o with Some x => x | None => (nth 1 ts 0 - nth 0 ts 0)%R end.
Definition want_start (o : @resample_opts R) : R :=
  match o_start o with Some x => x | None => 0%R end.
Definition want_end (o : @resample_opts R) (ts : list R) : R :=
  match o_end o with Some x => x | None => last ts 0%R end.

(** Length of a trip by the rectangle rule (speed at the end of each step times its duration),
    its duration, and the part of it spent with nonzero mean step speed. *)
Definition trip_length (m : cyc R) : R :=
  fold_right Rplus 0%R (map (fun j => nth (S j) (mps m) 0 * (nth (S j) (time_s m) 0 - nth j (time_s m) 0))%R
                            (seq 0 (length (time_s m) - 1))).
Definition trip_time (m : cyc R) : R := (last (time_s m) 0 - hd 0 (time_s m))%R.
Definition moving_time (m : cyc R) : R :=
  fold_right Rplus 0%R (map (fun j => if Rlt_dec 0 ((nth (S j) (mps m) 0 + nth j (mps m) 0) / 2)
                                      then nth (S j) (time_s m) 0 - nth j (time_s m) 0 else 0)%R
                            (seq 0 (length (time_s m) - 1))).
(** Overall and moving average speed blended by [b]. *)
Definition blended_speed (b : R) (m : cyc R) : R :=
  (trip_length m / trip_time m
   + b * (trip_length m / moving_time m - trip_length m / trip_time m))%R.

(** A query on a cycle is made without a cache, or with the cache built from that cycle. *)
Definition cached_or_not (c : cyc R) (k : option CycleCache) : Prop := k = None \/ k = Some (build_cache c).

(** Signed gap at sample [j]: how far the lead trace [c0] is ahead of [c]. *)
Definition gap_at (c c0 : cyc R) (j : nat) : R := (trapezoid c0 0 j - trapezoid c 0 j)%R.

(** Sample [idx] is the first after [i] at which [c] is ahead of [c0] by more than [tol],
    [c] having kept moving from [i] until then. *)
Definition first_overtake (c c0 : cyc R) (i : nat) (tol : R) (idx : nat) : Prop :=
  (i < idx < length (time_s c))%nat /\ (gap_at c c0 idx < - tol)%R /\
  (forall j, (i <= j < idx)%nat -> (1 / 1000000 < nth j (mps c) 0)%R) /\
  (forall j, (i < j < idx)%nat -> (- tol <= gap_at c c0 j)%R).

(** Clipping a cycle given by its four arrays. *)
Definition clip_cyc (c : cyc R) (t_end t_start : R) : Res (cyc R) :=
  do d <- clip_by_times (dict_of_cyc c) t_end t_start; cyc_of_dict d.

(** [z] is the integer nearest to [x], the even one of two equally near. *)
Definition nearest_even (x : R) (z : Z) : Prop :=
  (Rabs (x - IZR z) < 1 / 2)%R \/ (Rabs (x - IZR z) = 1 / 2 /\ Z.even z = true)%R.

(** The dict form of a cycle with the key names of old FASTSim versions. *)
Definition old_style_dict {F} (c : Cycle F) : pdict F :=
  [("cycSecs", Arr (time_s (cdata c))); ("cycMps", Arr (mps (cdata c)));
   ("cycGrade", Arr (grade (cdata c))); ("cycRoadType", Arr (road_type (cdata c)));
   ("name", Str (cname c))]%string.
