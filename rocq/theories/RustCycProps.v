(** C115-C117: the compiled drive cycle (cycle.rs) compared with the one of cycle.py. *)
From Coq Require Import Floats.
From Verif Require Import Num FloatNum Numpy ListFacts CycleModel CycleSpec ConcatProofs CycleProofs1 CycleProofs2 RateProofs MicrotripProofs
  TargetProofs DistProofs GradeProofs JerkProofs SimModel RustModel RustWalkModel RustPostModel RustVehModel RustCycModel RustCycSpec
  RustCycProofs RustCycProofs2.
Local Open Scope R_scope.
Local Set Warnings "-inexact-float".

Ltac sorted := apply increasing_SS; repeat constructor; lra.
(** A cycle that starts at 0 s, and the same one starting at 10 s. *)
Definition trip (t : R) : cyc R := mkcyc [t; t + 1; t + 2; t + 3; t + 4] [1; 2; 4; 3; 0] [1/10; 1/100; 0; 1/50; 0] [0; 0; 1; 1; 0].
Lemma trip_ok t : wf (trip t) /\ time_s (trip t) <> [] /\ increasing (time_s (trip t)).
Proof. split; [repeat split|]. split; [discriminate|]. cbn. sorted. Qed.
Lemma trip_nonneg t : nonneg (mps (trip t)).
Proof. intros x H. cbn in H. repeat (destruct H as [<-|H]; [lra|]). destruct H. Qed.
Lemma trip_far t : trapezoid (trip t) 0 4 = 19/2.
Proof. cbn. lra. Qed.

(** ** C115 *)
Theorem C115_to_rust : forall c c' : Cycle R,
  cycle_to_rust c = Ok c' <-> c' = c /\ wf (cdata c) /\ time_s (cdata c) <> [] /\ increasing (time_s (cdata c)).
Proof. exact to_rust_iff. Qed.
Theorem C115_dict : forall (t v : list R) g r nm (c : Cycle R),
  r_from_dict (cycle_entries t v g r nm) false = Ok c <->
  from_dict (cycle_entries t v g r nm) = Ok c /\ wf (cdata c) /\ t <> [] /\ increasing t.
Proof.
  intros t v g r nm c.
  assert (E : exists c1, from_dict (cycle_entries t v g r nm) = Ok c1 /\ time_s (cdata c1) = t /\
     r_from_dict (cycle_entries t v g r nm) false = do _ <- r_init_checks (cdata c1); Ok c1).
  { destruct g as [g|], r as [r|], nm as [nm|]; eexists; (split; [reflexivity|split; reflexivity]). }
  destruct E as (c1 & E1 & ET & E2). rewrite E1, E2. pose proof (r_checks (cdata c1)) as K. rewrite ET in K.
  destruct (r_init_checks (cdata c1)) as [[]|e]; cbn [bindR]; split.
  - intros [= <-]. split; [reflexivity|]. now apply K.
  - intros [[= <-] _]. reflexivity.
  - discriminate.
  - intros [[= <-] H]. apply K in H. discriminate.
Qed.
Theorem C115_dict_back : forall (F : Type) (N : Num F) (c : Cycle F), r_from_dict (r_to_dict c) true = Ok c /\ from_dict (r_to_dict c) = Ok c.
Proof. intros F N [[t v g r] nm]. split; reflexivity. Qed.
(** Python reads the key names of old versions, the compiled class does not; and it ignores keys that Python refuses. *)
Theorem C115_old_keys_refuted : exists c : Cycle R, cycle_to_rust c = Ok c /\ from_dict (old_style_dict c) = Ok c /\
  r_from_dict (old_style_dict c) false = Err KeyError.
Proof. exists (mkCycle (trip 0) "t"). split; [apply C115_to_rust; split; [reflexivity|apply (trip_ok 0)]|]. split; reflexivity. Qed.
Theorem C115_extra_key_refuted : exists (d : pdict R) c, r_from_dict d false = Ok c /\ from_dict d = Err AssertionError.
Proof.
  exists (("color"%string, Str "red"%string) :: to_dict (mkCycle (trip 0) "t")), (mkCycle (trip 0) "t").
  split; [|reflexivity]. change (cycle_to_rust (mkCycle (trip 0) "t") = Ok (mkCycle (trip 0) "t")). apply C115_to_rust. split; [reflexivity|apply (trip_ok 0)].
Qed.
Theorem C115_mph : forall (F : Type) (N : Num F) (c : cyc F) l, r_get_mph c = get_mph c /\ r_set_mph c l = set_mph c l.
Proof. split; reflexivity. Qed.
Theorem C115_steps : forall c : cyc R, hd 0 (time_s c) = 0 ->
  r_dt_s c = dt_s c /\ r_dist_m c = dist_m c /\ r_delta_elev_m c = delta_elev_m c.
Proof.
  intros c H. split; [now apply r_dt_same|]. split; [now apply r_dist_same0|]. unfold r_delta_elev_m, delta_elev_m. now rewrite r_dist_same0.
Qed.
(** When the times do not start at 0, Python counts the time before the first sample as a step, the compiled class does not. *)
Theorem C115_late_start : forall (c : cyc R) t v g, hd_error (time_s c) = Some t -> hd_error (mps c) = Some v -> hd_error (grade c) = Some g ->
  (hd_error (dt_s c) = Some t /\ hd_error (r_dt_s c) = Some 0 /\ tl (r_dt_s c) = tl (dt_s c)) /\
  (hd_error (dist_m c) = Some (v * t) /\ hd_error (r_dist_m c) = Some 0 /\ tl (r_dist_m c) = tl (dist_m c)) /\
  delta_elev_m c = map (fun x => x + v * t * g) (r_delta_elev_m c).
Proof.
  intros c t v g T V G. split; [|split; [|now apply elev_shift]].
  - split; [|split; [|apply r_dt_tail]]; unfold dt_s, r_dt_s; destruct (time_s c); try discriminate; injection T as ->; [|reflexivity].
    cbn [diff_prepend hd_error]. f_equal. unR. lra.
  - split; [|split; [|apply r_dist_tail]]; unfold dist_m, r_dist_m, dt_s, r_dt_s; destruct (time_s c), (mps c); try discriminate;
      injection T as ->; injection V as ->; cbn [diff_prepend zipw hd_error]; f_equal; unR; lra.
Qed.
Theorem C115_late_start_refuted : exists c : cyc R, cycle_to_rust (mkCycle c "t") = Ok (mkCycle c "t") /\
  nsum (dist_m c) = nsum (r_dist_m c) + 10.
Proof.
  exists (trip 10). split; [apply C115_to_rust; split; [reflexivity|apply trip_ok]|].
  rewrite !nsum_Rsum. cbn. lra.
Qed.
Theorem C115_distances : forall (c : cyc R) i, length (mps c) = length (time_s c) -> time_s c <> [] ->
  r_dt_s_at_i c i = dt_s_at_i c i /\
  r_trapz_step_distances c = trapz_step_distances c /\
  ((i <= length (time_s c))%nat -> r_trapz_step_start_distance c i = trapz_step_start_distance c i) /\
  ((1 <= i)%nat -> r_average_step_speed_at c i = average_step_speed_at c i /\ r_trapz_distance_for_step c i = trapz_distance_for_step c i) /\
  (forall j, (i <= j <= length (time_s c))%nat -> r_trapz_distance_over_range c i j = Ok (trapz_distance_over_range c i j)).
Proof.
  intros c i W NE. split; [apply r_dt_s_at_i_same|]. split; [now apply r_trapz_same|]. split; [|split].
  - intros H. now rewrite r_start, start_distance.
  - intros H. assert (A : r_average_step_speed_at c i = average_step_speed_at c i).
    { unfold r_average_step_speed_at, average_step_speed_at. rewrite pyget_before, pyget_get, Nat2Z.id by lia. destruct i as [|k]; [lia|]. cbn [r_pred bindR].
      destruct (r_get (mps c) (S k)); reflexivity. }
    split; [exact A|]. unfold r_trapz_distance_for_step, trapz_distance_for_step. rewrite A. destruct (average_step_speed_at c i); [|reflexivity]. cbn [bindR].
    now rewrite r_dt_at_same.
  - intros j H. unfold r_trapz_distance_over_range, trapz_distance_over_range. rewrite r_trapz_same by assumption.
    rewrite step_dist_length by assumption. destruct (Nat.leb_spec i j), (Nat.leb_spec j (length (time_s c))); try lia. reflexivity.
Qed.
(** Bounds out of order or beyond the end: Python sums what there is, the compiled class refuses. *)
Theorem C115_range_outside : forall (c : cyc R) i j, length (mps c) = length (time_s c) -> time_s c <> [] ->
  ((j < i)%nat -> r_trapz_distance_over_range c i j = Err IndexError /\ trapz_distance_over_range c i j = 0) /\
  ((length (time_s c) < j)%nat -> r_trapz_distance_over_range c i j = Err IndexError /\
     trapz_distance_over_range c i j = trapz_distance_over_range c i (length (time_s c))).
Proof.
  intros c i j W NE. unfold r_trapz_distance_over_range, trapz_distance_over_range, slice. rewrite r_trapz_same, step_dist_length by assumption. split; intros H.
  - destruct (Nat.leb_spec i j); [lia|]. split; [reflexivity|]. replace (j - i)%nat with 0%nat by lia. reflexivity.
  - destruct (Nat.leb_spec j (length (time_s c))); [lia|]. rewrite andb_false_r. split; [reflexivity|]. f_equal.
    rewrite !firstn_all2; [reflexivity| |]; rewrite skipn_length, step_dist_length by assumption; lia.
Qed.
Example C115_case : exists c : Cycle R, cycle_to_rust c = Ok c /\ hd 0 (time_s (cdata c)) = 0 /\ nth 2 (dt_s (cdata c)) 0 = 1 /\ nth 2 (r_dist_m (cdata c)) 0 = 4.
Proof.
  exists (mkCycle (trip 0) "t"). split; [apply C115_to_rust; split; [reflexivity|apply trip_ok]|]. split; [reflexivity|]. split; cbn; lra.
Qed.
Definition tripF (t : float) : cyc float := mkcyc [t; t + 1; t + 2; t + 3; t + 4]%float [1; 2; 4; 3; 0]%float [0.1; 0.01; 0; 0.02; 0]%float [0; 0; 1; 1; 0]%float.
Example C115_run : cycle_to_rust (mkCycle (tripF 10) "t") = Ok (mkCycle (tripF 10) "t") /\
  cycle_to_rust (mkCycle (mkcyc [0; 2; 2] [0; 0; 0] [0; 0; 0] [0; 0; 0])%float "t") = Err PlainException /\
  r_dist_m (tripF 10) = [0; 2; 4; 3; 0]%float /\ dist_m (tripF 10) = [10; 2; 4; 3; 0]%float /\
  r_trapz_step_distances (tripF 10) = [0; 1.5; 3; 3.5; 1.5]%float /\ r_trapz_step_start_distance (tripF 10) 3 = Ok 4.5%float /\
  r_trapz_distance_over_range (tripF 10) 1 3 = Ok 4.5%float.
Proof. vm_compute. repeat split. Qed.

(** ** C116 *)
Theorem C116_cache : forall c : cyc R, wf c -> time_s c <> [] -> r_build_cache c = build_cache c.
Proof. exact r_cache_same. Qed.
Theorem C116_grade : forall (c : cyc R) dist delta k, cached_or_not c k -> wf c -> increasing (time_s c) -> nonneg (mps c) ->
  0 < trapezoid c 0 (length (time_s c) - 1) ->
  r_average_grade_over_range c dist delta k = average_grade_over_range c dist delta k.
Proof. exact r_mean. Qed.
Theorem C116_grade_at : forall (c : cyc R) dist k, cached_or_not c k -> wf c -> time_s c <> [] ->
  r_average_grade_over_range c dist 0 k = average_grade_over_range c dist 0 k.
Proof.
  intros c dist k [->| ->] W NE; [apply r_point_uncached; (assumption || lra)|].
  unfold r_average_grade_over_range, average_grade_over_range. destruct (grade_all_zero (build_cache c)); [reflexivity|].
  change (@tol6 R RNum) with (1/1000000). unR. destruct (Rleb_spec 0 (1/1000000)); [|lra]. apply r_point_cached.
Qed.
(** A cycle that never moves: Python reports the grade 0 ahead of it, the compiled class fails. *)
Theorem C116_standing_refuted : exists (c : cyc float) y, cycle_to_rust (mkCycle c "t") = Ok (mkCycle c "t") /\
  average_grade_over_range c 0%float 1%float None = Ok y /\ exists e, r_average_grade_over_range c 0%float 1%float None = Err e.
Proof.
  exists (mkcyc [0; 1] [0; 0] [0.1; 0.1] [0; 0])%float. eexists. split; [vm_compute; reflexivity|]. split; [reflexivity|]. eexists. vm_compute. reflexivity.
Qed.
Theorem C116_next_stop : forall (c : cyc R) k d i v, cached_or_not c k -> length (mps c) = length (time_s c) ->
  nth_error (mps c) i = Some v -> v < 1/1000000 -> d + 1/1000000 < trapezoid c 0 i ->
  (forall j u, (j < i)%nat -> nth_error (mps c) j = Some u -> u <= 1/1000000 -> trapezoid c 0 j <= d) ->
  calc_distance_to_next_stop_from c d k = Ok (trapezoid c 0 i - d) /\ r_calc_distance_to_next_stop_from c d k = Ok (trapezoid c 0 i - d).
Proof.
  intros c k d i v K W V A B H. split.
  - apply (next_stop_found c k d i v); try assumption; lra.
  - apply (r_next_stop_found c k d i v); try assumption. intros j u J U L. assert (trapezoid c 0 j <= d) by (apply (H j u); (assumption || lra)). lra.
Qed.
(** With no stop ahead Python reports minus the position, the compiled class what remains of the whole trip. *)
Theorem C116_no_stop : forall (c : cyc R) k d, cached_or_not c k -> length (mps c) = length (time_s c) -> time_s c <> [] ->
  (forall j u, nth_error (mps c) j = Some u -> u <= 1/1000000 -> trapezoid c 0 j <= d) ->
  calc_distance_to_next_stop_from c d k = Ok (- d) /\ r_calc_distance_to_next_stop_from c d k = Ok (trapezoid c 0 (length (time_s c) - 1) - d).
Proof.
  intros c k d K W NE H. split; [now apply next_stop_none|]. apply r_next_stop_none; try assumption.
  intros j u U L. assert (trapezoid c 0 j <= d) by (apply (H j u); (assumption || lra)). lra.
Qed.
Theorem C116_next_stop_refuted : exists c : cyc R, cycle_to_rust (mkCycle c "t") = Ok (mkCycle c "t") /\
  calc_distance_to_next_stop_from c (19/2) None = Ok (- (19/2)) /\ r_calc_distance_to_next_stop_from c (19/2) None = Ok 0.
Proof.
  exists (trip 0). split; [apply C115_to_rust; split; [reflexivity|apply trip_ok]|].
  destruct (C116_no_stop (trip 0) None (19/2)) as [A B]; [now left|reflexivity|discriminate| |].
  - intros j u E L. destruct j as [|[|[|[|[|j]]]]]; cbn in E; try (injection E as <-; try lra). { rewrite trip_far; lra. } destruct j; discriminate.
  - split; [exact A|]. rewrite B. change (length (time_s (trip 0)) - 1)%nat with 4%nat. rewrite trip_far. f_equal. lra.
Qed.
Example C116_case : 0 < trapezoid (trip 10) 0 (length (time_s (trip 10)) - 1) /\
  r_calc_distance_to_next_stop_from (trip 10) 2 (Some (r_build_cache (trip 10))) = Ok (15/2).
Proof.
  split; [change (length (time_s (trip 10)) - 1)%nat with 4%nat; rewrite trip_far; lra|].
  destruct (trip_ok 10) as (W & NE & _). rewrite C116_cache by assumption.
  rewrite (proj2 (C116_next_stop (trip 10) (Some (build_cache (trip 10))) 2 4 0 (or_intror eq_refl) eq_refl eq_refl ltac:(lra) ltac:(rewrite trip_far; lra)
    ltac:(intros j u J E L; destruct j as [|[|[|[|j]]]]; cbn in E; try (injection E as <-; lra); lia))). rewrite trip_far. f_equal. lra.
Qed.
Example C116_run : cc_ds (r_build_cache (tripF 10)) = [0; 1.5; 4.5; 8; 9.5]%float /\
  r_average_grade_over_range (tripF 10) 3%float 0%float None = Ok 0%float /\
  r_average_grade_over_range (tripF 10) 5%float 0%float (Some (r_build_cache (tripF 10))) = Ok 0.02%float /\
  r_calc_distance_to_next_stop_from (tripF 10) 2%float None = Ok 7.5%float.
Proof. vm_compute. repeat split. Qed.

(** ** C117 *)
Theorem C117_jerk : forall n (d0 v0 a0 k dt : R),
  r_speed_for_constant_jerk n v0 a0 k dt = speed_for_constant_jerk (Z.of_nat n) v0 a0 k dt /\
  r_accel_for_constant_jerk n a0 k dt = accel_for_constant_jerk (Z.of_nat n) a0 k dt /\
  r_dist_for_constant_jerk n d0 v0 a0 k dt = dist_for_constant_jerk (Z.of_nat n) d0 v0 a0 k dt.
Proof. intros. split; [apply r_speed_same|split; [apply r_accel_same|apply r_dist_same]]. Qed.
Theorem C117_plan : forall n (D0 v0 Dr vr dt : R), dt <> 0 -> dt <> (INR n + 4) / 3 -> forall k a0,
  r_calc_constant_jerk_trajectory n D0 v0 Dr vr dt = Ok (k, a0) <-> calc_constant_jerk_trajectory (Z.of_nat n) D0 v0 Dr vr dt = Ok (k, a0).
Proof.
  intros n D0 v0 Dr vr dt A B k a0. destruct (Nat.ltb_spec 1 n) as [L|L].
  - destruct (Rlt_dec D0 Dr) as [D|D]; [rewrite r_plan_same by assumption; reflexivity|].
    rewrite jerk_bad_plan by (right; unR; destruct (Rltb_spec D0 Dr); [contradiction|reflexivity]).
    unfold r_calc_constant_jerk_trajectory. unR. destruct (Rltb_spec D0 Dr); [contradiction|]. rewrite andb_false_r. split; discriminate.
  - rewrite jerk_bad_plan by (left; lia). unfold r_calc_constant_jerk_trajectory. destruct (Nat.ltb_spec 1 n); [lia|]. split; discriminate.
Qed.
(** A step of 2 s and two steps: Python raises, the compiled function answers with infinities. *)
Theorem C117_plan_refuted : exists k a0, calc_constant_jerk_trajectory 2 0%float 1%float 10%float 0%float 2%float = Err ZeroDivisionError /\
  r_calc_constant_jerk_trajectory 2 0%float 1%float 10%float 0%float 2%float = Ok (k, a0) /\ is_infinity k = true /\ is_infinity a0 = true.
Proof. eexists. eexists. split; [vm_compute; reflexivity|]. split; [vm_compute; reflexivity|]. split; vm_compute; reflexivity. Qed.
Theorem C117_edit : forall (c : cyc R) i n k a0, length (mps c) = length (time_s c) -> (1 <= i < length (time_s c))%nat -> (1 <= n)%nat ->
  r_modify_by_const_jerk_trajectory c i n k a0 = modify_by_const_jerk_trajectory c i (Z.of_nat n) k a0.
Proof. exact r_jerk_same. Qed.
(** Without steps to write, and past the end, the compiled class answers differently; the cycle is left alone all the same. *)
Theorem C117_no_steps : forall (c : cyc R) i k a0, length (mps c) = length (time_s c) -> (1 <= i < length (time_s c))%nat ->
  modify_by_const_jerk_trajectory c i 0 k a0 = Ok (c, nth (i - 1) (mps c) 0) /\ r_modify_by_const_jerk_trajectory c i 0 k a0 = Ok (c, 0).
Proof.
  intros c i k a0 W I. split; [|reflexivity]. unfold modify_by_const_jerk_trajectory. rewrite (pyget_pred _ i 0) by lia. cbn [bindR].
  rewrite dt_s_at_i_pos by lia. cbn. now destruct c.
Qed.
Theorem C117_past_end : forall (c : cyc R) i n k a0, length (mps c) = length (time_s c) -> time_s c <> [] -> (length (time_s c) <= i)%nat -> (1 <= n)%nat ->
  modify_by_const_jerk_trajectory c i (Z.of_nat n) k a0 = Err IndexError /\ r_modify_by_const_jerk_trajectory c i n k a0 = Ok (c, last (mps c) 0).
Proof.
  intros c i n k a0 W NE L Hn. split.
  - unfold modify_by_const_jerk_trajectory. assert (1 <= i)%nat by (destruct (time_s c); [congruence|cbn in L; lia]).
    rewrite pyget_before by lia. destruct i as [|j]; [lia|]. cbn [r_pred bindR]. destruct (r_get (mps c) j) as [x|e] eqn:E; cbn [bindR].
    + now rewrite dt_s_at_i_past.
    + unfold r_get in E. destruct (nth_error (mps c) j); congruence.
  - unfold r_modify_by_const_jerk_trajectory. destruct (Nat.eqb_spec n 0); [lia|]. destruct (Nat.leb_spec (length (mps c)) i); [|lia].
    destruct (mps c) as [|v l] eqn:E; [cbn in W; destruct (time_s c); [congruence|discriminate]|].
    rewrite <- pyget_last_of, pyget_last. cbn [bindR]. do 2 f_equal. apply last_default.
Qed.
Theorem C117_edit_refuted : exists (c : cyc R) v w, modify_by_const_jerk_trajectory c 2 0 0 0 = Ok (c, v) /\
  r_modify_by_const_jerk_trajectory c 2 0 0 0 = Ok (c, w) /\ v <> w.
Proof.
  exists (trip 0), 2, 0. destruct (C117_no_steps (trip 0) 2 0 0) as [A B]; [reflexivity|cbn; lia|]. split; [exact A|]. split; [exact B|lra].
Qed.
Theorem C117_braking : forall (c : cyc R) brake i dts, length (mps c) = length (time_s c) -> brake < 0 -> (1 <= i < length (time_s c))%nat ->
  0 <= nth (i - 1) (mps c) 0 ->
  (let dt := nth i (time_s c) 0 - nth (i - 1) (time_s c) 0 in 0 < dt < 2 /\ no_tie (- nth (i - 1) (mps c) 0 / brake / dt)) ->
  exists c' v n, r_modify_with_braking_trajectory c brake i dts = Ok (c', v, n) /\
                 modify_with_braking_trajectory c brake i dts = Ok (c', v, Z.of_nat n).
Proof. exact r_braking_same. Qed.
(** Five m/s taken off at two m/s2 and one second a step make 2.5 steps: two in Python, three in the compiled class. *)
Theorem C117_braking_refuted : exists (c : cyc float) a b, modify_with_braking_trajectory c (-2)%float 1 None = Ok (a, 2%Z) /\
  r_modify_with_braking_trajectory c (-2)%float 1 None = Ok (b, 3%nat) /\
  mps (fst a) = [5; 3.75; 0; 5; 5]%float /\ PrimFloat.ltb 0 (nth 2 (mps (fst b)) 0%float) = true.
Proof.
  exists (mkcyc [0; 1; 2; 3; 4] [5; 5; 5; 5; 5] [0; 0; 0; 0; 0] [0; 0; 0; 0; 0])%float. eexists. eexists.
  split; [vm_compute; reflexivity|]. split; [vm_compute; reflexivity|]. split; vm_compute; reflexivity.
Qed.
Theorem C117_passing : forall (c c0 : cyc R) i tol, length (mps c) = length (time_s c) -> length (mps c0) = length (time_s c0) ->
  length (time_s c0) = length (time_s c) -> (1 <= i < length (time_s c))%nat ->
  exists p q, detect_passing c c0 i tol = Ok p /\ r_detect_passing c c0 i tol = Ok q /\ passing_figures q = passing_figures p /\
    (has_collision q = true <-> exists idx, first_overtake c c0 i tol idx) /\
    (has_collision p = true <-> exists idx, first_overtake c c0 i tol idx /\ trapezoid c 0 (i - 1) < trapezoid c0 0 idx).
Proof.
  intros c c0 i tol W W0 L I. rewrite (r_passing_spec c c0 i tol W W0 (eq_sym L) I).
  destruct (detect_passing_spec c c0 i tol W W0 L (proj2 I) (proj1 I)) as [(idx & O & E)|(O & E)]; rewrite E; cbn [bindR]; eexists; eexists;
    (split; [reflexivity|]); (split; [reflexivity|]); (split; [reflexivity|]); cbn [has_collision num_steps Nat.eqb negb].
  - split; [split; [eauto|reflexivity]|]. split.
    + intros H. exists idx. split; [exact O|]. destruct (Rltb_spec (trapezoid c 0 (i - 1)) (trapezoid c0 0 idx)); [assumption|discriminate].
    + intros (j & J & D). assert (j = idx) as ->.
      { destruct O as (O1 & O2 & O3 & O4), J as (J1 & J2 & J3 & J4). destruct (Nat.lt_trichotomy j idx) as [Q|[Q|Q]]; [|exact Q|].
        - specialize (O4 j ltac:(lia)). lra.
        - specialize (J4 idx ltac:(lia)). lra. }
      destruct (Rltb_spec (trapezoid c 0 (i - 1)) (trapezoid c0 0 idx)); [reflexivity|contradiction].
  - split; (split; [discriminate|]); [intros H; now destruct O|intros (j & J & _); destruct O; eauto].
Qed.
(** Asked at or beyond the end both report no passing, in the same words. *)
Theorem C117_passing_after_end : forall (c c0 : cyc R) i tol, (length (time_s c) <= i)%nat ->
  exists p, detect_passing c c0 i tol = Ok p /\ r_detect_passing c c0 i tol = Ok p /\ has_collision p = false /\ num_steps p = 0%nat.
Proof.
  intros c c0 i tol H. unfold detect_passing, r_detect_passing. destruct (Nat.leb_spec (length (time_s c)) i); [|lia].
  eexists. repeat split.
Qed.
(** The other car standing behind the start is a passing for the compiled class only. *)
Theorem C117_passing_refuted : exists (c c0 : cyc float) p q, detect_passing c c0 2 0.1%float = Ok p /\ r_detect_passing c c0 2 0.1%float = Ok q /\
  has_collision p = false /\ has_collision q = true.
Proof.
  exists (mkcyc [0; 1; 2; 3] [4; 4; 4; 4] [0; 0; 0; 0] [0; 0; 0; 0])%float, (mkcyc [0; 1; 2; 3] [0; 0; 0; 0] [0; 0; 0; 0] [0; 0; 0; 0])%float.
  eexists. eexists. split; [vm_compute; reflexivity|]. split; [vm_compute; reflexivity|]. split; reflexivity.
Qed.
Theorem C117_microtrips : forall (F : Type) (N : Num F) (c : cyc F) stop, r_to_microtrips c stop = to_microtrips c stop.
Proof. intros. apply r_microtrips_same. Qed.
Theorem C117_targets : forall (c : cyc R) b ms, wf c -> nondecreasing (time_s c) -> nonneg (mps c) ->
  r_create_dist_and_target_speeds_by_microtrip c b ms = create_dist_and_target_speeds_by_microtrip c b ms.
Proof. exact r_targets_same. Qed.
(** Whole seconds are added alike, save that Python forgets the name. *)
Theorem C117_extend : forall (c : cyc R) nm sec fraction more, wf c -> time_s c <> [] -> no_tie (fraction * end_time c) ->
  nearest_even (fraction * end_time c) more -> (0 <= sec + more)%Z ->
  exists c', r_extend_cycle (mkCycle c nm) (IZR sec) fraction = Ok (mkCycle c' nm) /\ extend_cycle (mkCycle c nm) (IZR sec) fraction = Ok (mkCycle c' "").
Proof.
  intros c nm sec fraction more W NE T M P. apply r_extend_same; try assumption.
  replace (nround (fraction * end_time c)) with more by (eapply nearest_even_unique; [exact M|apply nround_nearest]). exact P.
Qed.
Theorem C117_extend_refuted : exists (c a b : Cycle float), extend_cycle c 0%float 0.5%float = Ok a /\ r_extend_cycle c 0%float 0.5%float = Ok b /\
  length (time_s (cdata a)) = 4%nat /\ length (time_s (cdata b)) = 5%nat.
Proof.
  exists (mkCycle (mkcyc [0; 5] [0; 0] [0; 0] [0; 0])%float "t"). eexists. eexists.
  split; [vm_compute; reflexivity|]. split; [vm_compute; reflexivity|]. split; reflexivity.
Qed.
Example C117_case : (exists c' v n, r_modify_with_braking_trajectory (trip 0) (-3) 3 None = Ok (c', v, n) /\
    modify_with_braking_trajectory (trip 0) (-3) 3 None = Ok (c', v, Z.of_nat n)) /\
  first_overtake (trip 0) (mkcyc [0; 1; 2; 3; 4] [1; 2; 0; 0; 0] [0; 0; 0; 0; 0] [0; 0; 0; 0; 0]) 1 (1/10) 2 /\
  exists c', r_extend_cycle (mkCycle (trip 0) "t") 2 (1/3) = Ok (mkCycle c' "t") /\ extend_cycle (mkCycle (trip 0) "t") 2 (1/3) = Ok (mkCycle c' "").
Proof.
  split; [|split].
  - apply C117_braking; [reflexivity|lra|cbn; lia|cbn; lra|]. cbn. split; [lra|].
    intros z E. assert (H : 8 = 6 * IZR z + 3) by lra. rewrite <- mult_IZR, <- plus_IZR in H. apply eq_IZR in H. lia.
  - unfold first_overtake. split; [cbn; lia|]. split; [unfold gap_at; cbn; lra|]. split; intros j J; [|lia].
    assert (j = 1)%nat as -> by lia. cbn. lra.
  - apply (C117_extend (trip 0) "t" 2 (1/3) 1); [apply trip_ok|discriminate| | |lia].
    + intros z E. unfold end_time in E. cbn in E. assert (H : 8 = 6 * IZR z + 3) by lra. rewrite <- mult_IZR, <- plus_IZR in H. apply eq_IZR in H. lia.
    + left. unfold end_time. cbn. rewrite Rabs_right; lra.
Qed.
Example C117_run :
  r_calc_constant_jerk_trajectory 2 0%float 4%float 6%float 0%float 1%float = Ok (-4, 0)%float /\
  bindR (r_modify_with_braking_trajectory (tripF 10) (-2)%float 3 None) (fun r => Ok (mps (fst (fst r)), snd r)) = Ok ([1; 2; 4; 2; 0]%float, 2%nat) /\
  bindR (r_detect_passing (tripF 10) (mkcyc [10; 11; 12; 13; 14] [1; 2; 0; 0; 0] [0; 0; 0; 0; 0] [0; 0; 0; 0; 0])%float 1 0.1%float)
    (fun p => Ok (has_collision p, passing_figures p)) = Ok (true, (2%nat, 2%nat, (0, 2.5), (1, 0), 1))%float /\
  map (fun m => mps m) (r_to_microtrips (mkcyc [0; 1; 2; 3; 4; 5] [0; 2; 0; 0; 3; 0] [0; 0; 0; 0; 0; 0] [0; 0; 0; 0; 0; 0])%float 0%float) = [[0; 2; 0; 0]; [0; 3; 0]]%float /\
  bindR (r_extend_cycle (mkCycle (tripF 0) "t") 2%float 0.3%float) (fun c => Ok (time_s (cdata c), cname c)) = Ok ([0; 1; 2; 3; 4; 5; 6; 7]%float, "t"%string).
Proof. vm_compute. repeat split. Qed.
