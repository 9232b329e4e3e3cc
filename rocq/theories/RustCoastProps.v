(** Property C120: eco-coasting in the two implementations. *)
From Coq Require Import Floats Lia Lra.
From Verif Require Import Num FloatNum Numpy ListFacts CycleModel CycleSpec RateProofs DistProofs FrameProofs JerkProofs CycleProps VehModel SimModel SimState WalkModel WalkProofs SimSpec SimDemo
  CoastSpec CoastProofs CoastProps RustModel RustWalkModel RustCycModel RustModsModel RustSpec RustCycSpec RustCycProofs RustCycProofs2 RustProps RustModsProps
  RustCoastSpec RustCoastProofs RustCoastProofs2.
Local Open Scope R_scope.
Local Set Warnings "-inexact-float".

(** ** C120 *)
Theorem C120_slope : forall F (N : Num F) (d : sdrive F) v g, r_calc_dvdd d v g = calc_dvdd d v g.
Proof. intros. apply dvdd_same. Qed.
(** A plan: Rust returns it, Python writes it; what Rust writes when it is applied is what Python wrote. *)
Theorem C120_plan : forall d i stop d' x, coast_setting d i stop -> coast_brake_start_speed_m_per_s (d_sp d) < speed d (i - 1) ->
  generate_coast_trajectory d i true = Ok (d', x) -> ordinary_plan d d' i x ->
  exists t, r_generate_coast_trajectory d i = Ok t /\
    match t with
    | None => d' = d /\ x = -1
    | Some q => rt_start q = i /\ rt_dist q = x /\ 0 <= x /\ r_apply_coast_trajectory d q = Ok d'
    end.
Proof. intros d i stop d' x C. exact (plan_same d i stop C d' x). Qed.
Theorem C120_brakes : forall d i stop d' x, coast_setting d i stop -> 0 <= speed d (i - 1) <= coast_brake_start_speed_m_per_s (d_sp d) ->
  generate_coast_trajectory d i true = Ok (d', x) -> brakes_alike d (speed d (i - 1)) i ->
  exists q, r_generate_coast_trajectory d i = Ok (Some q) /\ rt_start q = i /\ rt_dist q = x /\ 0 <= x /\ r_apply_coast_trajectory d q = Ok d'.
Proof. intros d i stop d' x C. exact (brake_same d i stop C d' x). Qed.
Theorem C120_estimate : forall d i stop, coast_setting d i stop ->
  (exists g, grade_from (d_cyc0 d) (place d i) g /\ slows_down d g) \/
  (exists d' x, generate_coast_trajectory d i true = Ok (d', x) /\ ordinary_plan d d' i x) ->
  r_calc_distance_to_stop_coast_v2 d i = calc_distance_to_stop_coast_v2 d i.
Proof. exact estimate_same. Qed.
Theorem C120_decide : forall d i stop, coast_setting d i stop ->
  (coast_start_speed_m_per_s (d_sp d) <= 0 -> (exists g, grade_from (d_cyc0 d) (place d i) g /\ slows_down d g) \/
     (exists d' x, generate_coast_trajectory d i true = Ok (d', x) /\ ordinary_plan d d' i x)) ->
  r_should_impose_coast d i = should_impose_coast d i.
Proof. exact decide_same. Qed.
(** The whole start of a coast: decision, plan, keeping behind the trace. *)
Theorem C120_start : forall d i stop d' x, coast_setting d i stop -> generate_coast_trajectory d i true = Ok (d', x) -> ordinary_plan d d' i x ->
  (speed d (i - 1) <= coast_brake_start_speed_m_per_s (d_sp d) -> brakes_alike d (speed d (i - 1)) i) ->
  (forall k, (i <= k)%nat -> coast_at d k = false) ->
  (coast_allow_passing (d_sp d) = false -> 0 <= x -> exists h, avoid_setting d' i h) ->
  r_start_coast d i = start_coast d i.
Proof. exact start_same. Qed.
Theorem C120_rendezvous : forall d i stop mn mx, coast_setting d i stop -> 0 < duration (d_cyc d) i < 2 ->
  r_calc_next_rendezvous_trajectory d i mn mx =
  do r <- calc_next_rendezvous_trajectory d i mn mx; Ok (match r with Some q => Some (rv_n q, rv_jerk q, rv_accel q) | None => None end).
Proof. intros d i stop mn mx C. exact (rendezvous_same d i stop C mn mx). Qed.
Theorem C120_adjust : forall d i stop accel d' b, coast_setting d i stop -> 0 < duration (d_cyc d) i < 2 ->
  adjust_coast d i accel = Ok (d', b) -> smooth_plan d d' i -> r_adjust_coast d i accel = Ok (d', b).
Proof. intros d i stop accel d' b C. exact (adjust_same d i stop C accel d' b). Qed.
Theorem C120_delay : forall d i stop, coast_setting d i stop -> r_set_coast_delay d i = set_coast_delay d i.
Proof. exact delay_same. Qed.
Theorem C120_lead_speed : forall (d : sdrive R) i, mps (d_cyc0 d) <> [] -> r_delayed_speed d i = delayed_speed d i.
Proof. exact lead_speed_same. Qed.
Theorem C120_collision : forall d i h, avoid_setting d i h -> r_prevent_collisions 12 d i 1 = prevent_collisions d i None.
Proof. intros d i h A. unfold prevent_collisions. apply (prevent_same d i h A). apply Rle_0_1. Qed.

(** *** What differs *)
Section Cases.
  Context {F : Type} {N : Num F}.
  (** [d] at the speed [v] after step [i]. *)
  Definition at_speed (d : sdrive F) (i : nat) (v : F) : sdrive F := upd_row d i (row_spd (fun s => mkspd 0 v v v v)).
  (** Up a slope of 2 %, at 12 m/s after step 3, and no stop to come. *)
  Definition no_end (n : nat) : sdrive F :=
    at_speed (new_sd demo_conv demo_props (demo_sp false true false) (hz (lit 1 50) ([0; 4; 8; 12; 12; 12; 12] ++ repeat 12 n)%Z)) 3 (z 12).
  (** Level, at 10 m/s after step 3, and to a stop 25 m ahead; passing the trace is allowed. *)
  Definition passing_sp : simparams F :=
    mksimparams true false n1 (- lit 1 2)%num (lit 5 10000) 5 n1 (lit 1 1000) (lit 1 1000) 30
      (lit 9 10) 100 (lit 1 1000000000) (lit 2 1000) true true (z 40) (- lit 25 10)%num (lit 75 10) n0 (z 20)
      false (lit 3333 100) n1 n2 (z 4) n1 (lit 15 10) None (lit 3 10).
  Definition nearing : sdrive F :=
    at_speed (new_sd demo_conv demo_props passing_sp (hz n0 [0; 10; 10; 10; 10; 10; 0; 0; 0; 0; 0; 0; 0]%Z)) 3 (z 10).
  (** Behind the trace at 5 m/s, which is too slow to go on rolling. *)
  Definition slowed : sdrive F :=
    at_speed (behind [0; 10; 10; 5; 5; 0; 0; 0; 0; 0; 0; 0; 0]%Z [0; 10; 10; 10; 10; 10; 0; 0; 0; 0; 0; 0; 0]%Z 4) 3 (z 5).
  (** Rolling behind the trace, with steps of other lengths. *)
  Definition uneven : sdrive F :=
    let ts := map z [0; 1; 2; 3; 5; 6; 7; 8; 9; 10; 11; 12; 14]%Z in
    set_coast_range (with_cyc (new_sd demo_conv demo_props (demo_sp false true false) (mkcyc ts (map z [0; 8; 8; 8; 8; 4; 2; 2; 2; 2; 2; 2; 2]%Z) (repeat n0 13) (repeat n0 13)))
      (mkcyc ts (map z [0; 8; 8; 8; 8; 7; 6; 5; 4; 3; 2; 2; 2]%Z) (repeat n0 13) (repeat n0 13))) 0 3 13.
  (** Running into the trace at the step after next. *)
  Definition soon : sdrive F := behind [0; 8; 8; 8; 8; 8; 8; 8; 8]%Z [0; 8; 8; 2; 7; 8; 8; 8; 8]%Z 3.
End Cases.
Definition avoided_by (r : Res (sdrive float * bool)) : Res (bool * list float) := do p <- r; Ok (snd p, mps (d_cyc (fst p))).
(** 'Both decide alike' is false when the trace has no further stop: Python does not coast, Rust does. *)
Theorem C120_no_stop_refuted : exists d : sdrive float, should_impose_coast d 4 = Ok false /\ r_should_impose_coast d 4 = Ok true.
Proof. exists (no_end 8). vm_compute. split; reflexivity. Qed.
(** The plans differ, too: 25 m in Python, 159 m in Rust. *)
Theorem C120_no_stop_plan_refuted : exists d : sdrive float,
  (do r <- generate_coast_trajectory d 4 true; Ok (snd r)) = Ok 25.459946863525239%float /\
  (do t <- r_generate_coast_trajectory d 4; Ok (option_map rt_dist t)) = Ok (Some 159.3843688163517%float).
Proof. exists (no_end 20). vm_compute. split; reflexivity. Qed.
(** 'Both keep behind the trace alike' is false with steps of different lengths: Python compares the plan with
    accelerations over the length of the step before.  Here Python slows down and Rust does not. *)
Theorem C120_steps_refuted : exists d : sdrive float,
  avoided_by (prevent_collisions d 3 None) = Ok (true, [0; 8; 8; 8; 7.2000000000000011; 5.6000000000000014; 3.2000000000000002; 0; 0; 3; 2; 2; 2]%float) /\
  avoided_by (r_prevent_collisions 12 d 3 1%float) = Ok (false, [0; 8; 8; 8; 8; 7; 6; 5; 4; 3; 2; 2; 2]%float).
Proof. exists uneven. vm_compute. split; reflexivity. Qed.
(** And when the trace would be passed at the next step: Python finds no plan and goes on, Rust counts a negative
    number of steps, which as usize is an overflow (a panic where overflow is checked). *)
Theorem C120_soon_refuted : exists d : sdrive float,
  avoided_by (prevent_collisions d 3 None) = Ok (false, [0; 8; 8; 8; 8; 8; 8; 8; 8]%float) /\
  avoided_by (r_prevent_collisions 12 d 3 1%float) = Err PlainException.
Proof. exists soon. vm_compute. split; reflexivity. Qed.

(** *** Cases *)
Lemma hz_inc g l : increasing (time_s (hz (F := R) g l)).
Proof.
  intros a b x y L. cbn [hz time_s]. rewrite !nth_error_map. unfold z.
  destruct (nth_error (seq 0 (length l)) a) as [p|] eqn:P; [|discriminate]. destruct (nth_error (seq 0 (length l)) b) as [q|] eqn:Q; [|discriminate]. cbn [option_map].
  assert (P1 := nth_error_Some (seq 0 (length l)) a). assert (Q1 := nth_error_Some (seq 0 (length l)) b). rewrite seq_length in P1, Q1.
  assert (a < length l)%nat by (apply P1; congruence). assert (b < length l)%nat by (apply Q1; congruence).
  apply (nth_error_nth _ _ 0%nat) in P, Q. rewrite seq_nth in P, Q by assumption. subst p q. intros [= <-] [= <-]. apply IZR_lt. lia.
Qed.
Lemma hz_nonneg g l : Forall (fun k => 0 <= k)%Z l -> nonneg (mps (hz (F := R) g l)).
Proof.
  intros H x I. cbn [hz mps] in I. apply in_map_iff in I as (k & <- & I). rewrite Forall_forall in H. unfold z. unR. apply IZR_le. now apply H.
Qed.
Lemma near_dist j : (j < 13)%nat -> trapezoid (d_cyc0 (nearing (F := R))) 0 j = nth j [0; 5; 15; 25; 35; 45; 50; 50; 50; 50; 50; 50; 50] 0.
Proof. intros H. unfold nearing, at_speed, hz, z. cbn. do 13 (destruct j as [|j]; [cbn; unR; lra|]). lia. Qed.
Lemma near_setting : coast_setting nearing 4 25.
Proof.
  constructor.
  - repeat split.
  - repeat split.
  - reflexivity.
  - reflexivity.
  - cbn. lia.
  - reflexivity.
  - reflexivity.
  - apply hz_inc.
  - apply hz_nonneg. repeat constructor; lia.
  - unfold place. change (d_cyc nearing) with (d_cyc0 (nearing (F := R))). rewrite near_dist by lia. cbn. lra.
  - cbn. unfold lit, z. unR. lra.
  - cbn. unfold lit, z. unR. lra.
  - cbn. unfold z. unR. lra.
  - unfold stop_ahead, place. change (d_cyc nearing) with (d_cyc0 (nearing (F := R))). rewrite !near_dist by lia. exists 6%nat, 0.
    split; [unfold nearing, at_speed, hz, z; cbn; unR; reflexivity|]. rewrite near_dist by lia. cbn [nth Nat.sub]. split; [lra|]. split; [lra|]. split; [|lra].
    intros j u J E U. rewrite near_dist by lia. unfold nearing, at_speed, hz, z in E. cbn in E. unR.
    do 6 (destruct j as [|j]; [cbn in E; injection E as <-; cbn; lra|]). lia.
Qed.
Lemma near_level : grade_from (d_cyc0 (nearing (F := R))) (place nearing 4) 0.
Proof.
  split.
  - exists 6%nat. split; [cbn; lia|]. unfold place. change (d_cyc nearing) with (d_cyc0 (nearing (F := R))). rewrite !near_dist by lia. cbn. lra.
  - intros j _ _. exact (nth_repeat 0 13 j).
Qed.
Lemma near_slope s : 9 <= s <= 10 -> -1/50 <= slope (d_veh (nearing (F := R))) (d_props (nearing (F := R))) 0 s <= 0.
Proof.
  intros H. unfold slope, road_force. destruct (Rle_dec s 0); [lra|]. unfold nearing. cbn. unfold lit, z. unR. rewrite atan_0, sin_0, cos_0.
  match goal with |- _ <= - ?f / ?m <= _ => set (FF := f); set (M := m) end.
  assert (0 < M) by (unfold M; lra).
  assert (FB : 0 <= FF <= 200) by (unfold FF; split; nra).
  assert (MB : 13500 <= M) by (unfold M; lra).
  unfold Rdiv. assert (I : 0 < / M) by now apply Rinv_0_lt_compat. assert (IU : / M <= / 13500) by (apply Rinv_le_contravar; lra).
  split; [|nra]. assert (FF * / M <= 200 * / 13500) by (apply Rmult_le_compat; lra). lra.
Qed.
Lemma near_after k : -1/50 <= k <= 0 -> 98/10 <= after k 1 10 <= 10.
Proof.
  intros H. unfold after. assert (0 < 1 - k * 1 / 2) by lra.
  assert (E : 10 * (1 + k * 1 / 2) / (1 - k * 1 / 2) * (1 - k * 1 / 2) = 10 * (1 + k * 1 / 2)) by (field; lra).
  split; (apply Rmult_le_reg_r with (1 - k * 1 / 2); [assumption|rewrite E; lra]).
Qed.
Lemma near_step d' x stop vs nb w r : coast_planned nearing d' 4 x stop vs nb -> vs = w :: r -> 98/10 <= w <= 10.
Proof.
  intros P ->. pose proof (cp_chain _ _ _ _ _ _ _ P) as (ST & _). destruct ST as (_ & ST & _). destruct (ST 0 near_level) as (E & _).
  assert (D : duration (d_cyc0 (nearing (F := R))) 4 = 1) by (unfold duration, nearing, at_speed, hz, z; cbn; unR; lra).
  assert (S3 : speed (nearing (F := R)) (4 - 1) = 10) by reflexivity.
  rewrite D, S3 in E. change (favor_grade_accuracy (d_sp nearing)) with true in E. cbv iota in E. cbn [coasted] in E.
  pose proof (near_after _ (near_slope 10 ltac:(lra))) as A1. set (a1 := after _ 1 10) in A1.
  change (after (slope (d_veh nearing) (d_props nearing) 0 10) 1 10) with a1 in E.
  pose proof (near_after _ (near_slope ((10 + a1) / 2) ltac:(lra))) as A2. set (a2 := after (slope _ _ 0 ((10 + a1) / 2)) 1 10) in A2.
  change (after (slope (d_veh nearing) (d_props nearing) 0 ((10 + a1) / 2)) 1 10) with a2 in E. rewrite E.
  apply near_after, near_slope. lra.
Qed.
Lemma near_plan : exists d' x, generate_coast_trajectory (nearing (F := R)) 4 true = Ok (d', x) /\ ordinary_plan nearing d' 4 x.
Proof.
  destruct (C87_total (nearing (F := R)) 4 true 0) as [[d' x] E]; try reflexivity.
  - repeat split.
  - cbn. lia.
  - cbn. unfold lit, z. unR. lra.
  - exact near_level.
  - intros p Hp. apply (hz_unit [0; 10; 10; 10; 10; 10; 0; 0; 0; 0; 0; 0; 0]%Z 1 12); [lia|cbn; lia|cbn in Hp; lia].
  - exists d', x. split; [exact E|]. intros stop vs nb SA P. cbv zeta.
    assert (S3 : speed (nearing (F := R)) (4 - 1) = 10) by reflexivity. rewrite S3.
    assert (AB : coast_brake_accel_m_per_s2 (d_sp (nearing (F := R))) = -5/2) by (cbn; unfold lit; unR; lra). rewrite AB.
    assert (stop = 25) as ->.
    { destruct SA as (k & v & EK & V & PL & FST & ->). unfold place in PL, FST |- *. change (d_cyc nearing) with (d_cyc0 (nearing (F := R))) in *. rewrite (near_dist (4 - 1)) in * by lia. cbn [nth Nat.sub] in *.
      assert (K : (k < 13)%nat) by (change 13%nat with (length (mps (d_cyc0 (nearing (F := R))))); apply nth_error_Some; congruence). rewrite near_dist in * by exact K.
      destruct (Nat.le_gt_cases k 6) as [L|L].
      - unfold nearing, at_speed, hz, z in EK. cbn in EK. unR. do 6 (destruct k as [|k]; [cbn in EK, PL; injection EK as <-; lra|]). assert (k = 0)%nat as -> by lia. cbn. lra.
      - exfalso. assert (FS : 50 <= 25); [|lra]. specialize (FST 6%nat 0 L). rewrite near_dist in FST by lia. cbn [nth] in FST. apply FST; [|lra]. unfold nearing, at_speed, hz, z. cbn. unR. reflexivity. }
    assert (D : duration (d_cyc (nearing (F := R))) 4 = 1) by (unfold duration, nearing, at_speed, hz, z; cbn; unR; lra).
    destruct vs as [|w r].
    + split; [congruence|]. intros _. cbn [length last]. rewrite Nat.add_0_r, D, AB. split; [lra|]. intros q Q.
      replace (- (10) / (-5 / 2) / 1) with 4 in Q by lra. assert (4 * 2 - 1 = 2 * IZR q) by lra. apply (f_equal (fun y => y)) in H.
      rewrite <- !mult_IZR, <- minus_IZR in H. apply eq_IZR in H. lia.
    + pose proof (near_step _ _ _ _ _ _ _ P eq_refl) as W. assert (WW : 96 <= w * w) by nra.
      assert (SD : stopping_distance (-5 / 2) w = w * w / 5) by (unfold stopping_distance; field).
      assert (D0 : duration (d_cyc0 (nearing (F := R))) 4 = 1) by exact D.
      assert (r = []) as ->.
      { destruct r as [|u r]; [reflexivity|]. exfalso. pose proof (cp_due _ _ _ _ _ _ _ P [] w (u :: r) eq_refl ltac:(discriminate)) as Q. cbn [app chain_distance] in Q.
        rewrite S3, D0, AB, SD in Q. lra. }
      cbn [last length chain_distance]. rewrite D0. split.
      * intros _. rewrite SD. lra.
      * intros _. change (duration (d_cyc (nearing (F := R))) (4 + 1)) with (duration (d_cyc (nearing (F := R))) 5).
        assert (D5 : duration (d_cyc (nearing (F := R))) 5 = 1) by (unfold duration, nearing, at_speed, hz, z; cbn; unR; lra). rewrite D5, AB. split; [lra|]. intros q Q.
        replace (- w / (-5 / 2) / 1) with (w * (2/5)) in Q by lra.
        assert (IZR q < 4 /\ 3 < IZR q) as [Q1 Q2] by (split; lra). apply lt_IZR in Q1. apply lt_IZR in Q2. lia.
Qed.

Lemma slowed_setting : coast_setting slowed 4 (55/2).
Proof.
  assert (P : place (slowed (F := R)) 4 = 45/2) by (unfold place, slowed, at_speed, behind, hz, z; cbn; unR; lra).
  assert (TD : forall j, (j < 13)%nat -> trapezoid (d_cyc0 (slowed (F := R))) 0 j = nth j [0; 5; 15; 25; 35; 45; 50; 50; 50; 50; 50; 50; 50] 0) by exact near_dist.
  constructor; try (repeat split; fail); try reflexivity.
  - cbn. lia.
  - apply hz_inc.
  - apply hz_nonneg. repeat constructor; lia.
  - rewrite P. lra.
  - cbn. unfold lit, z. unR. lra.
  - cbn. unfold lit, z. unR. lra.
  - cbn. unfold z. unR. lra.
  - unfold stop_ahead. rewrite P. exists 6%nat, 0.
    split; [unfold slowed, at_speed, behind, hz, z; cbn; unR; reflexivity|]. rewrite TD by lia. cbn [nth]. split; [lra|]. split; [lra|]. split; [|lra].
    intros j u J E U. rewrite TD by lia. unfold slowed, at_speed, behind, hz, z in E. cbn in E. unR.
    do 6 (destruct j as [|j]; [cbn in E; injection E as <-; cbn; lra|]). lia.
Qed.
Lemma no_tie_Z k : no_tie (IZR k).
Proof.
  intros q Q. assert (2 * IZR k - 2 * IZR q = 1) as H by lra. rewrite <- !mult_IZR, <- minus_IZR in H. apply eq_IZR in H. lia.
Qed.
Lemma slowed_adjust : exists d', adjust_coast (slowed (F := R)) 4 0 = Ok (d', true) /\ smooth_plan slowed d' 4.
Proof.
  assert (AB : coast_brake_accel_m_per_s2 (d_sp (slowed (F := R))) = -5/2) by (cbn; unfold lit; unR; lra).
  assert (DT : forall j, (1 <= j < 13)%nat -> duration (d_cyc (slowed (F := R))) j = 1).
  { intros j J. apply (hz_unit [0; 10; 10; 5; 5; 0; 0; 0; 0; 0; 0; 0; 0]%Z 1 12); [lia|cbn; lia|lia]. }
  assert (V3 : nth_error (mps (d_cyc (slowed (F := R)))) (4 - 1) = Some 5) by reflexivity.
  assert (V3' : nth 3 (mps (d_cyc (slowed (F := R)))) 0 = 5) by reflexivity.
  assert (NT : no_tie (- (5) / (-5 / 2) / 1)) by (replace (- (5) / (-5 / 2) / 1) with 2 by lra; apply no_tie_Z).
  set (c := d_cyc (slowed (F := R))) in *.
  destruct (r_braking_same c (-5/2) 4 None) as (c' & v & n & _ & EB); [reflexivity|lra|cbn; lia|cbn [Nat.sub]; rewrite V3'; lra| |].
  { cbv zeta. change (nth 4 (time_s c) 0 - nth (4 - 1) (time_s c) 0) with (duration c 4). rewrite DT by lia. cbn [Nat.sub]. rewrite V3'. split; [lra|exact NT]. }
  exists (set_coast_range (with_cyc slowed c') 4 4 (4 + n)). split.
  - unfold adjust_coast. fold c. rewrite AB. assert (E4 : cmps c 4 = 5) by reflexivity. rewrite E4.
    assert (L : (5 <? coast_brake_start_speed_m_per_s (d_sp (slowed (F := R))) - lit 1 10)%num = true) by (cbn; unfold lit; unR; apply Rltb_true; lra).
    rewrite L, EB. cbn [bindR fst snd]. now rewrite Nat2Z.id.
  - assert (S : forall j, (3 <= j)%nat -> nth j (mps c') 0 = 5 \/ nth j (mps c') 0 = 5/2 \/ nth j (mps c') 0 = 0).
    { destruct (C14_braking_edit _ _ _ _ _ _ _ _ EB eq_refl ltac:(lia) ltac:(cbn; lia) V3) as (_ & _ & _ & _ & LE & KEEP & _ & _).
      assert (OLD : forall j, (3 <= j)%nat -> nth j (mps c) 0 = 5 \/ nth j (mps c) 0 = 0).
      { intros j J. unfold c, slowed, at_speed, behind, hz, z. cbn -[nth]. unR. do 3 (destruct j as [|j]; [lia|]). cbn [nth].
        do 2 (destruct j as [|j]; [left; reflexivity|]). do 8 (destruct j as [|j]; [right; reflexivity|]). destruct j; right; reflexivity. }
      assert (EJ : exists k a w, calc_constant_jerk_trajectory 2 0 5 5 0 1 = Ok (k, a) /\ modify_by_const_jerk_trajectory c 4 2 k a = Ok (c', w) /\ Z.of_nat n = 2%Z).
      { pose proof EB as H. unfold modify_with_braking_trajectory in H. apply bind_ok in H as (u & _ & H). change (length (time_s c)) with 13%nat in H. cbn [Nat.leb] in H.
        change (pyget (mps c) (Z.of_nat 4 - 1)) with (Ok 5) in H. cbn [bindR] in H. rewrite dt_s_at_i_pos in H by (cbn; lia).
        change (nth 4 (time_s c) 0 - nth (4 - 1) (time_s c) 0) with (duration c 4) in H. rewrite DT in H by lia. cbn [bindR] in H. cbv zeta in H.
        assert (E5 : (- lit 1 2 * 5 * 5 / (-5 / 2)%R)%num = 5) by (unfold lit; unR; lra). rewrite E5 in H.
        assert (E6 : (5 <=? n0)%num = false) by (unR; apply Rleb_false; lra). rewrite E6 in H.
        assert (E7 : (1 =? n0)%num = false) by (unR; destruct (Reqb_spec 1 0); [lra|reflexivity]). rewrite E7 in H.
        assert (E8 : nround (- (5) / (-5 / 2)%R / 1)%num = 2%Z).
        { apply nround_unique; [exact NT|]. unR. replace (- (5) / (-5 / 2) / 1 - 2) with 0 by lra. rewrite Rabs_R0. lra. }
        rewrite E8 in H. cbn [Z.ltb Z.compare Pos.compare Pos.compare_cont] in H. apply bind_ok in H as ([k a] & EK & H). apply bind_ok in H as ([c2 w] & EM & H). cbn [fst snd] in *.
        injection H as <- <- H. exists k, a, w. change n0 with 0 in EK. rewrite <- H. auto. }
      destruct EJ as (k & a & w & EK & EM & N2).
      destruct (C13_only_plan _ _ _ _ _ _ _ _ 0 (-5/2) EK) as (<- & <-); [unfold speed_for_constant_jerk; unR; rewrite ?lit_R; cbn; lra|unfold dist_for_constant_jerk; unR; rewrite ?lit_R; cbn; lra|].
      destruct (C14_jerk_edit _ _ _ _ _ _ _ _ EM eq_refl ltac:(lia) ltac:(lia) V3) as (_ & _ & _ & _ & KP & NEW & _).
      change (nth 4 (time_s c) 0 - nth (4 - 1) (time_s c) 0) with (duration c 4) in NEW. rewrite DT in NEW by lia.
      intros j J. destruct (Nat.eq_dec j 4) as [->|]; [|destruct (Nat.eq_dec j 5) as [->|]].
      - specialize (NEW 1%nat ltac:(cbn; lia) ltac:(cbn; lia)). cbn [Nat.add Nat.sub] in NEW. apply (nth_error_nth _ _ 0) in NEW. rewrite NEW. right. left. cbn. rewrite Rmax_right; lra.
      - specialize (NEW 2%nat ltac:(cbn; lia) ltac:(cbn; lia)). cbn [Nat.add Nat.sub] in NEW. apply (nth_error_nth _ _ 0) in NEW. rewrite NEW. right. right. cbn. rewrite Rmax_left; lra.
      - assert (KJ : nth j (mps c') 0 = nth j (mps c) 0). { rewrite <- !nth_default_eq. unfold nth_default. rewrite KP by lia. reflexivity. }
        rewrite KJ. destruct (OLD j J); auto. }
    intros j J. cbn [set_coast_range upd_ctl_rows with_rows with_cyc d_cyc].
    destruct (S (j - 1)%nat ltac:(lia)) as [->|[->| ->]]; (split; [lra|]); unfold brakes_alike; fold c; rewrite AB; intros Q; rewrite DT by (cbn in Q; lia); split; try lra.
    + exact NT.
    + replace (- (5 / 2) / (-5 / 2) / 1) with 1 by lra. apply no_tie_Z.
    + replace (- 0 / (-5 / 2) / 1) with 0 by lra. apply no_tie_Z.
Qed.
Lemma crash_setting : avoid_setting crash 3 1.
Proof.
  constructor; try (repeat split; fail); try reflexivity.
  - split; [lia|cbn; lia].
  - cbn. unfold lit. unR. lra.
  - lra.
  - intros j J. apply (hz_unit [0; 8; 8; 8; 8; 8; 8; 8; 8; 8; 8; 8; 8]%Z 1 12); [lia|cbn; lia|cbn in J; lia].
  - intros j k (J & JK) CK. assert (K : (k < 13)%nat).
    { destruct (Nat.lt_ge_cases k 13) as [Q|Q]; [exact Q|]. unfold coast_at, row_at in CK. rewrite nth_overflow in CK by exact Q. discriminate. }
    clear CK. do 3 (destruct j as [|j]; [lia|]). do 10 (destruct j as [|j]; [reflexivity|]). lia.
  - intros tol idx T0 (F1 & F2 & _). cbn in F1. unfold gap_at in F2.
    assert (G : forall j, (3 < j < 7)%nat -> trapezoid (d_cyc0 (crash (F := R))) 0 j - trapezoid (d_cyc crash) 0 j = 0).
    { intros j J. unfold crash, behind, set_coast_range, hz, z. do 7 (destruct j as [|j]; [cbn; unR; lra||lia|]). lia. }
    assert (L : (7 <= idx)%nat).
    { destruct (Nat.le_gt_cases 7 idx) as [Q|Q]; [exact Q|]. rewrite G in F2 by lia. lra. }
    split; [lia|]. unfold crash, behind, set_coast_range, hz, z. do 7 (destruct idx as [|idx]; [lia|]). do 6 (destruct idx as [|idx]; [cbn; unR; lra|]). lia.
Qed.
(** Over the reals: 25 m before a stop both start the same coast; both react alike to being too slow; both keep
    behind a trace that slows down. *)
Example C120_case : coast_setting nearing 4 25 /\ r_start_coast (nearing (F := R)) 4 = start_coast nearing 4 /\
  r_should_impose_coast (nearing (F := R)) 4 = should_impose_coast (nearing (F := R)) 4 /\
  (exists d' x t, generate_coast_trajectory (nearing (F := R)) 4 true = Ok (d', x) /\ r_generate_coast_trajectory (nearing (F := R)) 4 = Ok t) /\
  coast_setting slowed 4 (55/2) /\ (exists d', r_adjust_coast (slowed (F := R)) 4 0 = Ok (d', true)) /\
  r_set_coast_delay (slowed (F := R)) 4 = set_coast_delay slowed 4 /\
  avoid_setting crash 3 1 /\ r_prevent_collisions 12 (crash (F := R)) 3 1 = prevent_collisions crash 3 None.
Proof.
  destruct near_plan as (d' & x & E & OP).
  assert (V : coast_brake_start_speed_m_per_s (d_sp (nearing (F := R))) < speed nearing (4 - 1)) by (unfold speed; cbn; unfold lit, z; unR; lra).
  split; [exact near_setting|]. split.
  { apply (C120_start _ _ _ _ _ near_setting E OP); [lra| |discriminate]. intros k _. unfold coast_at, row_at, nearing, at_speed.
    do 13 (destruct k as [|k]; [reflexivity|]). destruct k; reflexivity. }
  split; [apply (C120_decide _ _ _ near_setting); intros _; right; eauto|]. split.
  { destruct (C120_plan _ _ _ _ _ near_setting V E OP) as (t & ET & _). eauto. }
  split; [exact slowed_setting|]. split.
  { destruct slowed_adjust as (d2 & E2 & SP). exists d2. apply (C120_adjust _ _ _ _ _ _ slowed_setting); [|exact E2|exact SP].
    unfold duration, slowed, at_speed, behind, hz, z. cbn. unR. lra. }
  split; [exact (C120_delay _ _ _ slowed_setting)|]. split; [exact crash_setting|exact (C120_collision _ _ _ crash_setting)].
Qed.
(** On the slope of 2 %: the same coast of 144 m to the stop in a whole run. *)
Example C120_run : let f r := (mps_ach (spd r), impose_coast (ctl r), coast_delay_index (ctl r)) in
  shown (sim_drive_walk uphill 0.5%float None) f = shown (r_full_walk uphill 0.5%float None) f /\
  option_map (filter (fun b => b)) (shown (r_full_walk uphill 0.5%float None) (fun r => impose_coast (ctl r))) = Some (repeat true 16).
Proof. vm_compute. repeat split. Qed.
