(** C118-C119: the Rust implementation of runs that change the driven cycle against the Python one. *)
From Coq Require Import Floats Lia.
From Verif Require Import Num FloatNum Numpy ListFacts CycleModel CycleSpec CycleProofs2 DistProofs VehModel SimModel SimState WalkModel WalkSpec
  FrameProofs WalkProofs SimSpec SimProofs1 WalkProofs3 SimDemo SimProps
  RustModel RustWalkModel RustCycModel RustModsModel RustSpec RustCycSpec RustModsSpec RustProofs3 RustCycProofs RustCycProofs2 RustModsProofs RustModsProofs2 RustProps.
Local Open Scope R_scope.
Local Set Warnings "-inexact-float".

(** ** Lemmas *)
Lemma level_flag c : level c -> r_grade_all_zero c = true.
Proof. intros H. apply forallb_forall. intros g G. rewrite (H g G). unR. destruct (Reqb_spec 0 0); [reflexivity|contradiction]. Qed.
Lemma run_wf d ovr : run_ok d ovr -> wf_sd d.
Proof. intros P. split; [apply P|split; apply P]. Qed.
Lemma follow_twin d s ovr : follow_run d ovr ->
  match sim_drive_walk d s ovr with
  | Ok dp => exists dr, r_full_walk d s ovr = Ok dr /\ twins dp dr /\ live dp
  | Err _ => exists y, r_full_walk d s ovr = Err y
  end.
Proof. intros [P]. apply follow_walk; auto; try apply P. - now apply (run_wf d ovr). - now apply level_flag. Qed.
Lemma init_total {F} {N : Num F} (d0 : sdrive F) s ovr : (0 < clen (d_cyc d0))%nat ->
  veh_pt_type (d_veh d0) = CONV \/ (nltb (max_soc (d_veh d0)) s = false /\ nltb s (min_soc (d_veh d0)) = false) ->
  exists d1, init_for_step d0 s ovr = Ok d1.
Proof.
  intros L S. unfold init_for_step. 
  replace (negb (pt_eqb (veh_pt_type (d_veh d0)) CONV) && _)%bool with false.
  2:{ destruct S as [S|[S1 S2]]; [now rewrite S|]. rewrite S1, S2. now rewrite Bool.andb_false_r. }
  assert (RL : length (override_aux (d_rows (init_arrays d0)) ovr) = clen (d_cyc d0)).
  { unfold override_aux. cbn [d_rows init_arrays]. destruct ovr as [l|]; [|apply repeat_length].
    destruct (Nat.eqb_spec (length l) (length (repeat zero_row (clen (d_cyc d0))))) as [Q|]; [|apply repeat_length].
    rewrite zipw_length, Q, repeat_length. lia. }
  cbv zeta. destruct (override_aux _ ovr); [cbn in RL; lia|]. eauto.
Qed.
Lemma soc_flags v s : soc_ok v s -> veh_pt_type v = CONV \/ (nltb (max_soc v) s = false /\ nltb s (min_soc v) = false).
Proof.
  intros [H|H]; [now left|right]. unR. destruct (Rltb_spec (max_soc v) s), (Rltb_spec s (min_soc v)); try lra; auto.
Qed.
Lemma follow_completes d s ovr : follow_run d ovr -> (0 < clen (d_cyc d))%nat -> soc_ok (d_veh d) s ->
  idm_v_desired_by_distance (d_sp d) <> Some [] -> exists dp, sim_drive_walk d s ovr = Ok dp.
Proof.
  intros P L S T. destruct (init_total d s ovr L (soc_flags _ _ S)) as (d1 & E). unfold sim_drive_walk. rewrite E. cbn [bindR].
  pose proof (fr_ok _ _ P) as Q. pose proof (run_wf _ _ Q) as W.
  assert (CC : changes_cycle (d_sp d) = true) by (unfold changes_cycle; rewrite (fr_idm _ _ P), orb_true_r; reflexivity).
  destruct (start_live d s ovr d1 W (or_intror (level_flag _ (fr_level _ _ P))) (ro_veh _ _ Q) ltac:(rewrite CC; apply Q) (ro_loads _ _ Q) E) as [L1 T1].
  destruct (init_rows _ _ _ _ E) as (i1 & i2 & i3 & i4 & i5 & i6 & i7 & i8 & i9 & _). rewrite CC in i8.
  assert (B1 : behind_leader d1).
  { constructor; rewrite ?i3, ?i4, ?i8; try apply Q; auto; try apply P. now apply level_flag, P. }
  assert (G : forall fuel d dr, behind_leader d -> twins d dr -> d_sp d = d_sp d1 -> (length (d_rows d) <= d_i d + fuel)%nat -> exists d', walk_loop fuel d = Ok d').
  { induction fuel as [|f IH]; intros e er B TT SP H; cbn [walk_loop]; destruct (Nat.ltb_spec (d_i e) (length (time_s (d_cyc e)))) as [Z|Z]; eauto; rewrite <- (v_len _ (b_live _ B)) in Z; [lia|].
    assert (X : exists e', sim_drive_step e = Ok e').
    { unfold sim_drive_step. rewrite (b_trace _ B), (b_coast _ B), SP, i3, (fr_idm _ _ P). cbn [orb andb].
      assert (X1 : exists t, idm_target e (d_i e) = Ok t).
      { unfold idm_target. rewrite SP, i3. destruct (idm_v_desired_by_distance (d_sp d)) as [[|[a b] r]|]; [congruence|eauto|eauto]. }
      destruct X1 as [t ->]. cbn [bindR]. unfold set_speed_for_target_gap, next_speed_by_idm. cbv zeta.
      change (d_cyc (upd_row e (d_i e) (row_ctl (ctl_target t)))) with (d_cyc e). rewrite start_distance.
      2:{ apply (b_cyc _ B). } 2:{ rewrite <- (v_len _ (b_live _ B)). lia. }
      cbn [bindR]. eauto. }
    destruct X as [e' X]. rewrite X. cbn [bindR]. pose proof (v_pos _ (b_live _ B)) as P1.
    pose proof (step_stepped e e' ltac:(lia) X) as ST.
    pose proof (follow_step e er B TT Z) as FS. rewrite X in FS. destruct FS as (dr' & _ & B' & TT').
    apply (IH e' dr'); [exact B'|exact TT'|rewrite (st_sp _ _ _ ST); exact SP|]. rewrite (st_len _ _ _ ST), (st_i _ _ _ ST). lia. }
  destruct (G (length (time_s (d_cyc d1))) d1 d1 B1 T1 eq_refl) as [d2 ->]; [rewrite (v_len _ L1); lia|]. cbn [bindR]. eauto.
Qed.

Lemma trace_start d s ovr d1 : trace_run d ovr -> init_for_step d s ovr = Ok d1 ->
  r_init_for_step d s ovr = Ok d1 /\ on_trace d1 /\ twins d1 d1 /\ goes (d_i d1) d1 /\ length (d_rows d1) = length (time_s (d_cyc d1)) /\ d_i d1 = 1%nat.
Proof.
  intros [P A B C D E] I. pose proof (run_wf _ _ P) as W. pose proof (init_twin d s ovr W (ro_fits _ _ P)) as IT. rewrite I in IT.
  destruct (start_trace d s ovr d1 W A C B (ro_veh _ _ P) (ro_times _ _ P) (ro_start _ _ P) (ro_loads _ _ P) D E I) as (X1 & X2 & X3 & X4).
  destruct (init_rows _ _ _ _ I) as (_ & _ & _ & _ & _ & _ & i7 & _). auto 10.
Qed.
Lemma post_row (d : sdrive R) j : exists a, row_at (post_accel d) j = row_accel a (row_at d j).
Proof.
  destruct j as [|j]; [exists (accel_kw (pwr (row_at d 0))); rewrite (post_accel_0 d); destruct (row_at d 0) as [? ? [] ? ? ? ? ? ?]; reflexivity|].
  destruct (Nat.lt_ge_cases (S j) (length (d_rows d))) as [Q|Q]; [eexists; apply post_accel_row; lia|].
  exists (accel_kw (pwr (row_at d (S j)))). rewrite !row_at_out by (rewrite ?post_accel_len; exact Q). reflexivity.
Qed.
Lemma post_misses d j : misses (post_accel d) j = misses d j.
Proof. unfold misses. destruct (post_row d j) as [a ->]. reflexivity. Qed.
Lemma post_sbf a b x : same_but_fuel a b -> same_but_fuel_accel (row_accel x a) b.
Proof. intros []. constructor; cbn; try assumption. now rewrite sf_pwr. Qed.
(** Python's run with the correction always completes. *)
Lemma py_trace_total : forall fuel (d : sdrive R), missed_trace_correction (d_sp d) = true -> coast_allow (d_sp d) = false -> idm_allow (d_sp d) = false ->
  (1 <= d_i d)%nat -> length (d_rows d) = length (time_s (d_cyc d)) -> (length (d_rows d) <= d_i d + fuel)%nat -> exists d', walk_loop fuel d = Ok d'.
Proof.
  induction fuel as [|f IH]; intros d M C I P L H; cbn [walk_loop]; destruct (Nat.ltb_spec (d_i d) (length (time_s (d_cyc d)))) as [Q|Q]; eauto; [lia|].
  assert (X : exists d', sim_drive_step d = Ok d').
  { unfold sim_drive_step. rewrite M, C, I. cbn [bindR orb andb]. set (d3 := solve_step d (d_i d)).
    destruct (_ >? _)%num; cbn [bindR]; [|eauto].
    destruct (dilation_total (d_i d) d3) as (d4 & ts & E & _); [unfold d3; rewrite len_solve; lia|exact Q|]. rewrite E. cbn [bindR]. eauto. }
  destruct X as [d' X]. rewrite X. cbn [bindR]. pose proof (step_stepped d d' ltac:(lia) X) as ST.
  apply IH; rewrite ?(st_sp _ _ _ ST), ?(st_i _ _ _ ST), ?(st_len _ _ _ ST), ?(st_tlen _ _ _ ST); auto; lia.
Qed.

Lemma end_nonneg (c : cyc R) : increasing (time_s c) -> hd 0 (time_s c) = 0 -> 0 <= end_time c.
Proof.
  intros I H. unfold end_time. destruct (time_s c) as [|a [|b l]] eqn:E; cbn [hd last] in *; [lra|lra|].
  change (0 <= last (b :: l) 0). rewrite last_nth.
  pose proof (I 0%nat (S (length (b :: l) - 1)) a (nth (length (b :: l) - 1) (b :: l) 0) ltac:(lia) eq_refl) as G.
  cbn [nth_error] in G. rewrite (nth_error_nth' _ 0) in G by (cbn; lia). specialize (G eq_refl). lra.
Qed.
Lemma round_nonneg (x : R) : 0 <= x -> (0 <= nround x)%Z.
Proof.
  intros H. destruct (Z_lt_le_dec (nround x) 0) as [Q|Q]; [|exact Q]. exfalso.
  assert (A : Rabs (x - IZR (nround x)) <= 1 / 2) by (destruct (nround_nearest x); lra).
  assert (IZR (nround x) <= -1) by (apply IZR_le; lia). pose proof (Rle_abs (x - IZR (nround x))). lra.
Qed.

(** ** C118: both implementations follow a leader alike *)
Theorem C118_walk : forall d s ovr dp, follow_run d ovr -> sim_drive_walk d s ovr = Ok dp ->
  exists dr, r_full_walk d s ovr = Ok dr /\ d_cyc dr = d_cyc dp /\ length (d_rows dr) = length (d_rows dp) /\
    forall j, same_but_fuel (row_at dp j) (row_at dr j).
Proof.
  intros d s ovr dp P E. pose proof (follow_twin d s ovr P) as R0. rewrite E in R0. destruct R0 as (dr & R1 & T & L).
  exists dr. split; [exact R1|]. split; [apply T|]. split; apply T.
Qed.
Theorem C118_identical : forall d s ovr dp, follow_run d ovr -> sim_drive_walk d s ovr = Ok dp -> below_rated dp ->
  r_full_walk d s ovr = Ok dp.
Proof.
  intros d s ovr dp P E B. pose proof (follow_twin d s ovr P) as R0. rewrite E in R0. destruct R0 as (dr & R1 & T & L).
  now rewrite R1, (twins_equal _ _ T B).
Qed.
Theorem C118_refuses : forall d s ovr, follow_run d ovr ->
  (exists x, sim_drive_walk d s ovr = Err x) <-> (exists y, r_full_walk d s ovr = Err y).
Proof.
  intros d s ovr P. pose proof (follow_twin d s ovr P) as R0. destruct (sim_drive_walk d s ovr) as [dp|x].
  - destruct R0 as (dr & -> & _). split; intros [y Q]; discriminate.
  - split; [intros _; exact R0|eauto].
Qed.
(** Such a run completes unless the table of target speeds is empty. *)
Theorem C118_completes : forall d s ovr, follow_run d ovr -> (0 < clen (d_cyc d))%nat -> soc_ok (d_veh d) s ->
  idm_v_desired_by_distance (d_sp d) <> Some [] ->
  exists dp dr, sim_drive_walk d s ovr = Ok dp /\ r_full_walk d s ovr = Ok dr.
Proof.
  intros d s ovr P L S T. destruct (follow_completes d s ovr P L S T) as (dp & E). destruct (C118_walk _ _ _ _ P E) as (dr & E' & _). eauto.
Qed.
(** With every option off, too, whatever the road. *)
Theorem C118_plain : forall d s ovr dp, plain_run d ovr -> sim_drive_walk d s ovr = Ok dp ->
  exists dr, r_full_walk d s ovr = Ok dr /\ length (d_rows dr) = length (d_rows dp) /\
    (forall j, same_but_fuel (row_at dp j) (row_at dr j)) /\ (below_rated dp -> dr = dp).
Proof.
  intros d s ovr dp P E. assert (H : changes_cycle (d_sp d) = false) by (unfold changes_cycle; now rewrite (pr_trace _ _ P), (pr_coast _ _ P), (pr_idm _ _ P)).
  rewrite (walk_plain d s ovr H). pose proof (run_twin d s ovr P) as R0. rewrite E in R0. destruct R0 as (dr & R1 & T & L).
  exists dr. split; [exact R1|]. split; [apply T|]. split; [apply T|]. now apply twins_equal.
Qed.
(** The distance to the leader. *)
Theorem C118_gap : forall d : sdrive R, wf (d_cyc d) -> wf (d_cyc0 d) -> time_s (d_cyc d) <> [] -> time_s (d_cyc0 d) <> [] ->
  r_gap_to_lead_vehicle_m d = gap_to_lead_vehicle_m d.
Proof. exact r_gap_same. Qed.
(** Switching the option on. *)
Theorem C118_activate : forall (d : sdrive R) (by_microtrip : bool) extend blend min_speed,
  wf (d_cyc0 d) -> time_s (d_cyc0 d) <> [] -> increasing (time_s (d_cyc0 d)) -> hd 0 (time_s (d_cyc0 d)) = 0 -> nonneg (mps (d_cyc0 d)) ->
  no_tie (extend * end_time (d_cyc0 d)) ->
  (by_microtrip = true -> 0 <= blend <= 1 /\ 0 <= min_speed) -> 0 <= extend ->
  exists d', activate_eco_cruise d by_microtrip extend blend min_speed = Ok d' /\ r_activate_eco_cruise d by_microtrip extend blend min_speed = Ok d'.
Proof.
  intros d bm ex bl ms W NE I H NN TIE A B. assert (ND : nondecreasing (time_s (d_cyc0 d))) by now apply inc_nd.
  unfold activate_eco_cruise, r_activate_eco_cruise. cbv zeta.
  set (sx := if bm then _ else _). set (sy := if bm then _ else _).
  assert (X : exists s', sx = Ok s' /\ sy = Ok s').
  { unfold sx, sy. destruct bm.
    - destruct (A eq_refl) as [A1 A2]. unR. change (@n1 R RNum) with 1. change (@n0 R RNum) with 0.
      destruct (Rltb_spec 1 bl); [lra|]. destruct (Rltb_spec bl 0); [lra|]. destruct (Rltb_spec ms 0); [lra|].
      destruct (Rleb_spec 0 bl); [|lra]. destruct (Rleb_spec bl 1); [|lra]. destruct (Rleb_spec 0 ms); [|lra]. cbn [orb andb].
      rewrite r_targets_same by assumption. eauto.
    - rewrite r_dist_same0 by exact H. eexists. split; [reflexivity|]. f_equal. f_equal. unfold clen. destruct (time_s (d_cyc0 d)); [congruence|reflexivity]. }
  destruct X as (s' & -> & ->). cbn [bindR]. unR. change (@n0 R RNum) with 0. destruct (Rltb_spec ex 0); [lra|]. destruct (Rleb_spec 0 ex); [|lra].
  destruct (Rltb_spec 0 ex); [|eauto].
  assert (PE : 0 <= ex * end_time (d_cyc0 d)).
  { apply Rmult_le_pos; [lra|]. apply end_nonneg; assumption. }
  destruct (r_extend_same (d_cyc0 d) ""%string 0 ex W NE TIE) as (c' & E1 & E2).
  { rewrite Z.add_0_l. now apply round_nonneg. }
  rewrite E1, E2. cbn [bindR]. eauto.
Qed.
Theorem C118_activate_refuses : forall (d : sdrive R) (by_microtrip : bool) extend blend min_speed,
  (by_microtrip = true /\ ~ (0 <= blend <= 1 /\ 0 <= min_speed)) \/ extend < 0 ->
  (exists e, activate_eco_cruise d by_microtrip extend blend min_speed = Err e) /\ (exists e, r_activate_eco_cruise d by_microtrip extend blend min_speed = Err e).
Proof.
  intros d bm ex bl ms C. unfold activate_eco_cruise, r_activate_eco_cruise. cbv zeta. unR. change (@n1 R RNum) with 1. change (@n0 R RNum) with 0.
  destruct bm.
  - destruct (Rltb_spec 1 bl), (Rltb_spec bl 0), (Rleb_spec 0 bl), (Rleb_spec bl 1); cbn [orb andb bindR]; try lra; eauto.
    destruct (Rltb_spec ms 0), (Rleb_spec 0 ms); cbn [bindR]; try lra; eauto.
    destruct (Rltb_spec ex 0), (Rleb_spec 0 ex); try lra; eauto; exfalso; destruct C as [[_ C]|C]; try lra; apply C; lra.
  - destruct C as [[Q _]|C]; [discriminate|]. cbn [bindR]. destruct (Rltb_spec ex 0), (Rleb_spec 0 ex); try lra; eauto.
Qed.
(** A car that could not keep up with its leader, on a road that steepens a little: Rust stops looking for
    the slope it drives on at an error of 1/10000, Python at 1/1000000. *)
Definition keen_sp : simparams float :=
  mksimparams true false n1 (- 0.5)%float 0.0005%float 5 n1 0.001%float 0.001%float 30 0.9%float 100 (lit 1 1000000000) 0.002%float
    false false (z 40) (- 2.5)%float 7.5%float n0 (z 20) true 33.33%float n1 n2 (z 4) (z 10) 1.5%float None 0.3%float.
Definition steepening : cyc float := mkcyc [0; 2; 3; 4]%float [0; 6; 16; 20]%float [0; 0.01; 0.01005; 0.01008]%float [0; 0; 0; 0]%float.
Theorem C118_sloping_road_refuted : exists d : sdrive float, idm_allow (d_sp d) = true /\
  shown (sim_drive_walk d 0.5%float None) (fun r => mps_ach (spd r)) = Some [0; 0; 5.2248335840370537; 9.6767356436542773]%float /\
  shown (r_full_walk d 0.5%float None) (fun r => mps_ach (spd r)) = Some [0; 0; 5.2248335840370537; 9.6769344130468031]%float.
Proof. exists (new_sd demo_conv demo_props keen_sp steepening). vm_compute. repeat split. Qed.

Definition flat_trip {F} {N : Num F} : cyc F := mkcyc (map z [0; 2; 4; 5; 8]%Z) (map z [0; 6; 9; 9; 0]%Z) (repeat n0 5) (repeat n0 5).
Definition tailing {F} {N : Num F} : sdrive F := new_sd demo_conv demo_props (demo_sp false false true) flat_trip.
Lemma conv_loads ovr : ovr = None -> loads_ok ovr (demo_conv (F := R)).
Proof. intros -> _. demo_num. repeat split; try lra. discriminate. Qed.
Lemma flat_inc : increasing (time_s (flat_trip (F := R))).
Proof. exact demo_trip_inc. Qed.
Example C118_case : follow_run tailing None /\ (exists dp dr, sim_drive_walk tailing (1/2) None = Ok dp /\ r_full_walk tailing (1/2) None = Ok dr) /\
  plain_run conv_trip None /\ exists d', activate_eco_cruise (tailing (F := R)) true (3/10) (1/2) 8 = Ok d'.
Proof.
  assert (RO : run_ok tailing None).
  { constructor; try (repeat split; fail); [apply flat_inc|apply demo_comparable|now apply conv_loads|discriminate]. }
  assert (FR : follow_run tailing None).
  { constructor; auto. intros g G. cbn in G. repeat destruct G as [<-|G]; try contradiction; reflexivity. }
  split; [exact FR|]. split; [|split].
  - apply C118_completes; [exact FR|cbn; lia|left; reflexivity|discriminate].
  - apply demo_plain; auto using demo_trip_wf, demo_trip_inc; [apply demo_comparable|now apply conv_loads|discriminate].
  - destruct (C118_activate (tailing (F := R)) true (3/10) (1/2) 8) as (d' & E & _); eauto; try apply RO; try lra.
    + discriminate.
    + intros x Q. unfold tailing, flat_trip, z in Q. cbn in Q. unR. repeat destruct Q as [<-|Q]; try contradiction; lra.
    + intros k Q. unfold end_time, tailing, flat_trip, z in Q. cbn in Q. unR.
      assert (Q2 : 24 = 10 * IZR k + 5) by lra. rewrite <- mult_IZR, <- plus_IZR in Q2. apply eq_IZR in Q2. lia.
Qed.
Example C118_run : let f r := (mps_ach (spd r), fs_kw_out_ach (fc r)) in
  shown (sim_drive_walk (tailing (F := float)) 0.5%float None) f = shown (r_full_walk tailing 0.5%float None) f /\
  shown (r_full_walk tailing 0.5%float None) (fun r => mps_ach (spd r)) = Some [0; 0; 1.875; 2.8660267131088464; 5.8502845786035325]%float.
Proof. vm_compute. repeat split. Qed.

(** ** C119: correction of a missed trace *)
(** A run in which Python corrects nothing is the same in Rust. *)
Theorem C119_no_correction : forall d s ovr dp, trace_run d ovr -> sim_drive_walk d s ovr = Ok dp -> (forall j, uncorrected dp j) ->
  exists dr, r_full_walk d s ovr = Ok dr /\ d_cyc dr = d_cyc dp /\ length (d_rows dr) = length (d_rows dp) /\
    (forall j, same_but_fuel (row_at dp j) (row_at dr j)) /\ (below_rated dp -> dr = dp).
Proof.
  intros d s ovr dp P E U. unfold sim_drive_walk in E. inv_ok E. rename x into d1. inv_ok E. rename x into d2. injection E as <-.
  destruct (trace_start d s ovr d1 P E0) as (R1 & O & T & G & L & I1).
  destruct (trace_loop _ _ _ _ O T E1) as (dr & E2 & O2 & T2 & H2). { intros k. rewrite <- (post_misses d2 k). apply U. }
  rewrite post_accel_same by (assumption || apply O2). exists dr. unfold r_full_walk. rewrite R1. cbn [bindR]. split; [exact E2|].
  split; [apply T2|]. split; [apply T2|]. split; [apply T2|]. now apply twins_equal.
Qed.
(** Otherwise they agree up to and including the first step that Python corrects, with the same stretched
    time stamp there. *)
Theorem C119_first_correction : forall d s ovr dp dr j, trace_run d ovr -> sim_drive_walk d s ovr = Ok dp -> r_full_walk d s ovr = Ok dr ->
  (forall k, (k < j)%nat -> uncorrected dp k) ->
  same_but_fuel_accel (row_at dp j) (row_at dr j) /\ nth j (time_s (d_cyc dr)) 0 = nth j (time_s (d_cyc dp)) 0.
Proof.
  intros d s ovr dp dr j P E E' U. unfold sim_drive_walk in E. inv_ok E. rename x into d1. inv_ok E. rename x into d2. injection E as <-.
  destruct (trace_start d s ovr d1 P E0) as (R1 & O & T & G & L & I1). unfold r_full_walk in E'. rewrite R1 in E'. cbn [bindR] in E'.
  destruct (trace_until _ _ _ _ _ O T E1 E' j) as [A B]. { intros k Hk. rewrite <- (post_misses d2 k). now apply U. }
  split; [|exact B]. destruct (post_row d2 j) as [a ->]. now apply post_sbf.
Qed.
(** Both complete the run, or both refuse it. *)
Theorem C119_completes : forall d s ovr, trace_run d ovr -> (0 < clen (d_cyc d))%nat -> soc_ok (d_veh d) s ->
  exists dp dr, sim_drive_walk d s ovr = Ok dp /\ r_full_walk d s ovr = Ok dr.
Proof.
  intros d s ovr P L S. destruct (init_total d s ovr L (soc_flags _ _ S)) as (d1 & E). unfold sim_drive_walk, r_full_walk.
  destruct (trace_start d s ovr d1 P E) as (R1 & O & T & G & LL & I1). rewrite E, R1. cbn [bindR].
  destruct (py_trace_total (length (time_s (d_cyc d1))) d1 (o_mtc _ O) (o_coast _ O) (o_idm _ O)) as [d2 ->]; try lia.
  destruct (goes_full (length (time_s (d_cyc d1))) d1 G) as [dr ->]; [lia|]. cbn [bindR]. eauto.
Qed.
Theorem C119_refuses : forall d s ovr, trace_run d ovr ->
  (exists x, sim_drive_walk d s ovr = Err x) <-> (exists y, r_full_walk d s ovr = Err y).
Proof.
  intros d s ovr P. pose proof (init_twin d s ovr (run_wf _ _ (tr_ok _ _ P)) (ro_fits _ _ (tr_ok _ _ P))) as IT. unfold sim_drive_walk, r_full_walk.
  destruct (init_for_step d s ovr) as [d1|x] eqn:E.
  - destruct (trace_start d s ovr d1 P E) as (R1 & O & T & G & LL & I1). rewrite R1. cbn [bindR].
    destruct (py_trace_total (length (time_s (d_cyc d1))) d1 (o_mtc _ O) (o_coast _ O) (o_idm _ O)) as [d2 ->]; try lia.
    destruct (goes_full (length (time_s (d_cyc d1))) d1 G) as [dr ->]; [lia|]. cbn [bindR]. split; intros [y Q]; discriminate.
  - destruct IT as [y ->]. cbn [bindR]. split; eauto.
Qed.
(** 'Rust, too, keeps the driven distance at that of the trace' is false: after a first correction it
    compares with the stretched cycle and corrects no more.  At the end of this trip Python is where the
    trace ends, Rust is off by 36 % of its length. *)
Definition sprint : cyc float := mkcyc (map z [0; 2; 3; 4; 5; 6; 7; 8; 9; 10]%Z) (map z [0; 6; 16; 16; 16; 16; 16; 16; 8; 4]%Z) (repeat n0 10) (repeat n0 10).
Definition off_by (r : Res (sdrive float)) : option float :=
  match r with
  | Ok d => Some (nabs (nsum (dist_m (d_cyc0 d)) - nsum (map (fun r => dist_m_ach (spd r)) (d_rows d))) / nsum (dist_m (d_cyc0 d)))%num
  | Err _ => None
  end.
Theorem C119_later_steps_refuted : exists d : sdrive float, missed_trace_correction (d_sp d) = true /\ time_dilation_tol (d_sp d) = 0.0005%float /\
  shown (sim_drive_walk d 0.5%float None) (fun r => trace_miss_iters (ctl r)) = Some [0; 0; 3; 1; 1; 1; 1; 1; 1; 0]%nat /\
  shown (r_full_walk d 0.5%float None) (fun r => trace_miss_iters (ctl r)) = Some [0; 0; 3; 0; 0; 0; 0; 0; 0; 0]%nat /\
  off_by (sim_drive_walk d 0.5%float None) = Some 0%float /\ off_by (r_full_walk d 0.5%float None) = Some 0.35922752348073744%float.
Proof. exists (new_sd demo_conv demo_props (demo_sp true false false) sprint). vm_compute. repeat split. Qed.
Lemma parked_loop : forall fuel (d d' : sdrive R), missed_trace_correction (d_sp d) = true -> coast_allow (d_sp d) = false -> idm_allow (d_sp d) = false ->
  (forall i, cyc0_dist_to d i <= 0) -> (1 <= d_i d)%nat -> length (d_rows d) = length (time_s (d_cyc d)) -> (forall j, uncorrected d j) -> walk_loop fuel d = Ok d' -> forall j, uncorrected d' j.
Proof.
  induction fuel as [|f IH]; intros d d' M C I Z P L U E; cbn [walk_loop] in E; destruct (Nat.ltb_spec (d_i d) (length (time_s (d_cyc d)))) as [Q|Q]; try discriminate; try (injection E as <-; exact U).
  inv_ok E. assert (x = with_i (solve_step d (d_i d)) (S (d_i d))) as ->.
  { revert E0. unfold sim_drive_step. rewrite M, C, I. cbn [bindR orb andb]. unR. pose proof (Z (d_i d)) as ZZ.
    change (cyc0_dist_to (solve_step d (d_i d)) (d_i d)) with (cyc0_dist_to d (d_i d)). destruct (Rltb_spec 0 (cyc0_dist_to d (d_i d))) as [W|W]; [lra|]. cbn [bindR]. intros QQ. injection QQ as <-. reflexivity. }
  refine (IH (with_i (solve_step d (d_i d)) (S (d_i d))) d' M C I Z _ _ _ E).
  - cbn. lia.
  - cbn. rewrite set_nth_length. exact L.
  - intros j. unfold uncorrected, solve_step. change (row_at (with_i ?a ?b) j) with (row_at a j). rewrite row_upd by lia.
    destruct (Nat.eqb_spec j (d_i d)) as [->|]; [rewrite ctl_of_solve|]; apply U.
Qed.
Definition parked : sdrive R := new_sd demo_conv demo_props (demo_sp true false false) demo_park.
Definition hurried : sdrive R := new_sd demo_conv demo_props (demo_sp true false false) demo_trip.
(** Over the reals: standing for an hour is a run without correction; a trip meets the other hypotheses. *)
Example C119_case : (exists dp, trace_run parked None /\ sim_drive_walk parked (1/2) None = Ok dp /\ forall j, uncorrected dp j) /\
  trace_run hurried None /\ exists dp dr, sim_drive_walk hurried (1/2) None = Ok dp /\ r_full_walk hurried (1/2) None = Ok dr /\
    same_but_fuel_accel (row_at dp 1) (row_at dr 1).
Proof.
  assert (TP : trace_run parked None).
  { constructor; [|reflexivity|reflexivity|reflexivity|unfold parked; demo_num|unfold parked; demo_num].
    constructor; try (repeat split; fail); [apply demo_park_inc|apply demo_comparable|now apply conv_loads|discriminate]. }
  assert (TH : trace_run hurried None).
  { constructor; [|reflexivity|reflexivity|reflexivity|unfold hurried; demo_num|unfold hurried; demo_num].
    constructor; try (repeat split; fail); [apply demo_trip_inc|apply demo_comparable|now apply conv_loads|discriminate]. }
  split; [|split; [exact TH|]].
  - destruct (C119_completes parked (1/2) None TP) as (dp & dr & E & _); [cbn; lia|left; reflexivity|]. exists dp. split; [exact TP|]. split; [exact E|].
    unfold sim_drive_walk in E. inv_ok E. rename x into d1. inv_ok E. rename x into d2. injection E as <-.
    destruct (trace_start parked (1/2) None d1 TP E0) as (R1 & O & T & G & L & I1).
    intros j. unfold uncorrected. change (misses (post_accel d2) j = 0%nat). rewrite post_misses. unfold misses.
    destruct (init_rows _ _ _ _ E0) as (i1 & i2 & i3 & i4 & i5 & i6 & i7 & i8 & i9 & i10 & i11 & i12 & i13).
    refine (parked_loop _ d1 d2 (o_mtc _ O) (o_coast _ O) (o_idm _ O) _ ltac:(lia) L _ E1 j); clear j.
    + intros i. unfold cyc0_dist_to. rewrite i4.
      assert (EQ : dist_m (d_cyc0 parked) = [0; 0; 0]) by (unfold parked, demo_park, z; cbn; unR; repeat f_equal; lra).
      rewrite EQ, nsum_Rsum. destruct i as [|[|[|[|i]]]]; cbn; lra.
    + intros j. destruct j as [|j]; [unfold uncorrected; rewrite i12; reflexivity|]. apply (o_new _ O). lia.
  - destruct (C119_completes hurried (1/2) None TH) as (dp & dr & E & E'); [cbn; lia|left; reflexivity|]. exists dp, dr. split; [exact E|]. split; [exact E'|].
    apply (C119_first_correction hurried (1/2) None dp dr 1 TH E E'). intros k Hk. assert (k = 0%nat) as -> by lia.
    unfold sim_drive_walk in E. inv_ok E. rename x into d1. inv_ok E. rename x into d2. injection E as <-.
    destruct (trace_start hurried (1/2) None d1 TH E0) as (R1 & O & T & G & L & I1).
    change (misses (post_accel d2) 0 = 0%nat). rewrite post_misses. unfold misses.
    destruct (py_frame _ d1 d2 ltac:(lia) L E1) as (F1 & _). destruct (F1 0%nat) as [-> _]; [lia|].
    destruct (init_rows _ _ _ _ E0) as (i1 & i2 & i3 & i4 & i5 & i6 & i7 & i8 & i9 & i10 & i11 & i12 & i13). rewrite i12. reflexivity.
Qed.
(** A correction of one step, the same in both. *)
Example C119_run : let d := new_sd demo_conv demo_props (demo_sp true false false) demo_dash in
  let f r := (mps_ach (spd r), trace_miss_iters (ctl r), fs_kw_out_ach (fc r)) in
  shown (sim_drive_walk d 0.5%float None) f = shown (r_full_walk d 0.5%float None) f /\
  shown (r_full_walk d 0.5%float None) (fun r => trace_miss_iters (ctl r)) = Some [0; 0; 3]%nat.
Proof. vm_compute. repeat split. Qed.
