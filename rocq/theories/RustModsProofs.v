(** Lemmas on the parts of the Rust implementation that change the driven cycle: car following. *)
From Verif Require Import Num Numpy ListFacts CycleModel CycleSpec DistProofs VehModel SimModel SimState WalkModel SimSpec
  RustModel RustWalkModel RustPostModel RustCycModel RustModsModel RustSpec
  FrameProofs WalkProofs StepProofs PlainProofs SimProofs3 RustProofs RustProofs2 RustProofs3 RustCycProofs RustCycProofs2.
Local Open Scope R_scope.

(** ** Without options *)
Lemma full_env_plain {F} {N : Num F} (d : sdrive F) i : d_cache d = build_cache (d_cyc0 d) -> coast_allow (d_sp d) = false -> idm_allow (d_sp d) = false ->
  r_full_env d i = r_env_at d i.
Proof.
  intros C A B. unfold r_full_env, r_env_at, r_plain_grade, r_lookup_grade, r_estimate_grade. rewrite A, B, C. reflexivity.
Qed.
Lemma full_env_flat {F} {N : Num F} (d : sdrive F) i : d_cache d = build_cache (d_cyc0 d) -> r_grade_all_zero (d_cyc0 d) = true ->
  r_full_env d i = r_env_at d i.
Proof.
  intros C A. unfold r_full_env, r_env_at, r_plain_grade, r_lookup_grade, r_estimate_grade. rewrite C.
  change (grade_all_zero (build_cache (d_cyc0 d))) with (r_grade_all_zero (d_cyc0 d)). now rewrite A.
Qed.
Lemma plain_is {F} {N : Num F} (d : sdrive F) : r_full_env d (d_i d) = r_env_at d (d_i d) ->
  r_plain_step d = do e <- r_solve_step d (d_i d); Ok (with_i e (S (d_i d))).
Proof. intros E. unfold r_plain_step, r_solve_step. rewrite E. destruct (r_solve_row _ _ _ _ _ _); reflexivity. Qed.
Lemma step_plain {F} {N : Num F} (d : sdrive F) : d_cache d = build_cache (d_cyc0 d) -> changes_cycle (d_sp d) = false -> r_step d = r_plain_step d.
Proof.
  intros C H. destruct (plain_flags _ H) as (A1 & A2 & A3). rewrite plain_is by now apply full_env_plain.
  unfold r_step. rewrite A1, A2, A3. reflexivity.
Qed.
Lemma loop_plain {F} {N : Num F} : forall fuel (d : sdrive F), d_cache d = build_cache (d_cyc0 d) -> changes_cycle (d_sp d) = false ->
  r_full_loop fuel d = r_walk_loop fuel d.
Proof.
  induction fuel as [|f IH]; intros d C H; [reflexivity|]. cbn [r_full_loop r_walk_loop]. destruct (Nat.ltb _ _); [|reflexivity].
  rewrite step_plain by assumption. unfold r_plain_step. destruct (r_solve_row _ _ _ _ _ _); [|reflexivity]. cbn [bindR]. now apply IH.
Qed.
Lemma init_keeps {F} {N : Num F} (d d1 : sdrive F) s ovr : r_init_for_step d s ovr = Ok d1 -> d_cache d1 = build_cache (d_cyc0 d1) /\ d_sp d1 = d_sp d.
Proof.
  unfold r_init_for_step. destruct (_ || _)%bool; [|discriminate]. destruct (r_override _ _) as [[|r0 rest]|]; try discriminate.
  intros E. injection E as <-. destruct (changes_cycle _); split; reflexivity.
Qed.
Lemma walk_plain {F} {N : Num F} (d : sdrive F) s ovr : changes_cycle (d_sp d) = false -> r_full_walk d s ovr = r_walk d s ovr.
Proof.
  intros H. unfold r_full_walk, r_walk. destruct (r_init_for_step d s ovr) as [d1|] eqn:E; [|reflexivity]. cbn [bindR].
  destruct (init_keeps _ _ _ _ E) as [C P]. apply loop_plain; [exact C|now rewrite P].
Qed.

(** ** The speed of the follower *)
Lemma r_gap_same (d : sdrive R) : wf (d_cyc d) -> wf (d_cyc0 d) -> time_s (d_cyc d) <> [] -> time_s (d_cyc0 d) <> [] ->
  r_gap_to_lead_vehicle_m d = gap_to_lead_vehicle_m d.
Proof.
  intros (W1 & _) (W2 & _) N1 N2. unfold r_gap_to_lead_vehicle_m, gap_to_lead_vehicle_m. now rewrite !r_trapz_same by assumption.
Qed.
Lemma next_speed_same (d : sdrive R) i a b h s0 vdes delta : length (mps (d_cyc d)) = length (time_s (d_cyc d)) -> wf (d_cyc0 d) -> d_cache d = build_cache (d_cyc0 d) ->
  (1 <= i < length (time_s (d_cyc d)))%nat -> length (time_s (d_cyc0 d)) = length (time_s (d_cyc d)) ->
  r_next_speed_by_idm d i a b h s0 vdes delta = next_speed_by_idm d i a b h s0 vdes delta.
Proof.
  intros W (W0 & _) C I L. unfold r_next_speed_by_idm, next_speed_by_idm, idm_speed.
  rewrite start_distance, r_start by (assumption || lia). cbn [bindR].
  destruct (vdes <=? n0)%num; [reflexivity|].
  destruct i as [|j]; [lia|]. cbn [r_pred bindR]. replace (S j - 1)%nat with j by lia.
  rewrite (r_get_ok (mps (d_cyc0 d)) j 0) by (rewrite W0; lia). rewrite C. cbn [bindR].
  rewrite (r_get_ok (cc_distances (build_cache (d_cyc0 d))) j 0)
    by (cbn [build_cache cc_distances]; rewrite cum_dist_length by (assumption || (intros Q; rewrite Q in L; cbn in L; lia)); lia).
  cbn [bindR]. rewrite r_dt_at_ok by lia. cbn [bindR]. f_equal.
  rewrite !nmax_R. change (@n0 R RNum) with 0. rewrite (Rmax_comm h 0). unfold cmps, cdt, ctime. destruct (Nat.ltb_spec (S j) 1); [lia|].
  replace (S j - 1)%nat with j by lia. reflexivity.
Qed.
Lemma max_nonempty (l : list R) : l <> [] -> (match l with [] => Err IndexError | x :: r => Ok (nmaxl x r) end) = Ok (amax l).
Proof. destruct l; [congruence|reflexivity]. Qed.
Lemma set_gap_same (d : sdrive R) i : wf (d_cyc d) -> wf (d_cyc0 d) -> d_cache d = build_cache (d_cyc0 d) ->
  (1 <= i < length (time_s (d_cyc d)))%nat -> length (time_s (d_cyc0 d)) = length (time_s (d_cyc d)) ->
  r_set_speed_for_target_gap d i = set_speed_for_target_gap d i.
Proof.
  intros (W & _) W0 C I L. unfold r_set_speed_for_target_gap, set_speed_for_target_gap.
  rewrite max_nonempty by (destruct W0 as (W1 & _); intros Q; rewrite Q in W1; cbn in W1; lia).
  destruct (_ >? _)%num; cbn [bindR]; now rewrite next_speed_same.
Qed.
Lemma idm_target_same (d : sdrive R) i : hd 0 (time_s (d_cyc d)) = 0 -> r_idm_target d i = idm_target d i.
Proof.
  intros H. unfold r_idm_target, idm_target. rewrite r_dist_same0 by assumption. now destruct (idm_v_desired_by_distance _) as [[|[a b] r]|].
Qed.

(** ** Twins stay twins when the cycle is changed *)
Lemma twins_mps dp dr i v : twins dp dr -> twins (set_cyc_mps dp i v) (set_cyc_mps dr i v).
Proof. intros []. constructor; cbn; try assumption. now rewrite k_cyc. Qed.
Lemma twins_grade dp dr i v : twins dp dr -> twins (set_cyc_grade dp i v) (set_cyc_grade dr i v).
Proof. intros []. constructor; cbn; try assumption. now rewrite k_cyc. Qed.
Lemma live_mps d i v : live d -> live (set_cyc_mps d i v).
Proof. intros []. constructor; assumption. Qed.
Lemma live_grade d i v : live d -> live (set_cyc_grade d i v).
Proof. intros []. constructor; assumption. Qed.
Lemma row_upd (d : sdrive R) i f j : (i < length (d_rows d))%nat -> row_at (upd_row d i f) j = if Nat.eqb j i then f (row_at d i) else row_at d j.
Proof. intros H. unfold row_at at 1, upd_row. cbn [d_rows with_rows]. now apply row_at_set. Qed.
Lemma sbf_target a b t : same_but_fuel a b -> same_but_fuel (row_ctl (ctl_target t) a) (row_ctl (ctl_target t) b).
Proof. intros []. constructor; cbn; congruence. Qed.
Lemma twins_target dp dr t : live dp -> twins dp dr -> (d_i dp < length (d_rows dp))%nat ->
  twins (upd_row dp (d_i dp) (row_ctl (ctl_target t))) (upd_row dr (d_i dp) (row_ctl (ctl_target t))).
Proof.
  intros L T H. pose proof (v_pos _ L) as P1. set (i := d_i dp) in *. set (f := row_ctl (ctl_target t)).
  assert (RA : forall j, row_at (upd_row dp i f) j = if Nat.eqb j i then f (row_at dp i) else row_at dp j) by (intros j; now apply row_upd).
  assert (RB : forall j, row_at (upd_row dr i f) j = if Nat.eqb j i then f (row_at dr i) else row_at dr j) by (intros j; apply row_upd; rewrite (k_len _ _ T); exact H).
  assert (EI : row_at dp i = row_at dr i) by (apply (k_above _ _ T); lia).
  constructor; try (cbn; apply T).
  - cbn. rewrite !set_nth_length. apply T.
  - intros j. rewrite RA, RB. destruct (Nat.eqb_spec j i); [|apply T]. apply sbf_target, T.
  - rewrite RA, RB. destruct (Nat.eqb_spec 0 i); [lia|apply T].
  - intros j Hj. rewrite RA, RB. destruct (Nat.eqb_spec j i); [now rewrite EI|]. apply (k_above _ _ T). exact Hj.
  - intros j. rewrite RA, RB. change (d_veh (upd_row dp i f)) with (d_veh dp). destruct (Nat.eqb_spec j i); [|apply T]. now rewrite EI.
  - intros j Hj. rewrite !RA, !RB. destruct (Nat.eqb_spec j i) as [->|Q]; [now rewrite EI|].
    destruct (Nat.eqb_spec (j - 1) i) as [Q2|Q2]; [|apply (k_lims _ _ T); exact Hj].
    intros _. rewrite (k_above _ _ T j); [reflexivity|]. fold i. lia.
  - intros j. rewrite RA, RB. change (d_veh (upd_row dp i f)) with (d_veh dp). change (d_cyc (upd_row dp i f)) with (d_cyc dp).
    destruct (Nat.eqb_spec j i) as [->|Q]; [|apply T].
    intros M O. apply (k_rated _ _ T i M). exact O.
Qed.
Lemma live_target d t : live d -> (d_i d < length (d_rows d))%nat -> live (upd_row d (d_i d) (row_ctl (ctl_target t))).
Proof.
  intros L H. set (i := d_i d) in *. set (f := row_ctl (ctl_target t)).
  assert (RA : forall j, row_at (upd_row d i f) j = if Nat.eqb j i then f (row_at d i) else row_at d j) by (intros j; now apply row_upd).
  constructor; try (cbn; apply L).
  - cbn. rewrite set_nth_length. apply L.
  - intros M. split; [apply (v_aux _ L M)|]. intros j Hj. rewrite RA. destruct (Nat.eqb_spec j i) as [->|]; apply (v_aux _ L M); exact Hj.
  - intros j Hj. rewrite RA. destruct (Nat.eqb_spec j i) as [->|]; apply (v_new _ L _ Hj).
  - intros j. rewrite RA. destruct (Nat.eqb_spec j i) as [->|]; apply L.
  - cbn [d_i upd_row with_rows]. intros j Hj. unfold mps_ach_at. rewrite !RA. destruct (Nat.eqb_spec j i); [unfold i in *; lia|].
    destruct (Nat.eqb_spec (j - 1) i); [unfold i in *; lia|]. apply (v_acc _ L). exact Hj.
Qed.

(** ** A step behind a leader *)
Record behind_leader (d : sdrive R) : Prop := {
  b_live : live d; b_flat : r_grade_all_zero (d_cyc0 d) = true; b_cyc : wf (d_cyc d); b_cyc0 : wf (d_cyc0 d);
  b_times : time_s (d_cyc0 d) = time_s (d_cyc d); b_start : hd 0 (time_s (d_cyc d)) = 0;
  b_trace : missed_trace_correction (d_sp d) = false; b_coast : coast_allow (d_sp d) = false }.
Lemma r_target_twin dp dr i : twins dp dr -> r_idm_target dr i = r_idm_target dp i.
Proof. intros T. unfold r_idm_target. now rewrite (k_sp _ _ T), (k_cyc _ _ T). Qed.
Lemma r_gap_twin dp dr i : twins dp dr ->
  r_set_speed_for_target_gap dr i = do x <- r_set_speed_for_target_gap dp i; Ok (with_cyc dr (d_cyc x)).
Proof.
  intros T. unfold r_set_speed_for_target_gap, r_next_speed_by_idm, mps_ach_at.
  rewrite (k_sp _ _ T), (k_cyc _ _ T), (k_cyc0 _ _ T), (k_cache _ _ T), <- (sf_ctl _ _ (k_rows _ _ T i)).
  destruct (if (_ >? _)%num then _ else _) as [vd|]; [|reflexivity]. cbn [bindR].
  destruct (vd <=? n0)%num. { cbn [bindR]. unfold set_cyc_mps. now rewrite (k_cyc _ _ T). }
  destruct (r_pred i) as [j|]; [|reflexivity]. cbn [bindR].
  rewrite <- (sf_spd _ _ (k_rows _ _ T j)).
  destruct (r_get (mps (d_cyc0 dp)) j); [|reflexivity]. cbn [bindR].
  destruct (r_get (cc_distances _) j); [|reflexivity]. cbn [bindR].
  destruct (r_trapz_step_start_distance _ _); [|reflexivity]. cbn [bindR].
  destruct (r_dt_at _ _); [|reflexivity]. cbn [bindR]. unfold set_cyc_mps. now rewrite (k_cyc _ _ T).
Qed.
Lemma wf_mps (c : cyc R) i v : wf c -> wf (with_mps c (set_nth (mps c) i v)).
Proof. intros (A & B & C). unfold wf in *. cbn. rewrite set_nth_length. auto. Qed.

Lemma follow_step dp dr : behind_leader dp -> twins dp dr -> (d_i dp < length (d_rows dp))%nat ->
  match sim_drive_step dp with
  | Ok dp' => exists dr', r_step dr = Ok dr' /\ behind_leader dp' /\ twins dp' dr'
  | Err x => r_step dr = Err x
  end.
Proof.
  intros B T H. pose proof (b_live _ B) as L. pose proof (v_pos _ L) as P1.
  unfold sim_drive_step, r_step. rewrite (k_sp _ _ T), (k_i _ _ T), (b_trace _ B), (b_coast _ B). cbn [orb andb].
  set (i := d_i dp) in *.
  (* the part after the speed has been set *)
  assert (SOLVE : forall ap ar, behind_leader ap -> twins ap ar -> d_i ap = i -> length (d_rows ap) = length (d_rows dp) ->
     let dp' := with_i (solve_step ap i) (S i) in
     exists ar', r_solve_step ar i = Ok ar' /\ behind_leader dp' /\ twins dp' (with_i ar' (S i))).
  { intros ap ar BA TA EA LA dp'. destruct (step_twin ap ar (b_live _ BA) TA) as (dr' & R1 & L' & T'); [rewrite EA, LA; exact H|].
    rewrite EA in L', T'. fold dp' in L', T'.
    rewrite plain_is in R1.
    2:{ apply full_env_flat; [rewrite (k_cache _ _ TA), (k_cyc0 _ _ TA); apply (v_cache _ (b_live _ BA))|rewrite (k_cyc0 _ _ TA); apply BA]. }
    rewrite (k_i _ _ TA), EA in R1. destruct (r_solve_step ar i) as [ar'|]; [|discriminate]. cbn [bindR] in R1. injection R1 as <-.
    exists ar'. split; [reflexivity|]. split; [|exact T']. destruct BA. constructor; assumption. }
  destruct (idm_allow (d_sp dp)) eqn:EI; cbn [bindR].
  - rewrite (r_target_twin dp dr i T), (idm_target_same dp i (b_start _ B)).
    destruct (idm_target dp i) as [t|x]; [|reflexivity]. cbn [bindR].
    pose proof (twins_target dp dr t L T H) as T1. fold i in T1. pose proof (live_target dp t L H) as L1. fold i in L1.
    set (dp1 := upd_row dp i (row_ctl (ctl_target t))) in *. set (dr1 := upd_row dr i (row_ctl (ctl_target t))) in *.
    rewrite (r_gap_twin dp1 dr1 i T1).
    rewrite set_gap_same; [|apply B|apply B|apply L|cbn; rewrite <- (v_len _ L); lia|cbn; now rewrite (b_times _ B)].
    unfold set_speed_for_target_gap. destruct (next_speed_by_idm _ _ _ _ _ _ _ _) as [v|x]; [|reflexivity]. cbn [bindR].
    set (ap := set_cyc_mps dp1 i v).
    assert (ER : with_cyc dr1 (d_cyc ap) = set_cyc_mps dr1 i v) by (unfold ap, set_cyc_mps; cbn [d_cyc with_cyc]; rewrite (k_cyc _ _ T1); reflexivity).
    rewrite ER. set (ar := set_cyc_mps dr1 i v).
    assert (BA : behind_leader ap).
    { constructor; try (cbn; apply B). - apply live_mps, L1. - cbn. apply wf_mps, B. }
    assert (TA : twins ap ar) by (apply twins_mps, T1).
    destruct (SOLVE ap ar BA TA eq_refl) as (ar' & R1 & B2 & T2); [cbn; apply set_nth_length|]. rewrite R1. cbn [bindR].
    set (p2 := solve_step ap i) in *.
    assert (EV : mps_ach_at ar' i = mps_ach_at p2 i) by (exact (f_equal mps_ach (eq_sym (sf_spd _ _ (k_rows _ _ T2 i))))).
    assert (GZ : forall e, d_cache e = build_cache (d_cyc0 dp) -> lookup_grade e i None = 0 /\ r_lookup_grade e i None = 0).
    { intros e Q. unfold lookup_grade, r_lookup_grade. rewrite Q. change (grade_all_zero (build_cache (d_cyc0 dp))) with (r_grade_all_zero (d_cyc0 dp)).
      rewrite (b_flat _ B). split; reflexivity. }
    pose proof (k_cache _ _ T2) as KC. cbn [d_cache with_i] in KC.
    rewrite (proj1 (GZ _ (v_cache _ L : d_cache (set_cyc_mps p2 i (mps_ach_at p2 i)) = _))).
    rewrite (proj2 (GZ (set_cyc_mps ar' i (mps_ach_at ar' i)) (eq_trans KC (v_cache _ L)))). rewrite EV.
    set (w := mps_ach_at p2 i).
    eexists. split; [reflexivity|]. split.
    + assert (BB : behind_leader (set_cyc_grade (set_cyc_mps (with_i p2 (S i)) i w) i 0)).
      { destruct B2 as [l1 l2 l3 l4 l5 l6 l7 l8]. constructor; try assumption; [apply live_grade, live_mps, l1|].
        destruct (wf_mps _ i w l3) as (w1 & w2 & w3). unfold wf. cbn in *. rewrite !set_nth_length in *. auto. }
      exact BB.
    + exact (twins_grade _ _ i 0 (twins_mps _ _ i w T2)).
  - destruct (SOLVE dp dr B T eq_refl eq_refl) as (ar' & R1 & B2 & T2). rewrite R1. cbn [bindR]. exists (with_i ar' (S i)). auto.
Qed.
Lemma step_i {F} {N : Num F} (d d' : sdrive F) : sim_drive_step d = Ok d' -> d_i d' = S (d_i d).
Proof. unfold sim_drive_step. intros E. inv_ok E. inv_ok E. inv_ok E. injection E as <-. reflexivity. Qed.
Lemma follow_loop : forall fuel dp dr, behind_leader dp -> twins dp dr ->
  match walk_loop fuel dp with
  | Ok dp' => exists dr', r_full_loop fuel dr = Ok dr' /\ behind_leader dp' /\ twins dp' dr' /\ (length (d_rows dp') <= d_i dp')%nat
  | Err x => r_full_loop fuel dr = Err x
  end.
Proof.
  induction fuel as [|f IH]; intros dp dr B T; cbn [walk_loop r_full_loop]; rewrite (k_i _ _ T), (k_cyc _ _ T);
    (destruct (Nat.ltb_spec (d_i dp) (length (time_s (d_cyc dp)))) as [Q|Q];
     [|exists dr; rewrite (v_len _ (b_live _ B)); exact (conj eq_refl (conj B (conj T Q)))]).
  - reflexivity.
  - rewrite <- (v_len _ (b_live _ B)) in Q. pose proof (follow_step dp dr B T Q) as ST.
    destruct (sim_drive_step dp) as [dp'|x]; cbn [bindR].
    + destruct ST as (dr' & -> & B' & T'). cbn [bindR]. now apply IH.
    + rewrite ST. reflexivity.
Qed.
Lemma follow_walk d s ovr : wf_sd d -> r_grade_all_zero (d_cyc0 d) = true -> missed_trace_correction (d_sp d) = false -> coast_allow (d_sp d) = false ->
  idm_allow (d_sp d) = true -> comparable (d_veh d) -> increasing (time_s (d_cyc0 d)) -> hd 0 (time_s (d_cyc0 d)) = 0 ->
  loads_ok ovr (d_veh d) -> fits ovr d ->
  match sim_drive_walk d s ovr with
  | Ok dp => exists dr, r_full_walk d s ovr = Ok dr /\ twins dp dr /\ live dp
  | Err _ => exists y, r_full_walk d s ovr = Err y
  end.
Proof.
  intros W Z H1 H2 H3 V I HZ A FT. unfold sim_drive_walk, r_full_walk. pose proof (init_twin d s ovr W FT) as IT.
  assert (CC : changes_cycle (d_sp d) = true) by (unfold changes_cycle; rewrite H3, orb_true_r; reflexivity).
  destruct (init_for_step d s ovr) as [d1|x] eqn:E; cbn [bindR].
  - rewrite IT. cbn [bindR]. destruct (start_live d s ovr d1 W (or_intror Z) V ltac:(rewrite CC; exact I) A E) as [L T].
    destruct (init_rows _ _ _ _ E) as (i1 & i2 & i3 & i4 & i5 & i6 & i7 & i8 & i9 & _). rewrite CC in i8.
    assert (B1 : behind_leader d1) by (constructor; rewrite ?i3, ?i4, ?i8; auto; apply W).
    pose proof (follow_loop (length (time_s (d_cyc d1))) d1 d1 B1 T) as LT. destruct (walk_loop _ d1) as [d2|x]; cbn [bindR].
    + destruct LT as (dr & R1 & B2 & T2 & HL). rewrite post_accel_same by (assumption || apply B2). exists dr. split; [exact R1|]. split; [exact T2|apply B2].
    + rewrite LT. now exists x.
  - destruct IT as [y ->]. now exists y.
Qed.
