(** Lemmas on whole runs with eco-coasting in the two implementations. *)
From Verif Require Import Num Numpy ListFacts CycleModel CycleSpec DistProofs VehModel SimModel SimState WalkModel SimSpec WalkSpec CoastSpec
  RustModel RustWalkModel RustPostModel RustCycModel RustModsModel RustSpec RustCycSpec RustModsSpec RustCoastSpec
  FrameProofs WalkProofs StepProofs PlainProofs SimProofs1 SimProofs3 WalkProofs3 RustProofs RustProofs2 RustProofs3 RustCycProofs RustCycProofs2
  RustModsProofs RustModsProofs2 RustCoastProofs RustCoastProofs2.
From Coq Require Import FunctionalExtensionality Lia.
Local Open Scope R_scope.

(** ** States that differ at most by fuel, and from row [n] on not at all *)
Record near (n : nat) (dp dr : sdrive R) : Prop := {
  e_kin : kin dp dr; e_first : row_at dp 0 = row_at dr 0;
  e_above : forall j, (n <= j)%nat -> row_at dp j = row_at dr j;
  e_fc : forall j, fc_kw_out_ach (fc (row_at dp j)) < fc_max_kw (d_veh dp) \/ fc_max_kw (d_veh dp) = 0 -> fc (row_at dp j) = fc (row_at dr j);
  e_lims : forall j, (1 <= j)%nat -> fc (row_at dp (j - 1)) = fc (row_at dr (j - 1)) -> lims (row_at dp j) = lims (row_at dr j) }.
Lemma near_refl n d : near n d d.
Proof. constructor; auto using kin_refl. Qed.
Lemma near_le n m dp dr : (n <= m)%nat -> near n dp dr -> near m dp dr.
Proof. intros H []. constructor; auto. intros j Hj. apply e_above0. lia. Qed.
Lemma near_i n dp dr i : near n dp dr -> near n (with_i dp i) (with_i dr i).
Proof. intros []. constructor; auto using kin_i. Qed.
Lemma near_cyc n dp dr c : near n dp dr -> near n (with_cyc dp c) (with_cyc dr c).
Proof. intros [[]]. constructor; auto. constructor; auto. Qed.
Lemma near_mps n dp dr i v : near n dp dr -> near n (set_cyc_mps dp i v) (set_cyc_mps dr i v).
Proof. intros H. unfold set_cyc_mps. rewrite (n_cyc _ _ (e_kin _ _ _ H)). now apply near_cyc. Qed.
Lemma near_grade n dp dr i v : near n dp dr -> near n (set_cyc_grade dp i v) (set_cyc_grade dr i v).
Proof. intros H. unfold set_cyc_grade. rewrite (n_cyc _ _ (e_kin _ _ _ H)). now apply near_cyc. Qed.
Lemma sbf_ctl a b f : same_but_fuel a b -> same_but_fuel (row_ctl f a) (row_ctl f b).
Proof. intros []. constructor; cbn; try assumption. now rewrite sf_ctl. Qed.
Lemma ctl_rows (d : sdrive R) f j : row_at (upd_ctl_rows d f) j = if Nat.ltb j (length (d_rows d)) then row_ctl (f j) (row_at d j) else row_at d j.
Proof.
  destruct (Nat.ltb_spec j (length (d_rows d))) as [H|H]; [now apply ctl_rows_at|]. rewrite !row_at_out; auto. now rewrite ctl_rows_length.
Qed.
Lemma near_rows n dp dr dp' dr' (g : nat -> row R -> row R) :
  near n dp dr -> (forall j, row_at dp' j = g j (row_at dp j)) -> (forall j, row_at dr' j = g j (row_at dr j)) ->
  (forall j a b, same_but_fuel a b -> same_but_fuel (g j a) (g j b)) -> (forall j a, fc (g j a) = fc a /\ lims (g j a) = lims a) ->
  kin dp' dr' -> d_veh dp' = d_veh dp -> near n dp' dr'.
Proof.
  intros E A B S0 P K V. constructor; auto.
  - rewrite A, B. now rewrite (e_first _ _ _ E).
  - intros j Hj. rewrite A, B. now rewrite (e_above _ _ _ E j Hj).
  - intros j. rewrite A, B, V, !(proj1 (P _ _)). apply (e_fc _ _ _ E).
  - intros j Hj. rewrite !A, !B, !(proj1 (P _ _)), !(proj2 (P _ _)). now apply (e_lims _ _ _ E).
Qed.
Lemma near_ctl n dp dr f : near n dp dr -> near n (upd_ctl_rows dp f) (upd_ctl_rows dr f).
Proof.
  intros E. pose proof (e_kin _ _ _ E) as K.
  set (g := fun j r => if Nat.ltb j (length (d_rows dp)) then row_ctl (f j) r else r).
  assert (A : forall j, row_at (upd_ctl_rows dp f) j = g j (row_at dp j)) by (intros j; apply ctl_rows).
  assert (B : forall j, row_at (upd_ctl_rows dr f) j = g j (row_at dr j)) by (intros j; unfold g; rewrite <- (n_len _ _ K); apply ctl_rows).
  assert (S0 : forall j a b, same_but_fuel a b -> same_but_fuel (g j a) (g j b)) by (intros j a b H; unfold g; destruct (Nat.ltb _ _); [now apply sbf_ctl|exact H]).
  apply (near_rows n dp dr _ _ g); auto.
  - intros j a. unfold g. destruct (Nat.ltb _ _); split; reflexivity.
  - constructor; try (cbn; apply K). + rewrite !ctl_rows_length. apply K. + intros j. rewrite A, B. apply S0, K.
Qed.
Lemma near_row n dp dr k (f : row R -> row R) : (forall a b, same_but_fuel a b -> same_but_fuel (f a) (f b)) -> (forall a, fc (f a) = fc a /\ lims (f a) = lims a) ->
  near n dp dr -> near n (upd_row dp k f) (upd_row dr k f).
Proof.
  intros SF P E. pose proof (e_kin _ _ _ E) as K.
  set (g := fun j r => if (Nat.eqb j k && Nat.ltb k (length (d_rows dp)))%bool then f r else r).
  assert (G : forall d, length (d_rows d) = length (d_rows dp) -> forall j, row_at (upd_row d k f) j = g j (row_at d j)).
  { intros d L j. unfold g. destruct (Nat.ltb_spec k (length (d_rows dp))) as [H|H].
    - rewrite row_upd by lia. rewrite Bool.andb_true_r. destruct (Nat.eqb_spec j k) as [->|]; reflexivity.
    - rewrite Bool.andb_false_r. apply upd_row_out. lia. }
  assert (S0 : forall j a b, same_but_fuel a b -> same_but_fuel (g j a) (g j b)) by (intros j a b H; unfold g; destruct (_ && _)%bool; [now apply SF|exact H]).
  pose proof (G dp eq_refl) as A. pose proof (G dr (n_len _ _ K)) as B.
  apply (near_rows n dp dr _ _ g); auto.
  - intros j a. unfold g. destruct (_ && _)%bool; [apply P|split; reflexivity].
  - constructor; try (cbn; apply K). + rewrite !upd_row_length. apply K. + intros j. rewrite A, B. apply S0, K.
Qed.
Lemma near_upd_ctl n dp dr k f : near n dp dr -> near n (upd_row dp k (row_ctl f)) (upd_row dr k (row_ctl f)).
Proof. apply near_row; [intros a b; apply sbf_ctl|split; reflexivity]. Qed.
Lemma near_spd n dp dr k f : near n dp dr -> near n (upd_row dp k (row_spd f)) (upd_row dr k (row_spd f)).
Proof. apply near_row; [|split; reflexivity]. intros a b []. constructor; cbn; try assumption. now rewrite sf_spd. Qed.
Lemma near_equal n dp dr : near n dp dr -> below_rated dp -> dr = dp.
Proof.
  intros T B. pose proof (e_kin _ _ _ T) as K.
  assert (F : forall j, fc (row_at dp j) = fc (row_at dr j)) by (intros j; apply (e_fc _ _ _ T), B).
  assert (RW : d_rows dr = d_rows dp).
  { apply nth_ext with (d := zero_row) (d' := zero_row); [apply K|]. intros j _. change (row_at dr j = row_at dp j).
    destruct j as [|j]; [symmetry; apply T|]. pose proof (n_rows _ _ K (S j)) as SF. pose proof (e_lims _ _ _ T (S j) ltac:(lia) (F _)) as L.
    pose proof (F (S j)) as FJ. destruct SF. destruct (row_at dp (S j)), (row_at dr (S j)). cbn in *. congruence. }
  destruct K. destruct dp, dr; cbn in *. congruence.
Qed.
Lemma twins_near dp dr : twins dp dr -> near (d_i dp) dp dr.
Proof. intros T. constructor; try apply T. now apply twins_kin. Qed.
Lemma ach_near n dp dr j : near n dp dr -> mps_ach_at dr j = mps_ach_at dp j.
Proof. intros E. unfold mps_ach_at. now rewrite (sf_spd _ _ (n_rows _ _ (e_kin _ _ _ E) j)). Qed.
Lemma coast_near n dp dr j : near n dp dr -> coast_at dr j = coast_at dp j.
Proof. intros E. unfold coast_at. now rewrite (sf_ctl _ _ (n_rows _ _ (e_kin _ _ _ E) j)). Qed.

(** ** A solve *)
Lemma solve_near dp dr : live dp -> let i := d_i dp in near (S i) dp dr -> (i < length (d_rows dp))%nat ->
  exists dr', r_solve_step dr i = Ok dr' /\ near (S i) (solve_step dp i) dr'.
Proof.
  intros L i T HI. pose proof (v_pos _ L) as P1. fold i in P1. pose proof (e_kin _ _ _ T) as K.
  pose proof (live_ready _ L HI) as Y. pose proof (env_kin _ _ _ K Y) as EE. fold i in Y, EE.
  set (e := env_at dp i) in *. set (p := row_at dp (i - 1)). set (cur := row_at dp i).
  set (p' := row_at dr (i - 1)). set (cur' := row_at dr i).
  set (rp := solve_row (d_veh dp) (d_props dp) (d_sp dp) e p cur). set (rr := solve_row (d_veh dp) (d_props dp) (d_sp dp) e p' cur').
  assert (D : 0 < e_dt e) by apply Y.
  destruct (row_cong (d_veh dp) (d_props dp) (d_sp dp) e p p' cur cur' (n_rows _ _ K _) (n_rows _ _ K _)) as (C1 & C2 & C3). fold rp rr in C1, C2, C3.
  pose proof (v_cmp _ L) as V.
  assert (FP : 0 <= fc_kw_out_ach (fc p')) by (unfold p'; rewrite <- (sf_out _ _ (n_rows _ _ K _)); apply (v_fc _ L)).
  assert (AX : no_motor (d_veh dp) -> 0 <= aux_in_kw (misc rp)).
  { intros M. destruct (v_aux _ L M) as [A1 A2]. apply aux_of_solve; [exact A1|]. apply A2. fold i. lia. }
  assert (GE : forall x, Rabs (e_grade_est e - e_grade e x) <= 1/1000000).
  { intros x. cbn. destruct (road_at dp i L) as [-> ->]. rewrite Rminus_diag_eq, Rabs_R0 by reflexivity. lra. }
  assert (AX' : no_motor (d_veh dp) -> 0 <= aux_in_kw (misc rr)) by (rewrite <- (sf_misc _ _ C1); exact AX).
  assert (RD : cur_max_roadway_chg_kw (ctl cur') <= cur_max_ess_chg_kw (lims rr)).
  { unfold cur'. rewrite <- (sf_ctl _ _ (n_rows _ _ K _)), (y_chg _ _ Y). apply chg_of_solve. apply (cp_ess _ V). }
  destruct (row_same (d_veh dp) (d_props dp) (d_sp dp) e p' cur' V D FP GE AX' RD) as (x & RS & X1 & _). fold rr in RS, X1.
  set (rw := with_fuel rr x (e_dt e)) in *.
  exists (with_rows dr (set_nth (d_rows dr) i rw)). split.
  { unfold r_solve_step. rewrite EE, (n_veh _ _ K), (n_props _ _ K), (n_sp _ _ K). fold p' cur'. rewrite RS. reflexivity. }
  assert (RA : forall j, row_at (solve_step dp i) j = if Nat.eqb j i then rp else row_at dp j).
  { intros j. unfold row_at at 1. cbn [d_rows solve_step upd_row with_rows]. now apply row_at_set. }
  assert (RB : forall j, row_at (with_rows dr (set_nth (d_rows dr) i rw)) j = if Nat.eqb j i then rw else row_at dr j).
  { intros j. unfold row_at at 1. cbn [d_rows with_rows]. apply row_at_set. rewrite (n_len _ _ K). exact HI. }
  constructor.
  - constructor; try (cbn; apply K).
    + cbn. rewrite !set_nth_length. apply K.
    + intros j. rewrite RA, RB. destruct (Nat.eqb_spec j i); [|apply K]. eapply sbf_trans; [exact C1|apply sbf_fuel].
  - rewrite RA, RB. destruct (Nat.eqb_spec 0 i); [lia|apply T].
  - intros j Hj. rewrite RA, RB. destruct (Nat.eqb_spec j i); [lia|]. now apply T.
  - intros j. rewrite RA, RB. change (d_veh (solve_step dp i)) with (d_veh dp). destruct (Nat.eqb_spec j i); [|apply T]. rewrite C2. intros O. rewrite (X1 O). reflexivity.
  - intros j Hj. rewrite !RA, !RB. destruct (Nat.eqb_spec j i) as [->|Q].
    + destruct (Nat.eqb_spec (i - 1) i); [lia|]. intros O. exact (C3 O).
    + destruct (Nat.eqb_spec (j - 1) i) as [Q2|Q2]; [|apply (e_lims _ _ _ T); exact Hj].
      intros _. rewrite (e_above _ _ _ T j); [reflexivity|]. lia.
Qed.
Definition reset (s : spd_row R) : spd_row R := mkspd 0 (mps_ach s) (mph_ach s) (dist_m_ach s) (dist_mi_ach s).
Lemma adopt_near dp dr : live dp -> let i := d_i dp in near (S i) dp dr -> (i < length (d_rows dp))%nat ->
  exists dr', r_solve_and_adopt dr i = Ok dr' /\ near (S i) (solve_and_adopt dp i) dr'.
Proof.
  intros L i T HI. destruct (solve_near dp dr L T HI) as (d0 & E & T0). fold i in E, T0. unfold r_solve_and_adopt. rewrite E. cbn [bindR].
  eexists. split; [reflexivity|]. unfold solve_and_adopt, reset_newton. pose proof (near_spd _ _ _ i reset T0) as T1. unfold reset in T1.
  rewrite (ach_near _ _ _ i T1). now apply near_mps.
Qed.

(** ** Python: what stays known *)
Record plans (d d' : sdrive R) : Prop := {
  pl_fixed : same_fixed d d'; pl_len : length (d_rows d') = length (d_rows d); pl_time : time_s (d_cyc d') = time_s (d_cyc d);
  pl_core : forall j, core (row_at d' j) = core (row_at d j); pl_road : forall j, road (row_at d' j) = road (row_at d j) }.
Lemma plans_refl d : plans d d.
Proof. constructor; auto using same_fixed_refl. Qed.
Lemma plans_trans a b c : plans a b -> plans b c -> plans a c.
Proof. intros [] []. constructor; try congruence. eapply same_fixed_trans; eassumption. Qed.
Lemma plans_cyc d c : time_s c = time_s (d_cyc d) -> plans d (with_cyc d c).
Proof. intros H. constructor; auto. repeat split. Qed.
Lemma plans_mps d i v : plans d (set_cyc_mps d i v).
Proof. now apply plans_cyc. Qed.
Lemma plans_ctl d f : (forall j c, cur_max_roadway_chg_kw (f j c) = cur_max_roadway_chg_kw c) -> plans d (upd_ctl_rows d f).
Proof.
  intros H. constructor; auto.
  - repeat split. - apply ctl_rows_length.
  - intros j. rewrite ctl_rows. now destruct (Nat.ltb _ _).
  - intros j. unfold road. rewrite ctl_rows. destruct (Nat.ltb _ _); [cbn; apply H|reflexivity].
Qed.
Lemma plans_upd d k f : (forall c, cur_max_roadway_chg_kw (f c) = cur_max_roadway_chg_kw c) -> plans d (upd_row d k (row_ctl f)).
Proof.
  intros H. destruct (Nat.lt_ge_cases k (length (d_rows d))) as [Q|Q].
  - constructor; auto using upd_row_length; [repeat split| |]; intros j; unfold road; rewrite row_upd by exact Q; destruct (Nat.eqb_spec j k) as [->|]; try reflexivity. cbn. apply H.
  - constructor; auto using upd_row_length; [repeat split| |]; intros j; now rewrite (upd_row_out d k _ Q).
Qed.
Lemma plans_range d i a b : plans d (set_coast_range d i a b).
Proof. apply plans_ctl. intros j c. now destruct (Nat.ltb j i). Qed.
Lemma plans_add d a b : plans d (add_coast_range d a b).
Proof. apply plans_ctl. intros j c. now destruct (_ && _)%bool. Qed.
Lemma plans_brake d b i o c v n : modify_with_braking_trajectory (d_cyc d) b i o = Ok (c, v, n) -> plans d (with_cyc d c).
Proof. intros H. apply plans_cyc. apply (brake_frame _ _ _ _ _ _ _ H). Qed.
Lemma plans_write : forall vs k d, plans d (write_speeds d k vs).
Proof. induction vs as [|v vs IH]; intros k d; cbn; [apply plans_refl|]. eapply plans_trans; [apply plans_mps|apply IH]. Qed.
Lemma plans_generate d i m d' x : generate_coast_trajectory d i m = Ok (d', x) -> plans d d'.
Proof.
  unfold generate_coast_trajectory. intros H. inv_ok H. inv_ok H.
  if_in H. { injection H as <- <-. apply plans_refl. }
  if_in H.
  - inv_ok H. injection H as <- _. destruct m; [|injection E1 as <-; apply plans_refl].
    inv_ok E1. injection E1 as <-. destruct x3 as [[c v] n].
    eapply plans_trans; [eapply plans_brake; eauto | apply plans_range].
  - if_in H; [discriminate|]. inv_ok H. inv_ok H.
    destruct x3; [injection H as <- <-; apply plans_refl|].
    if_in H; [|injection H as <- <-; apply plans_refl].
    inv_ok H. injection H as <- _. destruct m; [|injection E3 as <-; apply plans_refl].
    inv_ok E3. injection E3 as <-. destruct x5 as [[c w] n].
    eapply plans_trans; [apply plans_write|].
    eapply plans_trans; [eapply plans_brake; eauto | apply plans_range].
Qed.
Lemma plans_delay d i d' : set_coast_delay d i = Ok d' -> plans d d'.
Proof. unfold set_coast_delay. intros H. inv_ok H. injection H as <-. apply plans_ctl. intros j c. now destruct (Nat.ltb j i). Qed.
Lemma plans_full idx : forall ks d, plans d (full_brake d idx ks).
Proof.
  induction ks as [|k ks IH]; intros d; cbn [full_brake]; [apply plans_refl|].
  eapply plans_trans; [|apply IH]. eapply plans_trans; [apply plans_mps|]. now apply plans_upd.
Qed.
Lemma plans_apply d q d' : apply_collision d q = Ok d' -> plans d d'.
Proof.
  unfold apply_collision. intros H. inv_ok H. injection H as <-. destruct x as [c v].
  eapply plans_trans; [apply plans_full|]. eapply plans_trans; [apply plans_cyc, (jerk_frame _ _ _ _ _ _ _ E)|].
  apply plans_ctl. intros j k. now destruct (Nat.ltb _ _).
Qed.
Lemma plans_prevent i : forall fuel d tol d' b, prevent_collisions_f fuel d i tol = Ok (d', b) -> plans d d'.
Proof.
  induction fuel as [|f IH]; intros d tol d' b H; cbn [prevent_collisions_f] in H; [discriminate|].
  inv_ok H. if_in H; [injection H as <- <-; apply plans_refl|].
  inv_ok H. inv_ok H. destruct x1 as [q|].
  - inv_ok H. injection H as <- <-. eapply plans_apply; eassumption.
  - if_in H; [injection H as <- <-; apply plans_refl|]. eauto.
Qed.
Lemma plans_start d i d' : start_coast d i = Ok d' -> plans d d'.
Proof.
  unfold start_coast. intros H. if_in H; [|injection H as <-; apply plans_refl].
  inv_ok H. destruct x; [|injection H as <-; apply plans_refl].
  inv_ok H. destruct x as [d1 v]. apply plans_generate in E0.
  assert (Q : plans d (if nltb (snd (d1, v)) n0 then clear_coast (fst (d1, v)) i else fst (d1, v))).
  { cbn [fst snd]. destruct (nltb v n0); auto. eapply plans_trans; [eauto|apply plans_range]. }
  destruct (coast_allow_passing _).
  - injection H as <-. exact Q.
  - inv_ok H. injection H as <-. destruct x as [d2 b]. eapply plans_trans; [exact Q|]. eapply plans_prevent; eauto.
Qed.
Lemma plans_adjust d i a d' b : adjust_coast d i a = Ok (d', b) -> plans d d'.
Proof.
  unfold adjust_coast. intros H. if_in H.
  - inv_ok H. injection H as <- <-. destruct x as [[c v] n].
    eapply plans_trans; [eapply plans_brake; eauto | apply plans_range].
  - inv_ok H. destruct x as [q|]; [|injection H as <- <-; apply plans_refl].
    inv_ok H. destruct x as [c v].
    assert (Q : plans d (set_coast_range (with_cyc d c) i i (i + rv_n q))).
    { eapply plans_trans; [apply plans_cyc, (jerk_frame _ _ _ _ _ _ _ E0) | apply plans_range]. }
    if_in H.
    + inv_ok H. injection H as <- <-. destruct x as [[c2 w] n].
      eapply plans_trans; [exact Q|]. eapply plans_trans; [eapply plans_brake; eauto | apply plans_add].
    + injection H as <- <-. exact Q.
Qed.
Lemma core_parts (a b : row R) : core a = core b -> misc a = misc b /\ spd a = spd b /\ fc a = fc b /\ pwr a = pwr b.
Proof. unfold core. intros H. injection H as ? ? ? ? ? ? ? ?. auto. Qed.
Lemma live_plans d d' : plans d d' -> live d -> live d'.
Proof.
  intros P L. destruct (pl_fixed _ _ P) as (a & b & c & e & f & g & h).
  assert (R0 : forall j, cur_max_roadway_chg_kw (ctl (row_at d' j)) = cur_max_roadway_chg_kw (ctl (row_at d j))) by (intros j; apply (pl_road _ _ P)).
  assert (CC : forall j, misc (row_at d' j) = misc (row_at d j) /\ spd (row_at d' j) = spd (row_at d j) /\ fc (row_at d' j) = fc (row_at d j) /\ pwr (row_at d' j) = pwr (row_at d j))
    by (intros j; apply core_parts, P).
  constructor; rewrite ?a, ?b, ?c, ?e, ?f, ?g, ?(pl_len _ _ P), ?(pl_time _ _ P); try apply L.
  - intros i Hi. unfold cdt, ctime. rewrite (pl_time _ _ P). now apply (v_dt _ L).
  - intros M. split; [apply (v_aux _ L M)|]. intros j Hj. destruct (CC j) as (-> & _). now apply (v_aux _ L M).
  - intros j Hj. destruct (CC j) as (_ & -> & _). rewrite R0. now apply (v_new _ L).
  - intros j. destruct (CC j) as (_ & _ & -> & _). apply L.
  - intros j Hj. unfold mps_ach_at, cdt, ctime. rewrite (pl_time _ _ P). destruct (CC j) as (_ & -> & _ & ->). destruct (CC (j - 1)%nat) as (_ & -> & _). now apply (v_acc _ L).
Qed.
Lemma live_adopt d : live d -> (d_i d < length (d_rows d))%nat -> live (solve_and_adopt d (d_i d)).
Proof.
  intros L HI. set (i := d_i d) in *. unfold solve_and_adopt. cbv zeta. set (e := reset_newton (solve_step d i) i).
  apply (live_plans e); [apply plans_mps|]. pose proof (v_pos _ L) as P1. fold i in P1.
  set (rp := solve_row (d_veh d) (d_props d) (d_sp d) (env_at d i) (row_at d (i - 1)) (row_at d i)).
  assert (RA : forall j, row_at e j = if Nat.eqb j i then row_spd reset rp else row_at d j).
  { intros j. unfold e, reset_newton. rewrite row_upd by (cbn; rewrite set_nth_length; exact HI). unfold solve_step. rewrite !row_upd by exact HI. rewrite Nat.eqb_refl. now destruct (Nat.eqb_spec j i). }
  assert (D : 0 < e_dt (env_at d i)). { cbn. apply (v_dt _ L). rewrite <- (v_len _ L). fold i. lia. }
  constructor; try (cbn; apply L).
  - cbn. rewrite !set_nth_length. apply L.
  - intros M. split; [apply (v_aux _ L M)|]. intros j Hj. rewrite RA. destruct (Nat.eqb_spec j i); [|now apply (v_aux _ L M)]. cbn [row_spd misc].
    destruct (v_aux _ L M) as [A1 A2]. apply aux_of_solve; [exact A1|]. apply A2. fold i. lia.
  - intros j Hj. rewrite RA. destruct (Nat.eqb_spec j i) as [->|]; [|now apply (v_new _ L)]. cbn [row_spd spd ctl reset newton_iters]. split; [reflexivity|].
    unfold rp. rewrite ctl_of_solve. apply (v_new _ L). fold i. lia.
  - intros j. rewrite RA. destruct (Nat.eqb_spec j i); [|apply L]. cbn [row_spd fc]. apply fc_of_solve; [apply L|exact D|apply L].
  - change (d_i e) with i. intros j Hj. unfold mps_ach_at. rewrite !RA. destruct (Nat.eqb_spec j i); [lia|]. destruct (Nat.eqb_spec (j - 1) i); [lia|]. now apply (v_acc _ L).
Qed.
Lemma live_solved d : live d -> let i := d_i d in (i < length (d_rows d))%nat -> live (with_i (solve_step d i) (S i)).
Proof.
  intros L i HI. pose proof (v_pos _ L) as P1. fold i in P1.
  set (rp := solve_row (d_veh d) (d_props d) (d_sp d) (env_at d i) (row_at d (i - 1)) (row_at d i)). set (e := with_i (solve_step d i) (S i)).
  assert (RA : forall j, row_at e j = if Nat.eqb j i then rp else row_at d j).
  { intros j. unfold row_at at 1. cbn [d_rows e with_i solve_step upd_row with_rows]. now apply row_at_set. }
  assert (D : 0 < e_dt (env_at d i)). { cbn. apply (v_dt _ L). rewrite <- (v_len _ L). fold i. lia. }
  constructor; try (cbn; apply L).
  - cbn. lia.
  - cbn. rewrite set_nth_length. apply L.
  - intros M. split; [apply (v_aux _ L M)|]. change (d_i e) with (S i). intros j Hj. rewrite RA. destruct (Nat.eqb_spec j i); [lia|]. apply (v_aux _ L M). fold i. lia.
  - change (d_i e) with (S i). intros j Hj. rewrite RA. destruct (Nat.eqb_spec j i); [lia|]. apply (v_new _ L). fold i. lia.
  - intros j. rewrite RA. destruct (Nat.eqb_spec j i); [|apply L]. apply fc_of_solve; [apply L|exact D|apply L].
  - change (d_i e) with (S i). intros j Hj. unfold mps_ach_at. rewrite !RA. change (d_veh e) with (d_veh d). change (d_cyc e) with (d_cyc d).
    destruct (Nat.eqb_spec (j - 1) i); [lia|]. destruct (Nat.eqb_spec j i) as [->|Q].
    + exact (solve_row_accel_is (d_veh d) (d_props d) (d_sp d) (env_at d i) (row_at d (i - 1)) (row_at d i) (proj1 (v_new _ L i (Nat.le_refl _)))).
    + apply (v_acc _ L). fold i. lia.
Qed.
