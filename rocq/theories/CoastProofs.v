(** Proofs for C82-C86: gaps, eco-cruise, the law of coasting, stopping distances, the decision to coast. *)
From Coq Require Import Lia.
From Verif Require Import Num Numpy ListFacts CycleModel CycleSpec ConcatProofs RateProofs DistProofs JerkProofs CycleProofs2 VehModel SimModel
  SimState WalkModel FrameProofs WalkProofs StepProofs SimSpec SimProofs1 WalkSpec CoastSpec.
Local Open Scope R_scope.

(** ** Gap *)
Lemma gap_length (d : sdrive R) : wf_sd d -> (0 < clen (d_cyc d))%nat ->
  length (gap_to_lead_vehicle_m d) = clen (d_cyc d).
Proof.
  intros (W & W0 & L) P. unfold clen in *. unfold gap_to_lead_vehicle_m.
  destruct (idm_allow (d_sp d)); rewrite ?map_length, zipw_length, !cum_dist_length; try lia;
    try apply W; try apply W0; intros Q; rewrite Q in *; cbn in *; lia.
Qed.
Lemma gap_nth (d : sdrive R) k : wf_sd d -> (k < clen (d_cyc d))%nat ->
  nth k (gap_to_lead_vehicle_m d) 0 =
  gap_at (d_cyc d) (d_cyc0 d) k + (if idm_allow (d_sp d) then idm_minimum_gap_m (d_sp d) else 0).
Proof.
  intros WS P. pose proof (gap_length d WS ltac:(lia)) as GL. destruct WS as (W & W0 & L). unfold clen in *.
  assert (Z : nth k (zipw Rminus (cumsum (trapz_step_distances (d_cyc0 d))) (cumsum (trapz_step_distances (d_cyc d)))) 0
              = gap_at (d_cyc d) (d_cyc0 d) k).
  { rewrite (zipw_nth _ _ _ k 0 0); [|rewrite cum_dist_length..]; try lia; try apply W; try apply W0;
      try (intros Q; rewrite Q in *; cbn in *; lia).
    rewrite !cum_dist_nth by (try apply W; try apply W0; lia). reflexivity. }
  unfold gap_to_lead_vehicle_m in *. destruct (idm_allow (d_sp d)); unR.
  - rewrite (nth_indep _ 0 ((fun x => x + idm_minimum_gap_m (d_sp d)) 0)) by (rewrite GL; lia).
    rewrite (map_nth (fun x => x + idm_minimum_gap_m (d_sp d))). now rewrite Z.
  - rewrite Z. lra.
Qed.

(** ** Eco-cruise *)
Lemma cruise_params {F} {N : Num F} (s : simparams F) v t : only_cruise_differs s (sp_idm s v t) /\
  idm_allow (sp_idm s v t) = true /\ idm_v_desired_m_per_s (sp_idm s v t) = v /\ idm_v_desired_by_distance (sp_idm s v t) = t.
Proof. repeat split. Qed.
Lemma dist_m_trip (c : cyc R) : length (mps c) = length (time_s c) -> hd 0 (time_s c) = 0 ->
  Rsum (dist_m c) = trip_length c.
Proof.
  intros L H. unfold trip_length. fold (Rsum (map (fun j => nth (S j) (mps c) 0 * (nth (S j) (time_s c) 0 - nth j (time_s c) 0))
    (seq 0 (length (time_s c) - 1)))).
  assert (LD : length (dist_m c) = length (time_s c)) by (unfold dist_m; rewrite zipw_length, dt_s_length; lia).
  assert (G : forall n, (n <= length (time_s c) - 1)%nat -> (0 < length (time_s c))%nat -> Rsum (firstn (S n) (dist_m c)) =
     Rsum (map (fun j => nth (S j) (mps c) 0 * (nth (S j) (time_s c) 0 - nth j (time_s c) 0)) (seq 0 n))).
  { induction n as [|n IH]; intros Hn P; rewrite Rsum_firstn_S by lia.
    - unfold dist_m at 2. rewrite (zipw_nth _ _ _ 0 0 0) by (rewrite ?dt_s_length; lia). rewrite dt_s_nth by lia. unR.
      destruct (time_s c); cbn in H |- *; [lra|]. rewrite H. lra.
    - rewrite IH by lia. rewrite seq_S, map_app, Rsum_app. f_equal.
      unfold dist_m. rewrite (zipw_nth _ _ _ (S n) 0 0) by (rewrite ?dt_s_length; lia). rewrite dt_s_nth by lia. unR.
      unfold Rsum; cbn [map fold_right Nat.add]. lra. }
  destruct (length (time_s c)) as [|n] eqn:E.
  - destruct (dist_m c); [|cbn in LD; lia]. reflexivity.
  - rewrite <- (firstn_all (dist_m c)), LD. rewrite (G n) by lia. now replace (S n - 1)%nat with n by lia.
Qed.

Lemma cruise_mean (d d' : sdrive R) extend blend min : let c := d_cyc0 d in
  length (mps c) = length (time_s c) -> hd 0 (time_s c) = 0 -> 0 <= extend ->
  activate_eco_cruise d false extend blend min = Ok d' ->
  only_cruise_differs (d_sp d) (d_sp d') /\ idm_allow (d_sp d') = true /\
  idm_v_desired_by_distance (d_sp d') = idm_v_desired_by_distance (d_sp d) /\
  idm_v_desired_m_per_s (d_sp d') = (if Rlt_dec 0 (trip_time c) then trip_length c / trip_time c else 0).
Proof.
  intros c L H0 HE H. unfold activate_eco_cruise in H. fold c in H. cbn [bindR] in H.
  set (tl := last (time_s c) n0) in H.
  assert (TL : tl = trip_time c) by (unfold trip_time; rewrite H0; unfold tl; unR; lra).
  set (v := if (Nat.ltb 0 (clen c) && _)%bool then _ else _ : R) in H.
  assert (V : v = if Rlt_dec 0 (trip_time c) then trip_length c / trip_time c else 0).
  { unfold v. rewrite TL. unR. destruct (Rlt_dec 0 (trip_time c)) as [P|P].
    - rewrite (proj2 (Rltb_true 0 (trip_time c)) P).
      assert (Q : (0 < clen c)%nat). { unfold clen. destruct (time_s c) eqn:E; [|cbn; lia]. unfold trip_time in P. rewrite E in P. cbn in P. lra. }
      apply Nat.ltb_lt in Q. rewrite Q. cbn [andb]. rewrite <- (dist_m_trip c L H0). f_equal. apply nsum_Rsum.
    - rewrite (proj2 (Rltb_false 0 (trip_time c))) by lra. now rewrite Bool.andb_false_r. }
  rewrite <- V. unR. destruct (Rltb_spec extend 0) as [X|_]; [lra|].
  assert (D : d_sp d' = sp_idm (d_sp d) v (idm_v_desired_by_distance (d_sp d))).
  { destruct (Rltb_spec 0 extend); [apply bind_ok in H as (rr & _ & H)|]; injection H as <-; reflexivity. }
  rewrite D. destruct (cruise_params (d_sp d) v (idm_v_desired_by_distance (d_sp d))) as (A1 & A2 & A3 & A4).
  split; [exact A1|]. split; [exact A2|]. split; [exact A4|exact A3].
Qed.
Lemma cruise_trip (d d' : sdrive R) extend blend min :
  activate_eco_cruise d true extend blend min = Ok d' ->
  0 <= extend /\ 0 <= blend <= 1 /\ 0 <= min /\
  only_cruise_differs (d_sp d) (d_sp d') /\ idm_allow (d_sp d') = true /\
  idm_v_desired_m_per_s (d_sp d') = idm_v_desired_m_per_s (d_sp d) /\
  idm_v_desired_by_distance (d_sp d') = Some (create_dist_and_target_speeds_by_microtrip (d_cyc0 d) blend min).
Proof.
  intros H. unfold activate_eco_cruise in H. unR.
  destruct (Rltb_spec 1 blend) as [X|X]; [discriminate|]. cbn [orb] in H.
  destruct (Rltb_spec blend 0) as [X2|X2]; [discriminate|]. destruct (Rltb_spec min 0) as [X3|X3]; [discriminate|].
  cbn [bindR] in H. destruct (Rltb_spec extend 0) as [X4|X4]; [discriminate|].
  set (t := create_dist_and_target_speeds_by_microtrip _ _ _) in *.
  assert (D : d_sp d' = sp_idm (d_sp d) (idm_v_desired_m_per_s (d_sp d)) (Some t)).
  { destruct (Rltb_spec 0 extend); [apply bind_ok in H as (rr & _ & H)|]; injection H as <-; reflexivity. }
  rewrite D. destruct (cruise_params (d_sp d) (idm_v_desired_m_per_s (d_sp d)) (Some t)) as (A1 & A2 & A3 & A4).
  repeat (split; [lra||assumption|]). assumption.
Qed.
Lemma cruise_extends (d d' : sdrive R) m extend blend min : activate_eco_cruise d m extend blend min = Ok d' ->
  (extend = 0 /\ d_cyc d' = d_cyc d /\ d_cyc0 d' = d_cyc0 d) \/
  (0 < extend /\ exists r, extend_cycle (mkCycle (d_cyc0 d) "") 0 extend = Ok r /\ d_cyc d' = cdata r /\ d_cyc0 d' = cdata r).
Proof.
  intros H. unfold activate_eco_cruise in H. apply bind_ok in H as (s & _ & H). unR.
  destruct (Rltb_spec extend 0) as [X|X]; [discriminate|]. destruct (Rltb_spec 0 extend) as [Y|Y].
  - right. split; [exact Y|]. apply bind_ok in H as (r & E & H). exists r. split; [exact E|].
    injection H as <-. split; reflexivity.
  - left. injection H as <-. split; [lra|]. split; reflexivity.
Qed.
Lemma cruise_keeps (d d' : sdrive R) m extend blend min : activate_eco_cruise d m extend blend min = Ok d' ->
  d_veh d' = d_veh d /\ d_props d' = d_props d /\ d_rows d' = d_rows d /\ d_i d' = d_i d /\
  d_hev_sim_count d' = d_hev_sim_count d.
Proof.
  intros H. unfold activate_eco_cruise in H. apply bind_ok in H as (s & _ & H). unR.
  destruct (Rltb_spec extend 0) as [X|X]; [discriminate|].
  destruct (Rltb_spec 0 extend) as [Y|Y]; [apply bind_ok in H as (rr & _ & H)|];
    injection H as <-; repeat split.
Qed.
Lemma cruise_rejects (d : sdrive R) m extend blend min :
  (m = true /\ (blend < 0 \/ 1 < blend \/ min < 0)) \/ extend < 0 ->
  activate_eco_cruise d m extend blend min = Err TypeError.
Proof.
  intros H. unfold activate_eco_cruise. unR. destruct m.
  - destruct (Rltb_spec 1 blend) as [X|X]; [reflexivity|]. cbn [orb].
    destruct (Rltb_spec blend 0) as [X2|X2]; [reflexivity|]. destruct (Rltb_spec min 0) as [X3|X3]; [reflexivity|].
    cbn [bindR]. destruct (Rltb_spec extend 0) as [X4|X4]; [reflexivity|]. destruct H as [(_ & [H|[H|H]])|H]; lra.
  - cbn [bindR]. destruct (Rltb_spec extend 0) as [X4|X4]; [reflexivity|]. destruct H as [(H & _)|H]; [discriminate|lra].
Qed.

(** ** The law of coasting *)
Lemma dvdd_force (d : sdrive R) v g : 0 < v -> veh_kg (d_veh d) <> 0 ->
  veh_kg (d_veh d) * (v * calc_dvdd d v g) = - road_force (d_veh d) (d_props d) g v.
Proof.
  intros P M. unfold calc_dvdd, road_force. unR. destruct (Rleb_spec v 0); [lra|].
  assert (S : (if Reqb g 0 then 0 else sin (atan g)) = sin (atan g)).
  { destruct (Reqb_spec g 0) as [->|_]; [|reflexivity]. now rewrite atan_0, sin_0. }
  assert (C : (if Reqb g 0 then 1 else cos (atan g)) = cos (atan g)).
  { destruct (Reqb_spec g 0) as [->|_]; [|reflexivity]. now rewrite atan_0, cos_0. }
  rewrite S, C, lit_R. field. lra.
Qed.
Lemma dvdd_still (d : sdrive R) v g : v <= 0 -> calc_dvdd d v g = 0.
Proof. intros H. unfold calc_dvdd. unR. destruct (Rleb_spec v 0); [reflexivity|lra]. Qed.
Lemma coast_next_rule (v k dt : R) : k * dt <> 2 -> let w := coast_next v k dt in w - v = k * ((v + w) / 2 * dt).
Proof. intros H w. unfold w, coast_next. rewrite lit_R. unR. field. lra. Qed.

(** ** Distances of motions *)
Lemma const_on (f : R -> R) T : 0 <= T -> (forall t, 0 <= t <= T -> derivable_pt_lim f t 0) -> f T = f 0.
Proof.
  intros [P|E] H; [|now rewrite E].
  destruct (MVT_cor2 f (fun _ => 0) 0 T P H) as (c & E & _). lra.
Qed.
Lemma square_lim (f : R -> R) t l : derivable_pt_lim f t l -> derivable_pt_lim (fun x => f x * f x) t (2 * f t * l).
Proof.
  intros H. pose proof (derivable_pt_lim_mult f f t l l H H) as Q. unfold mult_fct in Q.
  replace (2 * f t * l) with (l * f t + f t * l) by lra. exact Q.
Qed.
Lemma brake_motion T pos vel a : a <> 0 -> 0 <= T -> motion T pos vel (braking a) ->
  pos T - pos 0 = (vel 0 * vel 0 - vel T * vel T) / (2 * - a).
Proof.
  intros A HT M.
  pose proof (const_on (fun t => pos t + (- / (2 * a)) * (vel t * vel t)) T HT) as Q. cbv beta in Q.
  assert (E : pos T + (- / (2 * a)) * (vel T * vel T) = pos 0 + (- / (2 * a)) * (vel 0 * vel 0)).
  { apply Q. intros t Ht. destruct (M t Ht) as [Mp Mv].
    replace 0 with (vel t + (- / (2 * a)) * (2 * vel t * braking a (vel t))) by (unfold braking; field; exact A).
    apply (derivable_pt_lim_plus pos (fun t => (- / (2 * a)) * (vel t * vel t)) t); [exact Mp|].
    apply (derivable_pt_lim_scal (fun t => vel t * vel t)). apply square_lim. exact Mv. }
  apply (Rmult_eq_reg_l (2 * a)); [|lra].
  assert (E2 : 2 * a * (pos T - pos 0) = vel T * vel T - vel 0 * vel 0).
  { replace (pos T - pos 0) with (/ (2 * a) * (vel T * vel T) - / (2 * a) * (vel 0 * vel 0)) by lra. field. exact A. }
  rewrite E2. field. exact A.
Qed.
Lemma roll_motion T pos vel c1 c2 : c2 <> 0 -> 0 <= T -> motion T pos vel (fun u => - (c1 + c2 * u ^ 2)) ->
  (forall t, 0 <= t <= T -> 0 < c1 + c2 * (vel t * vel t)) ->
  pos T - pos 0 = 1 / (2 * c2) * (ln (c1 + c2 * (vel 0 * vel 0)) - ln (c1 + c2 * (vel T * vel T))).
Proof.
  intros A HT M P.
  assert (E : pos T + (1 / (2 * c2)) * ln (c1 + c2 * (vel T * vel T)) = pos 0 + (1 / (2 * c2)) * ln (c1 + c2 * (vel 0 * vel 0))).
  { apply (const_on (fun t => pos t + (1 / (2 * c2)) * ln (c1 + c2 * (vel t * vel t))) T HT).
    intros t Ht. destruct (M t Ht) as [Mp Mv]. specialize (P t Ht).
    set (D := c1 + c2 * (vel t * vel t)) in *.
    assert (DV : derivable_pt_lim (fun t => c1 + c2 * (vel t * vel t)) t (c2 * (2 * vel t * - D))).
    { replace (c2 * (2 * vel t * - D)) with (0 + c2 * (2 * vel t * - D)) by lra.
      apply (derivable_pt_lim_plus (fun _ => c1) (fun t => c2 * (vel t * vel t)) t).
      - apply derivable_pt_lim_const.
      - apply (derivable_pt_lim_scal (fun t => vel t * vel t)). replace (- D) with (- (c1 + c2 * vel t ^ 2)) by (unfold D; lra).
        apply square_lim. exact Mv. }
    replace 0 with (vel t + 1 / (2 * c2) * (/ D * (c2 * (2 * vel t * - D)))) by (field; lra).
    apply (derivable_pt_lim_plus pos (fun t => 1 / (2 * c2) * ln (c1 + c2 * (vel t * vel t))) t); [exact Mp|].
    apply (derivable_pt_lim_scal (fun t => ln (c1 + c2 * (vel t * vel t)))).
    apply (derivable_pt_lim_comp (fun t => c1 + c2 * (vel t * vel t)) ln t); [exact DV|].
    apply derivable_pt_lim_ln. exact P. }
  lra.
Qed.
Lemma roll_flat T pos vel c1 : 0 < c1 -> 0 <= T -> motion T pos vel (fun u => - (c1 + 0 * u ^ 2)) ->
  pos T - pos 0 = 1 / (2 * c1) * (vel 0 * vel 0 - vel T * vel T).
Proof.
  intros A HT M. rewrite (brake_motion T pos vel (- c1)); [field; lra|lra|exact HT|].
  intros t Ht. destruct (M t Ht) as [M1 M2]. split; [exact M1|]. unfold braking.
  replace (- c1) with (- (c1 + 0 * vel t ^ 2)) by lra. exact M2.
Qed.

(** ** The road ahead *)
Lemma mask_list_in {A} (l : list A) z : forall m x, In x (mask_list m l) <->
  exists j, (j < length m)%nat /\ (j < length l)%nat /\ nth j m false = true /\ nth j l z = x.
Proof.
  induction l as [|a l IH]; intros [|b m] x; cbn [mask_list length].
  - split; [intros []|]. intros (j & H & _). lia.
  - split; [intros []|]. intros (j & _ & H & _). lia.
  - split; [intros []|]. intros (j & H & _). lia.
  - assert (Q : (exists j, (j < S (length m))%nat /\ (j < S (length l))%nat /\ nth j (b :: m) false = true /\ nth j (a :: l) z = x) <->
                (b = true /\ a = x) \/ In x (mask_list m l)).
    { rewrite IH. split.
      - intros ([|j] & H1 & H2 & H3 & H4); cbn in H3, H4; [now left|]. right. exists j. repeat split; auto; lia.
      - intros [[-> ->]|(j & H1 & H2 & H3 & H4)]; [exists 0%nat; repeat split; cbn; lia|].
        exists (S j). repeat split; auto; lia. }
    rewrite Q. destruct b; cbn [In]; intuition congruence.
Qed.
Lemma unique_grade_iff (gs : list R) g : unique_grade gs = Some g <-> gs <> [] /\ forall x, In x gs -> x = g.
Proof.
  destruct gs as [|a r]; cbn [unique_grade]; [split; [discriminate|intros [H _]; congruence]|].
  destruct (forallb (fun x => neqb x a) r) eqn:E.
  - rewrite forallb_forall in E. split.
    + intros H. injection H as <-. split; [discriminate|]. intros x [<-|H]; [reflexivity|]. apply Reqb_true. now apply E.
    + intros [_ H]. f_equal. apply H. now left.
  - split; [discriminate|]. intros [_ H]. exfalso. enough (forallb (fun x => neqb x a) r = true) by congruence.
    apply forallb_forall. intros x Hx. apply Reqb_true. rewrite (H x) by now right. symmetry. apply H. now left.
Qed.
Definition ahead_grades (d : sdrive R) (x : R) : list R :=
  mask_list (map (fun y => nleb x y) (cc_distances (d_cache d))) (grade (d_cyc0 d)).
Lemma ahead_grades_in (d : sdrive R) x g : wf (d_cyc0 d) -> time_s (d_cyc0 d) <> [] -> d_cache d = build_cache (d_cyc0 d) ->
  In g (ahead_grades d x) <->
  exists j, (j < length (time_s (d_cyc0 d)))%nat /\ x <= trapezoid (d_cyc0 d) 0 j /\ nth j (grade (d_cyc0 d)) 0 = g.
Proof.
  intros W NE CA. unfold ahead_grades. rewrite CA. cbn [build_cache cc_distances]. rewrite (mask_list_in _ 0).
  set (c := d_cyc0 d) in *. assert (LD := cum_dist_length c (proj1 W) NE). rewrite map_length, LD.
  assert (LG : length (grade c) = length (time_s c)) by apply W.
  assert (B : forall j, (j < length (time_s c))%nat ->
     nth j (map (fun y => Rleb x y) (cumsum (trapz_step_distances c))) false = Rleb x (trapezoid c 0 j)).
  { intros j Hj. rewrite (nth_indep _ false ((fun y => Rleb x y) 0)) by (rewrite map_length; lia).
    rewrite (map_nth (fun y => Rleb x y)). rewrite cum_dist_nth by (try apply W; lia). reflexivity. }
  split.
  - intros (j & H1 & H2 & H3 & H4). exists j. split; [lia|]. split; [|exact H4]. change (nleb x) with (Rleb x) in H3. unR.
    rewrite B in H3 by lia. now apply Rleb_true.
  - intros (j & H1 & H2 & H3). exists j. repeat split; auto; try lia. unR. rewrite B by lia. now apply Rleb_true.
Qed.
Lemma unique_ahead (d : sdrive R) x g : wf (d_cyc0 d) -> time_s (d_cyc0 d) <> [] -> d_cache d = build_cache (d_cyc0 d) ->
  unique_grade (ahead_grades d x) = Some g <-> grade_from (d_cyc0 d) x g.
Proof.
  intros W NE CA. rewrite unique_grade_iff. pose proof (fun g => ahead_grades_in d x g W NE CA) as I. unfold grade_from. split.
  - intros [H1 H2]. split.
    + destruct (ahead_grades d x) as [|a r] eqn:E; [congruence|]. destruct (proj1 (I a) ltac:(now left)) as (j & A & B & _). eauto.
    + intros j Hj Hx. apply H2. apply I. eauto.
  - intros [(j & A & B) H]. split.
    + intros E. assert (In (nth j (grade (d_cyc0 d)) 0) (ahead_grades d x)) as Q by (apply I; eauto). rewrite E in Q. destruct Q.
    + intros y Hy. apply I in Hy as (k & A' & B' & <-). auto.
Qed.

(** ** Distance to stop by coasting *)
Section Estimate.
  Variables (d : sdrive R) (i : nat) (g : R).
  Hypotheses (W : wf_sd d) (CA : d_cache d = build_cache (d_cyc0 d)) (HI : (1 <= i < clen (d_cyc d))%nat).
  Let v0 := nth (i - 1) (mps (d_cyc d)) 0.
  Let vb := coast_brake_start_speed_m_per_s (d_sp d).
  Let ab := coast_brake_accel_m_per_s2 (d_sp d).
  Hypothesis (AB : ab <> 0).
  Let F u := road_force (d_veh d) (d_props d) g u / veh_kg (d_veh d).

  Lemma start_place : trapz_step_start_distance (d_cyc d) i = Ok (place d i).
  Proof. apply start_distance; [apply W|]. unfold clen in HI. lia. Qed.
  Lemma has_samples0 : time_s (d_cyc0 d) <> [].
  Proof. destruct W as (_ & _ & L). unfold clen in *. intros E. rewrite E in L. cbn in L. lia. Qed.

  Lemma brake_only : v0 <= vb -> calc_distance_to_stop_coast_v2 d i = Ok (stopping_distance ab v0).
  Proof.
    intros H. unfold calc_distance_to_stop_coast_v2. rewrite start_place. cbn [bindR]. fold vb ab.
    change (cmps (d_cyc d) (i - 1)) with v0. unR. destruct (Reqb_spec ab 0); [contradiction|].
    destruct (Rleb_spec v0 vb); [|lra]. f_equal. rewrite lit_R. unfold stopping_distance. field. exact AB.
  Qed.
  Definition c1_of := a_grav_mps2 (d_props d) * (sin (atan g) + wheel_rr_coef (d_veh d) * cos (atan g)).
  Definition c2_of := (air_density_kg_per_m3 (d_props d) * (drag_coef (d_veh d) * frontal_area_m2 (d_veh d))) / (2 * veh_kg (d_veh d)).
  Lemma force_per_mass u : veh_kg (d_veh d) <> 0 -> F u = c1_of + c2_of * (u * u).
  Proof. intros M. unfold F, road_force, c1_of, c2_of. field. exact M. Qed.

  Lemma estimate_cases : vb < v0 -> 0 <= vb -> veh_kg (d_veh d) <> 0 -> grade_from (d_cyc0 d) (place d i) g ->
    calc_distance_to_stop_coast_v2 d i =
    if Rlt_dec 0 (F v0) then if Rlt_dec 0 (F vb) then
      Ok ((if Req_EM_T c2_of 0 then 1 / (2 * c1_of) * (v0 * v0 - vb * vb)
           else 1 / (2 * c2_of) * (ln (c1_of + c2_of * (v0 * v0)) - ln (c1_of + c2_of * (vb * vb)))) + stopping_distance ab vb)
    else do r <- generate_coast_trajectory d i false; Ok (snd r)
    else do r <- generate_coast_trajectory d i false; Ok (snd r).
  Proof.
    intros H HB M G. unfold calc_distance_to_stop_coast_v2. rewrite start_place. cbn [bindR]. fold vb ab.
    change (cmps (d_cyc d) (i - 1)) with v0.
    change (mask_list (map (fun x : R => nleb (place d i) x) (cc_distances (d_cache d))) (grade (d_cyc0 d))) with (ahead_grades d (place d i)).
    rewrite (proj2 (unique_ahead d (place d i) g (proj1 (proj2 W)) has_samples0 CA) G).
    unR. fold c1_of c2_of. destruct (Reqb_spec ab 0); [contradiction|]. destruct (Rleb_spec v0 vb); [lra|].
    rewrite (force_per_mass v0 M), (force_per_mass vb M).
    assert (SD : - (1 / 2) * vb * vb / ab = stopping_distance ab vb) by (unfold stopping_distance; field; exact AB).
    change (lit 1 2) with (1 / 2). rewrite SD.
    assert (SQ : vb * vb < v0 * v0) by nra. change (- (1)) with (Ropp 1). set (m1 := Ropp 1). assert (m1 = -1) by (unfold m1; lra).
    destruct (Reqb_spec c2_of 0) as [Z|Z].
    - rewrite Z, !Rmult_0_l, !Rplus_0_r. destruct (Rltb_spec 0 c1_of) as [P|P].
      + destruct (Rlt_dec 0 c1_of); [|lra]. destruct (Req_EM_T 0 0); [|lra].
        set (X := 1 / (2 * c1_of) * (v0 * v0 - vb * vb)).
        assert (0 < X). { unfold X. apply Rmult_lt_0_compat; [|lra]. unfold Rdiv. apply Rmult_lt_0_compat; [lra|]. apply Rinv_0_lt_compat. lra. }
        destruct (Reqb_spec X m1); [lra|reflexivity].
      + destruct (Rlt_dec 0 c1_of); [lra|]. destruct (Reqb_spec m1 m1) as [_|Q]; [|lra]. reflexivity.
    - destruct (Req_EM_T c2_of 0) as [|_]; [contradiction|].
      destruct (Rltb_spec 0 (c1_of + c2_of * (v0 * v0))) as [P|P];
        [|destruct (Rlt_dec 0 (c1_of + c2_of * (v0 * v0))); [lra|]; cbn [andb];
          destruct (Reqb_spec m1 m1) as [_|Q]; [|lra]; reflexivity].
      destruct (Rlt_dec 0 (c1_of + c2_of * (v0 * v0))); [|lra]. cbn [andb].
      destruct (Rltb_spec 0 (c1_of + c2_of * (vb * vb))) as [P2|P2];
        [|destruct (Rlt_dec 0 (c1_of + c2_of * (vb * vb))); [lra|];
          destruct (Reqb_spec m1 m1) as [_|Q]; [|lra]; reflexivity].
      destruct (Rlt_dec 0 (c1_of + c2_of * (vb * vb))); [|lra].
      set (X := 1 / (2 * c2_of) * (ln (c1_of + c2_of * (v0 * v0)) - ln (c1_of + c2_of * (vb * vb)))).
      assert (0 < X).
      { unfold X. destruct (Rtotal_order c2_of 0) as [N|[N|N]]; [|contradiction|].
        - assert (ln (c1_of + c2_of * (v0 * v0)) < ln (c1_of + c2_of * (vb * vb))) by (apply ln_increasing; [lra|nra]).
          assert (1 / (2 * c2_of) < 0). { unfold Rdiv. rewrite Rmult_1_l. apply Rinv_lt_0_compat. lra. } nra.
        - assert (ln (c1_of + c2_of * (vb * vb)) < ln (c1_of + c2_of * (v0 * v0))) by (apply ln_increasing; [lra|nra]).
          assert (0 < 1 / (2 * c2_of)). { unfold Rdiv. rewrite Rmult_1_l. apply Rinv_0_lt_compat. lra. } nra. }
      destruct (Reqb_spec X m1); [lra|reflexivity].
  Qed.
  Lemma estimate_motion T pos vel T' pos' vel' : vb < v0 -> 0 <= vb -> 0 < veh_kg (d_veh d) ->
    grade_from (d_cyc0 d) (place d i) g ->
    0 <= T -> motion T pos vel (rolling (d_veh d) (d_props d) g) -> vel 0 = v0 -> vel T = vb ->
    (forall t, 0 <= t <= T -> 0 < road_force (d_veh d) (d_props d) g (vel t)) ->
    0 <= T' -> motion T' pos' vel' (braking ab) -> vel' 0 = vb -> vel' T' = 0 ->
    calc_distance_to_stop_coast_v2 d i = Ok ((pos T - pos 0) + (pos' T' - pos' 0)).
  Proof.
    intros H HB M G HT MO V0 VT PO HT' MO' V0' VT'.
    assert (M0 : veh_kg (d_veh d) <> 0) by lra.
    assert (PF : forall t, 0 <= t <= T -> 0 < F (vel t)).
    { intros t Ht. unfold F, Rdiv. apply Rmult_lt_0_compat; [auto|]. now apply Rinv_0_lt_compat. }
    assert (P0 : 0 < F v0) by (rewrite <- V0; apply PF; lra).
    assert (Pb : 0 < F vb) by (rewrite <- VT; apply PF; lra).
    rewrite estimate_cases by assumption.
    destruct (Rlt_dec 0 (F v0)); [|contradiction]. destruct (Rlt_dec 0 (F vb)); [|contradiction]. f_equal.
    assert (B : stopping_distance ab vb = pos' T' - pos' 0).
    { rewrite (brake_motion T' pos' vel' ab AB HT' MO'), V0', VT'. unfold stopping_distance. f_equal. lra. }
    rewrite B. f_equal.
    assert (MO2 : motion T pos vel (fun u => - (c1_of + c2_of * u ^ 2))).
    { intros t Ht. destruct (MO t Ht) as [A1 A2]. split; [exact A1|].
      replace (- (c1_of + c2_of * vel t ^ 2)) with (rolling (d_veh d) (d_props d) g (vel t)); [exact A2|].
      unfold rolling. pose proof (force_per_mass (vel t) M0) as Q. unfold F in Q. unfold Rdiv in *. rewrite <- Ropp_mult_distr_l, Q. lra. }
    destruct (Req_EM_T c2_of 0) as [Z|Z].
    - rewrite Z in MO2. rewrite (force_per_mass v0 M0), Z in P0.
      rewrite (roll_flat T pos vel c1_of ltac:(lra) HT MO2). now rewrite V0, VT.
    - rewrite (roll_motion T pos vel c1_of c2_of Z HT MO2); [now rewrite V0, VT|].
      intros t Ht. rewrite <- (force_per_mass (vel t) M0). auto.
  Qed.
  Lemma estimate_simulated : vb < v0 -> 0 <= vb -> veh_kg (d_veh d) <> 0 -> grade_from (d_cyc0 d) (place d i) g ->
    F v0 <= 0 \/ F vb <= 0 -> calc_distance_to_stop_coast_v2 d i = do r <- generate_coast_trajectory d i false; Ok (snd r).
  Proof.
    intros H HB M G O. rewrite estimate_cases by assumption.
    destruct (Rlt_dec 0 (F v0)); [|reflexivity]. destruct (Rlt_dec 0 (F vb)); [lra|reflexivity].
  Qed.
End Estimate.
Lemma estimate_uneven (d : sdrive R) i : wf_sd d -> d_cache d = build_cache (d_cyc0 d) -> (1 <= i < clen (d_cyc d))%nat ->
  coast_brake_accel_m_per_s2 (d_sp d) <> 0 -> coast_brake_start_speed_m_per_s (d_sp d) < nth (i - 1) (mps (d_cyc d)) 0 ->
  (forall g, ~ grade_from (d_cyc0 d) (place d i) g) ->
  calc_distance_to_stop_coast_v2 d i = do r <- generate_coast_trajectory d i false; Ok (snd r).
Proof.
  intros W CA HI AB V G. unfold calc_distance_to_stop_coast_v2. rewrite (start_place d i W HI). cbn [bindR]. unR.
  destruct (Reqb_spec (coast_brake_accel_m_per_s2 (d_sp d)) 0); [contradiction|].
  change (cmps (d_cyc d) (i - 1)) with (nth (i - 1) (mps (d_cyc d)) 0). destruct (Rleb_spec (nth (i - 1) (mps (d_cyc d)) 0) (coast_brake_start_speed_m_per_s (d_sp d))); [lra|].
  change (mask_list (map (fun x : R => Rleb (place d i) x) (cc_distances (d_cache d))) (grade (d_cyc0 d))) with (ahead_grades d (place d i)).
  destruct (unique_grade (ahead_grades d (place d i))) as [g|] eqn:E; [|reflexivity].
  apply unique_ahead in E; [exfalso; exact (G g E)|apply W| |exact CA]. exact (has_samples0 d i W HI).
Qed.
Lemma estimate_no_brakes (d : sdrive R) i : wf_sd d -> (1 <= i < clen (d_cyc d))%nat -> coast_brake_accel_m_per_s2 (d_sp d) = 0 ->
  calc_distance_to_stop_coast_v2 d i = Err ZeroDivisionError.
Proof.
  intros W HI AB. unfold calc_distance_to_stop_coast_v2. rewrite (start_place d i W HI). cbn [bindR]. unR. rewrite AB.
  destruct (Reqb_spec 0 0); [reflexivity|lra].
Qed.

(** ** The decision *)
Lemma decide_by_speed (d : sdrive R) i : 0 < coast_start_speed_m_per_s (d_sp d) ->
  should_impose_coast d i = Ok (if Rle_dec (coast_start_speed_m_per_s (d_sp d)) (nth i (mps (d_cyc d)) 0) then true else false).
Proof.
  intros H. unfold should_impose_coast. unR. destruct (Rltb_spec 0 (coast_start_speed_m_per_s (d_sp d))); [|lra]. f_equal.
Qed.
Lemma decide_by_distance (d : sdrive R) i b : wf_sd d -> (1 <= i < clen (d_cyc d))%nat ->
  coast_start_speed_m_per_s (d_sp d) <= 0 -> coast_brake_accel_m_per_s2 (d_sp d) < 0 -> should_impose_coast d i = Ok b ->
  let v := speed d (i - 1) in
  b = true <-> coast_brake_start_speed_m_per_s (d_sp d) <= v /\
    exists est stop, calc_distance_to_stop_coast_v2 d i = Ok est /\
      calc_distance_to_next_stop_from (d_cyc0 d) (place d i) (Some (d_cache d)) = Ok stop /\
      0 <= est /\ stop <= est /\ 4 * stopping_distance (coast_brake_accel_m_per_s2 (d_sp d)) v <= stop.
Proof.
  intros W HI S A H v. unfold should_impose_coast in H. unR. destruct (Rltb_spec 0 (coast_start_speed_m_per_s (d_sp d))); [lra|].
  change (mps_ach_at d (i - 1)) with v in H. destruct (Rltb_spec v (coast_brake_start_speed_m_per_s (d_sp d))).
  { injection H as <-. split; [discriminate|]. intros [Q _]. lra. }
  apply bind_ok in H as (est & E1 & H). destruct (Rltb_spec est 0).
  { injection H as <-. split; [discriminate|]. intros (_ & e & s & Q & _ & Q2 & _). assert (e = est) by congruence. lra. }
  rewrite (start_place d i W HI) in H. cbn [bindR] in H. apply bind_ok in H as (stop & E2 & H).
  assert (SD : IZR 4 * (- lit 1 2 * v * v / coast_brake_accel_m_per_s2 (d_sp d)) = 4 * stopping_distance (coast_brake_accel_m_per_s2 (d_sp d)) v).
  { rewrite lit_R. unR. unfold stopping_distance. field. lra. }
  rewrite SD in H. assert (B : b = _) by (symmetry; injection H; intros Q; exact Q). rewrite B. rewrite Bool.andb_true_iff, !Rleb_true. split.
  - intros [Q1 Q2]. split; [lra|]. exists est, stop. repeat split; auto; lra.
  - intros (_ & e & s & Q1 & Q2 & Q3 & Q4 & Q5). assert (e = est) by congruence. assert (s = stop) by congruence. subst e s. split; lra.
Qed.
