(** C122: the label figures of the two implementations. *)
From Coq Require Import Floats Lia.
From Verif Require Import Num FloatNum Numpy ListFacts CycleModel CycleSpec VehModel SimModel SimState WalkModel PostModel UtilModel LabelModel
  FrameProofs WalkProofs WalkSpec WalkProofs2 LabelSpec LabelProofs LabelProps RustModel RustWalkModel RustPostModel RustVehModel RustCycModel
  RustSpec RustProofs RustProofs2 RustProofs3 RustProps RustProps2 SimSpec SimDemo SimProps PostProps
  RustVehProofs RustCycProofs RustLabelModel RustLabelSpec RustLabelProofs RustLabelProofs2.
Local Open Scope R_scope.
Local Set Warnings "-inexact-float".

(** *** The utility factor *)
(** Up to 1201 miles, where the table ends, the same factors and the same distances refused; beyond, Rust goes on with 1. *)
Theorem C122_utility_factor (m : R) :
  (m <= 1201 -> forall u, interpf m = Ok u <-> r_uf m = Ok u) /\ (1201 < m -> r_uf m = Ok 1).
Proof.
  split; [|intros H; apply uf_far; lra]. intros H u. split; [apply uf_same|]. intros E. destruct (Rlt_dec m 0) as [L|L].
  - destruct (uf_negative m L) as (e & Q). congruence.
  - destruct (interpf_ok m ltac:(lra)) as (w & Q & _). rewrite (uf_same _ _ Q) in E. congruence.
Qed.
Theorem C122_far_refuted : exists m : R, interpf m = Err ValueError /\ r_uf m = Ok 1.
Proof. exists 1202. split; [apply interpf_err; lra|apply uf_far; lra]. Qed.

(** *** Time to 60 mph *)
Theorem C122_accel (mph times : list R) : length times = length mph ->
  rises_past_60 mph \/ (forall x, In x mph -> x < 60) -> r_net_accel mph times = Ok (net_accel mph times).
Proof.
  intros L [U|U]; [now apply net_same|]. unfold r_net_accel, net_accel.
  assert (E : existsb (fun x : R => (x >=? nofZ 60)%num) mph = false).
  { apply not_true_is_false. intros E. apply existsb_exists in E as (x & I & G). unR. apply Rleb_true in G. change (@nofZ R _ 60) with 60 in G. specialize (U x I). lra. }
  now rewrite E.
Qed.

(** With two samples at 60 mph Python takes the later one, Rust the earlier. *)
Theorem C122_plateau_refuted : exists mph times : list R, nondecreasing mph /\ length times = length mph /\
  net_accel mph times = 2 /\ r_net_accel mph times = Ok 1.
Proof.
  exists [0; 60; 60; 70], [0; 1; 2; 3]. split; [|split; [reflexivity|]].
  { intros i j a b Hij A B. destruct i as [|[|[|[|i]]]]; destruct j as [|[|[|[|j]]]]; cbn in A, B; try lia; try discriminate; try (destruct i; discriminate); try (destruct j; discriminate); injection A as <-; injection B as <-; lra. }
  assert (E : existsb (fun x : R => (x >=? nofZ 60)%num) [0; 60; 60; 70] = true).
  { apply existsb_exists. exists 70. split; [cbn; auto|]. unR. apply Rleb_true. change (@nofZ R _ 60) with 60. lra. }
  unfold net_accel, r_net_accel. rewrite E. split.
  - cbn [combine interp1]. unR. change (@nofZ R _ 60) with 60. destruct (Rltb_spec 60 0); [lra|]. cbn [interp_from]. unR.
    destruct (Rltb_spec 60 60); [lra|]. destruct (Rltb_spec 60 70); [|lra]. destruct (Reqb 60 60); lra.
  - rewrite interp_knots; [|reflexivity|].
    + f_equal. cbn [combine r_knots r_rising]. unR. change (@nofZ R _ 60) with 60.
      destruct (Rltb_spec 0 60); [|lra]. destruct (Rltb_spec 60 60); [lra|]. destruct (Rltb_spec 60 70); [|lra]. cbn [interp1 interp_from]. unR.
      destruct (Rltb_spec 60 0); [lra|]. destruct (Rltb_spec 60 60); [lra|]. destruct (Rltb_spec 60 70); [|lra]. destruct (Reqb 60 60); lra.
    + cbn [combine r_knots r_rising]. unR. destruct (Rltb_spec 0 60); [|lra]. cbn [length]. lia.
Qed.
Example C122_accel_run : (r_net_accel [0; 20; 45; 55; 65; 70] [0; 1; 2; 3; 4; 5], r_net_accel [0; 20; 45; 59.5] [0; 1; 2; 3])%float = (Ok 3.5, Ok 1000)%float.
Proof. vm_compute. reflexivity. Qed.
Example C122_accel_case : rises_past_60 [0; 20; 45; 55; 65; 70].
Proof.
  exists 3%nat, 55, 65. split; [reflexivity|]. split; [reflexivity|]. split; [lra|]. split.
  - intros i x y Hi X Y. destruct i as [|[|[|[|i]]]]; cbn in X, Y; try lia; injection X as <-; injection Y as <-; lra.
  - intros j x Hj X. destruct j as [|[|[|[|[|[|j]]]]]]; cbn in X; try lia; [injection X as <-; lra|injection X as <-; lra|destruct j; discriminate].
Qed.

(** *** The whole label *)
Ltac fields I := cbn [label_fields plug_in_fields In] in I; repeat (destruct I as [I|I]); [..|destruct I]; injection I as <- <-.
Ltac by_entry := intros ? ? ? I X; fields I; look X; cbn; congruence.
Lemma fuel_fields v ad mu mh lc au ah ac t miss : veh_pt_type v <> PHEV ->
  same_figures v (fuel_dict v ad mu mh lc au ah ac ++ closing t)
    (mkrlabel mu mh lc 0 0 0 au ah ac 0 0 0 0 0 0 0 0 None None None t miss).
Proof.
  intros NP. split; [by_entry|split; [by_entry|]]. intros k f I _. fields I; reflexivity.
Qed.
Lemma elec_fields v ad bu bh bc ku kh kc eu eh ec range t miss : veh_pt_type v <> PHEV ->
  same_figures v (elec_dict v ad bu bh bc ku kh kc eu eh ec range ++ closing t)
    (mkrlabel 0 0 0 bu bh bc 0 0 0 ku kh kc eu eh ec range 0 None None None t miss).
Proof.
  intros NP. split; [by_entry|split; [by_entry|]]. intros k f I _. fields I; reflexivity.
Qed.
Lemma phev_fields v ad u h uf cs cd mi rng t miss :
  veh_pt_type v = PHEV ->
  same_figures v (phev_dict v ad u h uf cs cd mi rng ++ closing t)
    (mkrlabel (labMpgge u) (labMpgge h) (comb_mpgge (labMpgge u) (labMpgge h))
          (labKwhPerMile u) (labKwhPerMile h) (comb_kwh (labKwhPerMile u) (labKwhPerMile h))
          (adjMpgge u) (adjMpgge h) (comb_mpgge (adjMpgge u) (adjMpgge h))
          (adjKwhPerMile u) (adjKwhPerMile h) (comb_kwh (adjKwhPerMile u) (adjKwhPerMile h))
          (adjEssKwhPerMile u) (adjEssKwhPerMile h) (comb_kwh (adjEssKwhPerMile u) (adjEssKwhPerMile h))
          rng uf (Some cs) (Some cd) (Some mi) t miss).
Proof.
  intros NP. split; [|split].
  - intros ? ? ? I X; fields I; look X;
    cbn [rl_lab_udds_mpgge rl_lab_hwy_mpgge rl_lab_comb_mpgge rl_lab_udds_kwh_per_mi rl_lab_hwy_kwh_per_mi rl_lab_comb_kwh_per_mi rl_adj_udds_mpgge
      rl_adj_hwy_mpgge rl_adj_comb_mpgge rl_adj_udds_kwh_per_mi rl_adj_hwy_kwh_per_mi rl_adj_comb_kwh_per_mi rl_adj_udds_ess_kwh_per_mi
      rl_adj_hwy_ess_kwh_per_mi rl_adj_comb_ess_kwh_per_mi rl_net_range_miles rl_uf]; congruence.
  - intros ? ? ? I X; fields I; look X; cbn [rl_adj_cs_comb_mpgge rl_adj_cd_comb_mpgge rl_net_phev_cd_miles]; congruence.
  - congruence.
Qed.
Lemma any_time v (d : ldict R) (t t' : R) g : (forall x, same_figures v (d ++ closing x) (g x)) -> (forall x k f, In (k, f) label_fields -> f (g x) = f (g t)) ->
  (forall x k f, In (k, f) plug_in_fields -> f (g x) = f (g t)) -> same_figures v (d ++ closing t') (g t).
Proof.
  intros H A B. destruct (H t') as (a & b & c). split; [|split].
  - intros k f x I X. rewrite <- (A t' k f I). eauto.
  - intros k f x I X. rewrite <- (B t' k f I). eauto.
  - intros k f I X. rewrite <- (B t' k f I). eauto.
Qed.
Lemma accel_part v a (k : R -> Res (rlabel R)) : comparable v -> loads_ok None v -> run_simdrive_for_accel_test (new_sd v label_props default_sim_params accel_cycle) = Ok a ->
  exists t, (do a <- r_sim_drive_accel (new_sd v label_props default_sim_params r_accel_cycle);
             do t <- r_net_accel (map (fun r => mph_ach (spd r)) (d_rows (fst a))) (time_s r_accel_cycle); k t) = k t /\
    (rises_past_60 (speeds a) \/ (forall x, In x (speeds a) -> x < 60) -> accel_entry v a = t).
Proof.
  intros V Q H. destruct (accel_same v a V Q H) as (dr & p & E & M & L & Z). change (fresh v r_accel_cycle) with (new_sd v label_props default_sim_params (r_accel_cycle (F := R))) in E.
  rewrite E. cbn [bindR fst]. rewrite M.
  assert (LT : length (time_s (r_accel_cycle (F := R))) = length (speeds a)).
  { rewrite <- M, map_length, L. unfold r_accel_cycle. cbn [time_s]. now rewrite map_length, seq_length. }
  destruct (net_total (speeds a) (time_s r_accel_cycle) LT) as (t & T); [rewrite Z; lra|]. exists t. rewrite T. cbn [bindR]. split; [reflexivity|].
  intros U. rewrite (C122_accel _ _ LT U) in T. change (accel_entry v a) with (net_accel (speeds a) (time_s (r_accel_cycle (F := R)))). generalize dependent (net_accel (speeds a) (time_s (r_accel_cycle (F := R)))). intros q T. congruence.
Qed.
Lemma figures_and_time v (d : ldict R) t r a : rl_net_accel r = t ->
  run_simdrive_for_accel_test (new_sd v label_props default_sim_params accel_cycle) = Ok a ->
  (rises_past_60 (speeds a) \/ (forall x, In x (speeds a) -> x < 60) -> accel_entry v a = t) ->
  same_figures v (d ++ closing (accel_entry v a)) r ->
  same_figures v (d ++ closing (accel_entry v a)) r /\
    (forall b, run_simdrive_for_accel_test (fresh v accel_cycle) = Ok b ->
       rises_past_60 (speeds b) \/ (forall x, In x (speeds b) -> x < 60) -> has (d ++ closing (accel_entry v a)) "netAccel" (rl_net_accel r)).
Proof.
  intros Hr A U SF. split; [exact SF|]. intros b B W. unfold fresh in B. assert (b = a) by congruence. subst b. rewrite Hr, <- (U W).
  unfold has. apply in_or_app. right. now left.
Qed.
Theorem C122_label udds hwfet v year out : alike v udds -> alike v hwfet -> charge_limits v \/ veh_pt_type v <> HEV ->
  get_label_fe udds hwfet v year = Ok out ->
  exists r, r_get_label_fe udds hwfet v year = Ok r /\ same_figures v out r /\
    (forall a, run_simdrive_for_accel_test (fresh v accel_cycle) = Ok a ->
       rises_past_60 (speeds a) \/ (forall x, In x (speeds a) -> x < 60) -> has out "netAccel" (rl_net_accel r)).
Proof.
  intros AU AH H G.
  assert (V : comparable v) by (exact (pr_veh _ _ (al_plain _ _ AU))). assert (Q : loads_ok None v) by (exact (pr_loads _ _ (al_plain _ _ AU))).
  unfold r_get_label_fe. cbv zeta.
  destruct (get_label_inv _ _ _ _ _ G) as [u h a N1 N2 R1 R2 A M1 M2 E|u h a N1 R1 R2 A E|u0 h0 u h peak ru rh cu ch uf a N1 R1 R2 R3 R4 PK Q1 Q2 V1 V2 A I E].
  - destruct (l_first v udds AU u H R1) as (U1 & _). destruct (l_first v hwfet AH h H R2) as (U2 & _). unfold fresh in U1, U2. rewrite U1. cbn [bindR]. rewrite U2. cbn [bindR fst snd].
    set (m := r_trace_miss_mph _ _). clearbody m. rewrite E. cbv zeta.
    destruct (veh_pt_type v) eqn:PT; try congruence; cbn [bindR];
    match goal with |- exists r, bindR _ (fun a => bindR (@?z a) ?k) = Ok r /\ _ => destruct (accel_part v a k V Q A) as (t & T & U) end;
    rewrite T; eexists; (split; [reflexivity|]); unfold r_label_values; rewrite PT; cbv zeta;
    (apply (figures_and_time v _ t); [reflexivity|exact A|exact U|]).
    all: match goal with |- same_figures _ (fuel_dict _ ?ad ?mu ?mh ?lc ?au ?ah ?ac ++ _) _ =>
           apply (any_time v _ t _ (fun t => mkrlabel mu mh lc 0 0 0 au ah ac 0 0 0 0 0 0 0 0 None None None t m)) end;
      [intros x; apply fuel_fields; congruence|intros x k f I; fields I; reflexivity|intros x k f I; fields I; reflexivity].
  - destruct (l_first v udds AU u H R1) as (U1 & _). destruct (l_first v hwfet AH h H R2) as (U2 & _). unfold fresh in U1, U2. rewrite U1. cbn [bindR]. rewrite U2. cbn [bindR fst snd].
    set (m := r_trace_miss_mph _ _). clearbody m. rewrite E. cbv zeta. rewrite N1. cbn [bindR].
    match goal with |- exists r, bindR _ (fun a => bindR (@?z a) ?k) = Ok r /\ _ => destruct (accel_part v a k V Q A) as (t & T & U) end.
    rewrite T. eexists. split; [reflexivity|]. unfold r_label_values. rewrite N1. cbv zeta.
    apply (figures_and_time v _ t); [reflexivity|exact A|exact U|].
    match goal with |- same_figures _ (elec_dict _ ?ad ?bu ?bh ?bc ?ku ?kh ?kc ?eu ?eh ?ec ?range ++ _) _ =>
           apply (any_time v _ t _ (fun t => mkrlabel 0 0 0 bu bh bc 0 0 0 ku kh kc eu eh ec range 0 None None None t m)) end;
      [intros x; apply elec_fields; congruence|intros x k f I; fields I; reflexivity|intros x k f I; fields I; reflexivity].
  - destruct (l_first v udds AU u0 H R1) as (U1 & S1). destruct (l_first v hwfet AH h0 H R2) as (U2 & S2). unfold fresh in U1, U2. rewrite U1. cbn [bindR]. rewrite U2. cbn [bindR fst snd].
    set (m := r_trace_miss_mph _ _). clearbody m. rewrite E. cbv zeta. rewrite N1.
    assert (PK' : r_mc_peak_eff v = Ok peak).
    { unfold get_mcPeakEff in PK. unfold r_mc_peak_eff. bind_in PK pa Epa. bind_in PK pb Epb. bind_in PK pc Epc. congruence. }
    rewrite PK'. cbn [bindR].
    rewrite (l_phev v udds AU u0 u ru S1 R3 Q1). cbn [bindR]. rewrite (phev_same _ _ _ _ _ _ V1). cbn [bindR].
    rewrite (l_phev v hwfet AH h0 h rh S2 R4 Q2). cbn [bindR]. rewrite (phev_same _ _ _ _ _ _ V2). cbn [bindR].
    pose proof (uf_same _ _ I) as UF.
    assert (PL : forall t, r_phev_label v cu ch t m = Ok (mkrlabel (labMpgge cu) (labMpgge ch) (comb_mpgge (labMpgge cu) (labMpgge ch))
          (labKwhPerMile cu) (labKwhPerMile ch) (comb_kwh (labKwhPerMile cu) (labKwhPerMile ch))
          (adjMpgge cu) (adjMpgge ch) (comb_mpgge (adjMpgge cu) (adjMpgge ch))
          (adjKwhPerMile cu) (adjKwhPerMile ch) (comb_kwh (adjKwhPerMile cu) (adjKwhPerMile ch))
          (adjEssKwhPerMile cu) (adjEssKwhPerMile ch) (comb_kwh (adjEssKwhPerMile cu) (adjEssKwhPerMile ch))
          ((fs_kwh v / label_kwh_per_gge - comb_kwh (adjCdMiles cu) (adjCdMiles ch) / comb_mpgge (adjCdMpgge cu) (adjCdMpgge ch)) * comb_mpgge (adjCsMpgge cu) (adjCsMpgge ch) + comb_kwh (adjCdMiles cu) (adjCdMiles ch))
          uf (Some (comb_mpgge (adjCsMpgge cu) (adjCsMpgge ch))) (Some (comb_mpgge (adjCdMpgge cu) (adjCdMpgge ch))) (Some (comb_kwh (adjCdMiles cu) (adjCdMiles ch))) t m)).
    { intros t. unfold r_phev_label. cbv zeta.
      match goal with |- bindR (r_uf ?z) _ = _ => change z with (comb_kwh (adjCdMiles cu) (adjCdMiles ch)) end. rewrite UF. cbn [bindR]. reflexivity. }
    rewrite PL. cbn [bindR].
    match goal with |- exists r, bindR _ (fun a => bindR (@?z a) ?k) = Ok r /\ _ => destruct (accel_part v a k V Q A) as (t & T & U) end.
    rewrite T. cbv beta. rewrite PL. eexists. split; [reflexivity|].
    apply (figures_and_time v _ t); [reflexivity|exact A|exact U|].
    match goal with |- same_figures _ _ (mkrlabel ?a1 ?a2 ?a3 ?a4 ?a5 ?a6 ?a7 ?a8 ?a9 ?b1 ?b2 ?b3 ?b4 ?b5 ?b6 ?b7 ?b8 ?b9 ?b10 ?b11 _ _) =>
      apply (any_time v _ t _ (fun t => mkrlabel a1 a2 a3 a4 a5 a6 a7 a8 a9 b1 b2 b3 b4 b5 b6 b7 b8 b9 b10 b11 t m)) end;
      [intros x; apply phev_fields; congruence|intros x k f J; fields J; reflexivity|intros x k f J; fields J; reflexivity].
Qed.

(** Rolling down a hill for two seconds. *)
Definition rolling {F} `{Num F} : cyc F := mkcyc [n0; n1; n2] [n0; lit 1 2; lit 1 2] (repeat (n0 - lit 2 10)%num 3) (repeat n0 3).
(** Without fuel Python refuses to make a label; Rust reports a mileage of 0. *)
Theorem C122_no_fuel_refuted : exists (v : vehicle float) c d dr p out,
  sim_drive (new_sd v label_props default_sim_params c) None None = Ok d /\
  label_values [] v (adj_params 2016) (post_mpgge d) (post_mpgge d) 0%float 0%float = Err ZeroDivisionError /\
  r_sim_drive_post (new_sd v label_props default_sim_params c) None None = Ok (dr, p) /\
  r_label_values v (adj_params 2016) p p 10%float 0%float = out /\ rl_lab_comb_mpgge out = 0%float /\ rl_adj_comb_mpgge out = 0%float.
Proof.
  pose (v := demo_veh (F := float) CONV (z 100) n0 n0 n0 true true n0).
  destruct (sim_drive (new_sd v label_props default_sim_params rolling) None None) as [d|] eqn:E; [|vm_compute in E; discriminate].
  destruct (r_sim_drive_post (new_sd v label_props default_sim_params rolling) None None) as [[dr p]|] eqn:E'; [|vm_compute in E'; discriminate].
  exists v, rolling, d, dr, p, (r_label_values v (adj_params 2016) p p 10%float 0%float). split; [exact E|].
  assert (Q : match sim_drive (new_sd v label_props default_sim_params rolling) None None with
    | Ok d => label_values [] v (adj_params 2016) (post_mpgge d) (post_mpgge d) 0%float 0%float | Err e => Err e end = Err ZeroDivisionError) by (vm_compute; reflexivity).
  rewrite E in Q. split; [exact Q|]. split; [exact E'|]. split; [reflexivity|].
  assert (Q' : match r_sim_drive_post (new_sd v label_props default_sim_params rolling) None None with
    | Ok (_, p) => let out := r_label_values v (adj_params 2016) p p 10%float 0%float in (rl_lab_comb_mpgge out, rl_adj_comb_mpgge out)
    | Err e => (1, 1)%float end = (0, 0)%float) by (vm_compute; reflexivity).
  rewrite E' in Q'. split; congruence.
Qed.

(** The trace miss reported only by Rust: the greatest difference to the two cycles' speeds, in mph. *)
Theorem C122_trace_miss udds hwfet v year u h r : alike v udds -> alike v hwfet -> charge_limits v \/ veh_pt_type v <> HEV ->
  sim_drive (fresh v udds) None None = Ok u -> sim_drive (fresh v hwfet) None None = Ok h -> r_get_label_fe udds hwfet v year = Ok r ->
  let off d c i := Rabs (speed d i - nth i (mps c) 0) * 2.2369 in
  (forall i, (i < length (d_rows u))%nat -> off u udds i <= rl_trace_miss_speed_mph r) /\
  (forall i, (i < length (d_rows h))%nat -> off h hwfet i <= rl_trace_miss_speed_mph r) /\
  ((exists i, (i < length (d_rows u))%nat /\ rl_trace_miss_speed_mph r = off u udds i) \/
   (exists i, (i < length (d_rows h))%nat /\ rl_trace_miss_speed_mph r = off h hwfet i)).
Proof.
  intros AU AH H R1 R2 G off.
  destruct (l_first v udds AU u H R1) as (U1 & S1). destruct (l_first v hwfet AH h H R2) as (U2 & S2). unfold fresh in U1, U2.
  unfold r_get_label_fe in G. cbv zeta in G. rewrite U1 in G. cbn [bindR] in G. rewrite U2 in G. cbn [bindR fst snd] in G.
  assert (M : rl_trace_miss_speed_mph r = r_trace_miss_mph (set_post_scalars u) (set_post_scalars h)).
  { set (m := r_trace_miss_mph _ _) in *. clearbody m. bind_in G out Eout. bind_in G aa Ea. bind_in G tm Et.
    assert (Z : forall t x, out t = Ok x -> rl_trace_miss_speed_mph x = m).
    { intros t x. destruct (veh_pt_type v) eqn:PT.
      1,2,4: match type of Eout with Ok ?k = _ => assert (Eo : out = k) by congruence end; rewrite Eo; intros X; unfold r_label_values in X; rewrite PT in X; cbv zeta in X; match type of X with Ok ?k = _ => assert (Ek : x = k) by congruence end; rewrite Ek; reflexivity.
      bind_in Eout o1 Q1. bind_in Eout o2 Q2. bind_in Eout o3 Q3. bind_in Eout o4 Q4. bind_in Eout o5 Q5. bind_in Eout o6 Q6.
      match type of Eout with Ok ?k = _ => assert (Eo : out = k) by congruence end. rewrite Eo. intros X. unfold r_phev_label in X. cbv zeta in X. bind_in X o7 Q7.
      match type of X with Ok ?k = _ => assert (Ek : x = k) by congruence end. rewrite Ek. reflexivity. }
    eauto. }
  assert (K : forall c d, alike v c -> same_setup (fresh v c) d -> sim_drive (fresh v c) None None = Ok d ->
    (forall i, (i < length (d_rows d))%nat -> off d c i <= trace_miss_speed_mps (set_post_scalars d) * 2.2369) /\
    (exists i, (i < length (d_rows d))%nat /\ trace_miss_speed_mps (set_post_scalars d) * 2.2369 = off d c i)).
  { intros c d AC SU E. pose proof (al_plain _ _ AC) as P. assert (W : wf_sd (fresh v c)) by (split; [apply P|split; apply P]).
    destruct (C66_speed (fresh v c) None d W (or_intror (ex_intro _ None E))) as (a & i & b1 & b2). destruct SU as (_ & _ & _ & _ & _ & g).
    specialize (g (l_plain_off v c AC)). cbn in g. rewrite g in *. split.
    - intros j J. specialize (a j J). unfold off. cbv beta in a. apply Rmult_le_compat_r; [lra|exact a].
    - exists i. split; [exact b1|]. unfold off. cbv beta in b2. now rewrite b2. }
  destruct (K udds u AU S1 R1) as (a1 & i1 & b1 & c1). destruct (K hwfet h AH S2 R2) as (a2 & i2 & b2 & c2).
  assert (MM : r_trace_miss_mph (set_post_scalars u) (set_post_scalars h) = Rmax (trace_miss_speed_mps (set_post_scalars u) * 2.2369) (trace_miss_speed_mps (set_post_scalars h) * 2.2369)).
  { unfold r_trace_miss_mph. cbv zeta. assert (MP : @MPH_PER_MPS R _ = 2.2369) by (unfold MPH_PER_MPS; rewrite lit_R; lra). unR. rewrite MP.
    assert (X1 : 0 <= trace_miss_speed_mps (set_post_scalars u) * 2.2369) by (rewrite c1; unfold off; pose proof (Rabs_pos (speed u i1 - nth i1 (mps udds) 0)); nra).
    assert (X2 : 0 <= trace_miss_speed_mps (set_post_scalars h) * 2.2369) by (rewrite c2; unfold off; pose proof (Rabs_pos (speed h i2 - nth i2 (mps hwfet) 0)); nra).
    generalize dependent (trace_miss_speed_mps (set_post_scalars u) * 2.2369). generalize dependent (trace_miss_speed_mps (set_post_scalars h) * 2.2369). intros y _ _ Y x _ _ X.
    unfold Rmax. destruct (Rltb_spec 0 x); match goal with |- context [Rltb ?p ?q] => destruct (Rltb_spec p q) end; destruct (Rle_dec x y); lra. }
  rewrite M, MM. split; [|split].
  - intros i I. eapply Rle_trans; [apply a1; exact I|apply Rmax_l].
  - intros i I. eapply Rle_trans; [apply a2; exact I|apply Rmax_r].
  - unfold Rmax. destruct (Rle_dec _ _); [right; exists i2|left; exists i1]; auto.
Qed.

(** Cases: the hypotheses hold for the small electric car, and the entries of both labels are those of C49_run and C77. *)
Lemma demo_alike : alike (demo_bev (F := R)) demo_trip.
Proof.
  destruct demo_comparable as (_ & _ & V). constructor.
  - constructor; cbn [fresh new_sd init_arrays d_cyc d_cyc0 d_sp d_veh]; try reflexivity; auto using demo_trip_wf, demo_trip_inc; [|discriminate].
    intros (Q & _). exfalso. revert Q. unfold demo_bev, demo_veh, demo_veh_of, z. cbn [mc_max_kw]. unR. lra.
  - unfold demo_trip, z. cbn. unR. reflexivity.
  - exact trip_moves.
  - intros s x E j. right.
    assert (W : wf_sd (fresh (demo_bev (F := R)) demo_trip)) by (repeat split; apply demo_trip_wf).
    rewrite (wk_veh _ _ _ _ (walk_walked _ _ _ _ W E)). cbn [fresh new_sd init_arrays d_veh]. unfold demo_bev, demo_veh, demo_veh_of, z. cbn [fc_max_kw]. unR. reflexivity.
Qed.
Example C122_case : exists out r, get_label_fe demo_trip demo_trip (demo_bev (F := R)) 2016 = Ok out /\
  r_get_label_fe demo_trip demo_trip (demo_bev (F := R)) 2016 = Ok r /\ same_figures demo_bev out r /\ has out "netRangeMiles" (rl_net_range_miles r).
Proof.
  destruct C49_case as (out & G). assert (NH : charge_limits (demo_bev (F := R)) \/ veh_pt_type (demo_bev (F := R)) <> HEV) by (right; discriminate).
  destruct (C122_label _ _ _ _ _ demo_alike demo_alike NH G) as (r & E & SF & _). exists out, r. split; [exact G|]. split; [exact E|]. split; [exact SF|].
  destruct (get_label_inv _ _ _ _ _ G) as [u h a N1 N2 R1 R2 A M1 M2 X|u h a N1 R1 R2 A X|u0 h0 u h peak ru rh cu ch uf a N1 R1 R2 R3 R4 PK Q1 Q2 V1 V2 A I X];
    [exfalso; apply N1; reflexivity| |discriminate N1].
  cbv zeta in X. match type of X with _ = elec_dict _ _ _ _ _ _ _ _ _ _ _ ?range ++ _ =>
    assert (HR : has out "netRangeMiles" range) by (rewrite X; unfold has; apply in_or_app; left; unfold elec_dict; cbn [In]; repeat (try (left; reflexivity); right)) end.
  destruct SF as (SF & _). rewrite (SF "netRangeMiles"%string rl_net_range_miles _ ltac:(unfold label_fields; cbn [In]; repeat (try (left; reflexivity); right)) HR). exact HR.
Qed.
Definition r_label_run (v : vehicle float) : option (list Z) :=
  match r_sim_drive_post (new_sd v label_props default_sim_params demo_trip) None None with
  | Ok (_, p) => let r := r_label_values v (adj_params 2016) p p 0%float 0%float in
      Some (map rounded [rl_lab_udds_mpgge r; rl_lab_comb_mpgge r; rl_lab_comb_kwh_per_mi r; rl_adj_udds_mpgge r; rl_adj_hwy_mpgge r;
                         rl_adj_comb_mpgge r; rl_adj_comb_kwh_per_mi r; rl_adj_hwy_ess_kwh_per_mi r; rl_net_range_miles r])
  | Err _ => None
  end.
Example C122_run : (r_label_run demo_conv, r_label_run demo_bev) =
  (Some [3337785; 3337785; 0; 2801618; 2470251; 2642128; 0; 0; 0], Some [0; 0; 722729; 0; 0; 0; 1149389; 1019598; 24279831])%Z /\
  match r_phev_values demo_phev 0.9 0.003259 1.1805 demo_runs with
  | Ok p => Some (map rounded [cdCycs p; labMpgge p; labKwhPerMile p; adjCdMiles p; adjMpgge p; adjCsMpgge p; adjEssKwhPerMile p; adjKwhPerMile p])
  | Err _ => None
  end%float = Some [2816000; 69561228; 239401; 15750000; 45311961; 31966510; 333803; 388144]%Z.
Proof. vm_compute. split; reflexivity. Qed.
