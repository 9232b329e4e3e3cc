(** Lemmas for C105: labels of vehicles that a run cannot tell apart. *)
From Coq Require Import Lia.
From Verif Require Import Num Numpy ListFacts CycleModel CycleSpec VehModel SimModel SimState WalkModel PostModel UtilModel LabelModel
  FrameProofs WalkProofs SimSpec WalkProofs2 PostProofs PlainSpec PlainSpec2 PlainProofs PlainProofs2 PlainProofs4.
Local Open Scope R_scope.

Definition agree (x y : ldict R) : Prop := forall k, k <> "veh"%string -> dget x k = dget y k.
Lemma dget_dset (d : ldict R) k v k' : dget (dset d k v) k' = if String.eqb k k' then Some v else dget d k'.
Proof.
  induction d as [|[j w] d IH]; cbn; [reflexivity|]. destruct (String.eqb_spec j k) as [->|N]; cbn; [destruct (String.eqb k k'); reflexivity|].
  rewrite IH. destruct (String.eqb_spec k k') as [->|N']; [|reflexivity]. destruct (String.eqb_spec j k'); [contradiction|reflexivity].
Qed.
Lemma agree_dset x y k v : agree x y -> agree (dset x k v) (dset y k v).
Proof. intros A j J. rewrite !dget_dset. destruct (String.eqb k j); auto. Qed.
Lemma agree_dnums l : forall x y, agree x y -> agree (dnums x l) (dnums y l).
Proof. unfold dnums. induction l as [|e l IH]; cbn; intros x y A; auto. apply IH. now apply agree_dset. Qed.
Lemma agree_dzeros l x y : agree x y -> agree (dzeros x l) (dzeros y l).
Proof. apply agree_dnums. Qed.

Section Alike.
  Variables (v w : vehicle R) (A : drives_alike v w).
  Let sp : simparams R := default_sim_params.
  Notation new x c := (new_sd x label_props sp c).
  Lemma sp_plain : changes_cycle sp = false.
  Proof. reflexivity. Qed.
  Lemma al_drive c si : wf c -> same_outcome (sim_drive (new v c) si None) (sim_drive (new w c) si None).
  Proof. intros W. apply twin_same_outcome. apply alike_twin; auto using sp_plain. Qed.
  Lemma al_post c u u' : wf c -> run (new v c) None u -> run (new w c) None u' -> d_rows u = d_rows u' ->
    post_mpgge u = post_mpgge u' /\ battery_kwh_per_mi (set_post_scalars u) = battery_kwh_per_mi (set_post_scalars u').
  Proof.
    intros W X Y E. destruct (run_keeps _ _ _ (new_wf v _ sp c W) X) as (_ & a2 & _ & a4 & _).
    destruct (run_keeps _ _ _ (new_wf w _ sp c W) Y) as (_ & b2 & _ & b4 & _).
    cbn [new_sd init_arrays d_veh d_props] in a2, a4, b2, b4. split.
    - unfold post_mpgge, sum_rows. now rewrite E, a4, b4.
    - unfold set_post_scalars, sum_rows, soc_last, soc_first, row_at. cbn [battery_kwh_per_mi].
      now rewrite E, a2, b2, (da_ess_max_kwh _ _ A).
  Qed.
  Lemma al_label_values x y adj mu mh bu bh : agree x y ->
    match label_values x v adj mu mh bu bh, label_values y w adj mu mh bu bh with
    | Ok a, Ok b => agree a b | Err e, Err e' => e = e' | _, _ => False end.
  Proof.
    intros G. unfold label_values. rewrite (da_veh_pt_type _ _ A), (da_ess_max_kwh _ _ A).
    destruct (veh_pt_type v); cbn [negb andb]; try (destruct ((mu =? n0)%num || (mh =? n0)%num)%bool; cbn [bindR]; [reflexivity|]);
      cbn [bindR]; repeat (apply agree_dset || apply agree_dnums || apply agree_dzeros); exact G.
  Qed.
  Lemma al_phev peak a b r : chg_eff w = chg_eff v -> phev_values w peak a b r = phev_values v peak a b r.
  Proof.
    intros C. unfold phev_values, regen_soc_buffer, total_cd_miles, trans_init_soc, total_cd_miles.
    rewrite C, (da_max_soc _ _ A), (da_min_soc _ _ A), (da_ess_max_kwh _ _ A), (da_veh_kg _ _ A), (da_max_regen _ _ A). reflexivity.
  Qed.
  Lemma al_again c x u : wf c -> run (new x c) None u -> forall si, sim_drive u si None = sim_drive (new x c) si None.
  Proof. intros W X si. exact (run_again _ _ _ (new_wf x _ sp c W) X si None). Qed.
  Lemma al_runs c u u' : wf c -> run (new v c) None u -> run (new w c) None u' -> d_rows u = d_rows u' -> phev_runs_of u = phev_runs_of u'.
  Proof.
    intros W X Y E. unfold phev_runs_of. destruct (al_post c u u' W X Y E) as (_ & <-).
    destruct (run_keeps _ _ _ (new_wf v _ sp c W) X) as (_ & a2 & _). destruct (run_keeps _ _ _ (new_wf w _ sp c W) Y) as (_ & b2 & _).
    cbn [new_sd init_arrays d_veh] in a2, b2. rewrite a2, b2.
    assert (T : forall b m, trans_init_soc w (soc_first u') (soc_last u') b m = trans_init_soc v (soc_first u) (soc_last u) b m).
    { intros b m. unfold trans_init_soc, total_cd_miles, soc_first, soc_last, row_at. now rewrite E, (da_max_soc _ _ A), (da_min_soc _ _ A), (da_ess_max_kwh _ _ A). }
    assert (SD : sum_dist u' = sum_dist u) by (unfold sum_dist, sum_rows; now rewrite E).
    rewrite T, SD, (da_min_soc _ _ A). rewrite !(al_again c _ _ W X), !(al_again c _ _ W Y).
    set (s1 := Some (trans_init_soc v _ _ _ _)). pose proof (al_drive c s1 W) as O.
    destruct (sim_drive (new v c) s1 None) as [t|e] eqn:E1; destruct (sim_drive (new w c) s1 None) as [t'|e'] eqn:E1'; cbn in O; try contradiction; cbn [bindR]; [|congruence].
    rewrite (al_again c v t W) by (right; eauto). rewrite (al_again c w t' W) by (right; eauto).
    set (s2 := Some _). pose proof (al_drive c s2 W) as O2.
    destruct (sim_drive (new v c) s2 None) as [k|e] eqn:E2; destruct (sim_drive (new w c) s2 None) as [k'|e'] eqn:E2'; cbn in O2; try contradiction; cbn [bindR]; [|congruence].
    unfold soc_first, soc_last, least_soc, soc_first, sum_dist, sum_fs_kwh, sum_rows, row_at. now rewrite <- E, <- O, <- O2.
  Qed.
  Lemma al_accel c : wf c -> same_outcome (run_simdrive_for_accel_test (new v c)) (run_simdrive_for_accel_test (new w c)).
  Proof.
    intros W. pose proof (al_drive c) as G.
    assert (D : forall x s, sim_drive_walk (new x c) s None = sim_drive (new x c) (Some s) None).
    { intros x s. rewrite drive_is_walk by (left; discriminate). now rewrite new_count. }
    unfold run_simdrive_for_accel_test. cbn [new_sd init_arrays d_veh]. change (init_arrays ?x) with (init_arrays x).
    rewrite (da_veh_pt_type _ _ A). unfold mid_soc. rewrite (da_max_soc _ _ A), (da_min_soc _ _ A).
    destruct (veh_pt_type v); rewrite !D; now apply G.
  Qed.
End Alike.

Lemma accel_cycle_wf : wf (accel_cycle (F := R)).
Proof.
  unfold wf, accel_cycle, clen. cbn [time_s mps grade road_type length]. rewrite map_length, seq_length, !repeat_length. auto.
Qed.
Lemma al_label v w c h year : drives_alike v w -> wf c -> wf h ->
  (veh_pt_type v = PHEV -> chg_eff w = chg_eff v /\ fs_kwh w = fs_kwh v /\ mc_eff_array w = mc_eff_array v) ->
  same_label (get_label_fe c h v year) (get_label_fe c h w year).
Proof.
  intros A W W' P. unfold get_label_fe.
  pose proof (al_drive v w A c None W) as O1. pose proof (al_drive v w A h None W') as O2.
  pose proof (al_accel v w A _ accel_cycle_wf) as O3.
  assert (K : forall x y, agree x y ->
    same_label (do a <- run_simdrive_for_accel_test (new_sd v label_props default_sim_params accel_cycle);
      Ok (dset (dset x "netAccel" (LNum (net_accel (map (fun r => mph_ach (spd r)) (d_rows a)) (time_s accel_cycle))))
             "resFound" (LText "model needs to be implemented for this")))
     (do a <- run_simdrive_for_accel_test (new_sd w label_props default_sim_params accel_cycle);
      Ok (dset (dset y "netAccel" (LNum (net_accel (map (fun r => mph_ach (spd r)) (d_rows a)) (time_s accel_cycle))))
             "resFound" (LText "model needs to be implemented for this")))).
  { intros x y G. destruct (run_simdrive_for_accel_test (new_sd v _ _ _)) as [a|e]; destruct (run_simdrive_for_accel_test (new_sd w _ _ _)) as [a'|e']; cbn in O3; try contradiction; cbn [bindR same_label]; [|exact O3].
    rewrite O3. now apply agree_dset, agree_dset. }
  clear O3. destruct (sim_drive (new_sd v _ _ c) None None) as [u|e] eqn:E1; destruct (sim_drive (new_sd w _ _ c) None None) as [u'|e'] eqn:E1'; cbn in O1; try contradiction; cbn [bindR]; [|exact O1].
  destruct (sim_drive (new_sd v _ _ h) None None) as [g|e] eqn:E2; destruct (sim_drive (new_sd w _ _ h) None None) as [g'|e'] eqn:E2'; cbn in O2; try contradiction; cbn [bindR]; [|exact O2].
  set (out := [("veh", LVeh v); ("adjParams", LAdj (adj_params year))]%string). set (out' := [("veh", LVeh w); ("adjParams", LAdj (adj_params year))]%string).
  assert (G : agree out out').
  { intros k N. unfold out, out', dget. destruct (String.eqb_spec "veh" k) as [Q|Q]; [congruence|reflexivity]. }
  destruct (al_post v w A c u u') as (M1 & B1); auto; [right; eauto|right; eauto|].
  destruct (al_post v w A h g g') as (M2 & B2); auto; [right; eauto|right; eauto|].
  rewrite (da_veh_pt_type _ _ A). destruct (veh_pt_type v) eqn:T.
  1,2,4: clear P; (rewrite <- M1, <- M2, <- B1, <- B2;
    match goal with |- context [label_values ?o ?vv ?a ?b ?c ?d ?e] => pose proof (al_label_values v w A out out' a b c d e G) as L;
      destruct (label_values out v a b c d e); destruct (label_values out' w a b c d e); cbn in L; try contradiction; cbn [bindR]; [|exact L] end;
    now apply K).
  destruct (P eq_refl) as (P1 & P2 & P3). rewrite (da_max_soc _ _ A).
  rewrite (al_again c v u W), (al_again c w u' W), (al_again h v g W'), (al_again h w g' W') by (right; eauto).
  pose proof (al_drive v w A c (Some (max_soc v)) W) as Q1. pose proof (al_drive v w A h (Some (max_soc v)) W') as Q2.
  destruct (sim_drive (new_sd v _ _ c) (Some _) None) as [x|e] eqn:F1; destruct (sim_drive (new_sd w _ _ c) (Some _) None) as [x'|e'] eqn:F1'; cbn in Q1; try contradiction; cbn [bindR]; [|exact Q1].
  destruct (sim_drive (new_sd v _ _ h) (Some _) None) as [y|e] eqn:F2; destruct (sim_drive (new_sd w _ _ h) (Some _) None) as [y'|e'] eqn:F2'; cbn in Q2; try contradiction; cbn [bindR]; [|exact Q2].
  assert (MP : get_mcPeakEff w = get_mcPeakEff v) by (unfold get_mcPeakEff; now rewrite P3, (da_mc_full_eff_array _ _ A)).
  rewrite MP. destruct (get_mcPeakEff v) as [peak|]; cbn [bindR]; [|reflexivity].
  rewrite <- (al_runs v w A c x x' W) by (auto; right; eauto). rewrite <- (al_runs v w A h y y' W') by (auto; right; eauto).
  destruct (phev_runs_of x) as [ru|]; cbn [bindR]; [|reflexivity]. rewrite (al_phev v w A) by exact P1.
  destruct (phev_values v peak _ _ ru) as [cu|]; cbn [bindR]; [|reflexivity].
  destruct (phev_runs_of y) as [rh|]; cbn [bindR]; [|reflexivity]. rewrite (al_phev v w A) by exact P1.
  destruct (phev_values v peak _ _ rh) as [ch|]; cbn [bindR]; [|reflexivity].
  unfold phev_label. destruct (interpf _) as [uf|]; cbn [bindR]; [|reflexivity]. rewrite P2. apply K. apply agree_dnums, agree_dset, G.
Qed.
