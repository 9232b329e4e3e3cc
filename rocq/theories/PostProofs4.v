(** Proofs for properties C42 (battery wear) and C43 (SOC-corrected fuel). *)
From Coq Require Import Lia.
From Verif Require Import Num Numpy ListFacts CycleModel CycleSpec VehModel SimModel SimState
  WalkModel FrameProofs WalkProofs StepProofs StepEqs SimSpec SimProofs1 SimProofs2 SimProofs3 SimProofs4 SimProofs5 SimProofs6
  WalkSpec WalkProofs2 PostModel PostSpec PostProofs PostProofs2 PostProofs3.
Local Open Scope R_scope.

(** ** C42 *)
Section Wear.
  Variable d : sdrive R.
  Let n := length (d_rows d).
  Hypothesis P : (0 < n)%nat.
  Definition wear_ok (w : wear (F := R)) : Prop :=
    length (add_kwh w) = n /\ nth 0 (add_kwh w) 0 = 0 /\ length (dod_cycs w) = n /\ nth 0 (dod_cycs w) 0 = 0.
  Lemma fresh_ok : wear_ok (fresh_wear d).
  Proof.
    unfold wear_ok, fresh_wear, zeros. cbn [add_kwh dod_cycs]. rewrite repeat_length. fold n. unfold n in *.
    destruct (length (d_rows d)); [lia|]. repeat split; reflexivity.
  Qed.
  Lemma fill_length (a : list R) f : length a = n -> length (fill_from1 a f n) = n.
  Proof. destruct a as [|x a]; cbn [length fill_from1]; intros L; [lia|]. rewrite map_length, seq_length. lia. Qed.
  Lemma fill_0 (a : list R) f : nth 0 (fill_from1 a f n) 0 = nth 0 a 0.
  Proof. now destruct a. Qed.
  Lemma fill_nth (a : list R) f i : length a = n -> (1 <= i < n)%nat -> nth i (fill_from1 a f n) 0 = f i.
  Proof.
    destruct a as [|x a]; cbn [length fill_from1]; intros L I; [lia|]. destruct i as [|i]; [lia|]. cbn [nth].
    rewrite (nth_indep _ 0 (f 0%nat)) by (rewrite map_length, seq_length; lia). rewrite map_nth, seq_nth by lia. reflexivity.
  Qed.
  Section Once.
    Variable w : wear (F := R).
    Hypothesis K : wear_ok w.
    Let w' := set_battery_wear d w.
    Lemma once_ok : wear_ok w'.
    Proof.
      destruct K as (A & B & C & D). unfold wear_ok, w', set_battery_wear. cbn [add_kwh dod_cycs]. fold n.
      rewrite !fill_length, !fill_0 by auto. auto.
    Qed.
    Lemma once_add i : (1 <= i < n)%nat ->
      nth i (add_kwh w') 0 = if Rlt_dec (kwh_at d (i - 1)) (kwh_at d i)
                             then kwh_at d i - kwh_at d (i - 1) + nth (i - 1) (add_kwh w) 0 else 0.
    Proof.
      intros I. destruct K as (A & _). unfold w', set_battery_wear. cbn [add_kwh]. fold n. rewrite fill_nth by auto.
      unR. change (@n0 R RNum) with 0. fold (kwh_at d i). fold (kwh_at d (i - 1)).
      destruct (Rltb_spec (kwh_at d (i - 1)) (kwh_at d i)), (Rlt_dec (kwh_at d (i - 1)) (kwh_at d i)); try lra; reflexivity.
    Qed.
    Lemma once_dod i : (1 <= i < n)%nat -> let cap := ess_max_kwh (d_veh d) in
      (cap = 0 -> nth i (dod_cycs w') 0 = 0) /\
      (cap <> 0 -> nth i (add_kwh w') 0 = 0 -> nth i (dod_cycs w') 0 = nth (i - 1) (add_kwh w') 0 / cap) /\
      (nth i (add_kwh w') 0 <> 0 -> nth i (dod_cycs w') 0 = 0).
    Proof.
      intros I cap. destruct K as (_ & _ & A & _). unfold w' at 1 3 6, set_battery_wear. cbn [dod_cycs]. fold n. rewrite fill_nth by auto.
      set (a := fill_from1 (add_kwh w) _ n). change (add_kwh w') with a. unR. change (@n0 R RNum) with 0. fold cap.
      destruct (Reqb_spec cap 0); destruct (Reqb_spec (nth i a 0) 0); repeat split; intros; try lra; try contradiction; reflexivity.
    Qed.
    Lemma once_dead i : (i < n)%nat -> let b := 1 / ess_life_coef_b (d_veh d) in
      (nth i (dod_cycs w') 0 = 0 -> nth i (ess_perc_dead w') 0 = 0) /\
      (nth i (dod_cycs w') 0 <> 0 ->
       nth i (ess_perc_dead w') 0 = Rpow_py (ess_life_coef_a (d_veh d)) b / Rpow_py (nth i (dod_cycs w') 0) b).
    Proof.
      intros I b. unfold w' at 2 4, set_battery_wear. cbn [ess_perc_dead]. fold n.
      set (dod := fill_from1 (dod_cycs w) _ n). change (dod_cycs w') with dod.
      match goal with |- context [map ?g (seq 0 n)] => set (f := g) end. rewrite (nth_indep (map f (seq 0 n)) 0 (f 0%nat)) by (rewrite map_length, seq_length; lia).
      rewrite map_nth, seq_nth by lia. unfold f. cbn [plus]. unR. change (@n0 R RNum) with 0.
      destruct (Reqb_spec (nth i dod 0) 0); split; intros; try contradiction; reflexivity.
    Qed.
  End Once.
  Fixpoint worn (k : nat) : wear (F := R) :=
    match k with O => fresh_wear d | S j => set_battery_wear d (worn j) end.
  Lemma worn_ok k : wear_ok (worn k).
  Proof. induction k; [apply fresh_ok|now apply once_ok]. Qed.
  Lemma fresh_nth i : nth i (add_kwh (fresh_wear d)) 0 = 0.
  Proof. cbn [add_kwh fresh_wear]. unfold zeros. unR. apply nth_repeat. Qed.
  Lemma worn_add : forall k i, (i < n)%nat -> (i <= k)%nat -> nth i (add_kwh (worn k)) 0 = charging_run d i.
  Proof.
    induction k as [|k IH]; intros i I L.
    - assert (i = 0)%nat as -> by lia. rewrite (proj1 (proj2 (worn_ok 0))). reflexivity.
    - destruct i as [|i]; [rewrite (proj1 (proj2 (worn_ok (S k)))); reflexivity|].
      cbn [worn]. rewrite (once_add _ (worn_ok k)) by lia. rewrite Nat.sub_succ, Nat.sub_0_r. cbn [charging_run].
      rewrite IH by lia. reflexivity.
  Qed.
  Lemma first_call i : (1 <= i < n)%nat ->
    nth i (add_kwh (worn 1)) 0 = Rmax 0 (kwh_at d i - kwh_at d (i - 1)).
  Proof.
    intros I. cbn [worn]. rewrite (once_add _ fresh_ok) by auto. rewrite fresh_nth. destruct (Rlt_dec _ _); mm; lra.
  Qed.
  Lemma second_call i : (1 <= i)%nat -> (S i < n)%nat -> kwh_at d (i - 1) < kwh_at d i -> kwh_at d i < kwh_at d (S i) ->
    nth (S i) (add_kwh (worn 1)) 0 < charging_run d (S i) /\ nth (S i) (add_kwh (worn 1)) 0 < nth (S i) (add_kwh (worn 2)) 0.
  Proof.
    intros I J A B. destruct i as [|i]; [lia|]. rewrite Nat.sub_succ, Nat.sub_0_r in A.
    assert (C : forall j, 0 <= charging_run d j).
    { induction j as [|j IHj]; [cbn; lra|]. cbn [charging_run]. destruct (Rlt_dec _ _); lra. }
    pose proof (C i) as C0. rewrite first_call by lia. rewrite Nat.sub_succ, Nat.sub_0_r. split.
    - cbn [charging_run]. destruct (Rlt_dec (kwh_at d (S i)) (kwh_at d (S (S i)))); [|lra].
      destruct (Rlt_dec (kwh_at d i) (kwh_at d (S i))); [|lra]. mm; lra.
    - change (worn 2) with (set_battery_wear d (worn 1)). rewrite (once_add _ (worn_ok 1)) by lia. rewrite Nat.sub_succ, Nat.sub_0_r.
      rewrite first_call by lia. rewrite Nat.sub_succ, Nat.sub_0_r. destruct (Rlt_dec _ _); [|lra]. mm; lra.
  Qed.
End Wear.

(** ** C43 *)
Lemma Rsum_pos {A} (f : A -> R) l : l <> [] -> (forall x, In x l -> 0 < f x) -> 0 < Rsum (map f l).
Proof.
  destruct l as [|a l]; [congruence|]. intros _ H. cbn [map]. rewrite Rsum_cons. pose proof (H a (or_introl eq_refl)).
  assert (0 <= Rsum (map f l)). { apply Rsum_nonneg. intros x I. apply Rlt_le, H. now right. } lra.
Qed.
Lemma Rsum_some {A} (f : A -> R) l x : In x l -> 0 < f x -> (forall y, In y l -> 0 <= f y) -> 0 < Rsum (map f l).
Proof.
  induction l as [|a l IH]; intros I Px H; [destruct I|]. cbn [map]. rewrite Rsum_cons. pose proof (H a (or_introl eq_refl)).
  assert (0 <= Rsum (map f l)) by (apply Rsum_nonneg; intros; apply H; now right).
  destruct I as [->|I]; [lra|]. specialize (IH I Px (fun y J => H y (or_intror J))). lra.
Qed.
Lemma ratio_pos (d : sdrive R) mask num den dflt : 0 < dflt ->
  (forall r, In r (d_rows d) -> mask r = true -> 0 < num r /\ 0 < den r) ->
  0 < ratio_where d mask num den dflt.
Proof.
  intros D H. unfold ratio_where. destruct (filter mask (d_rows d)) as [|r l] eqn:E; [exact D|]. rewrite <- E. rewrite !nsum_Rsum. unR.
  assert (NE : filter mask (d_rows d) <> []) by congruence.
  apply Rdiv_lt_0_compat; apply Rsum_pos; auto; intros x I; apply filter_In in I as [I1 I2]; apply (H x I1 I2).
Qed.
Lemma ratio_neg (d : sdrive R) mask num den dflt : 0 < dflt ->
  (forall r, In r (d_rows d) -> mask r = true -> num r < 0 /\ den r < 0) ->
  0 < ratio_where d mask num den dflt.
Proof.
  intros D H. unfold ratio_where. destruct (filter mask (d_rows d)) as [|r l] eqn:E; [exact D|]. rewrite <- E. rewrite !nsum_Rsum. unR.
  assert (NE : filter mask (d_rows d) <> []) by congruence.
  assert (G : forall f : row R -> R, (forall r, In r (d_rows d) -> mask r = true -> f r < 0) -> Rsum (map f (filter mask (d_rows d))) < 0).
  { intros f Hf. assert (Q : 0 < Rsum (map (fun r => f r * -1) (filter mask (d_rows d)))).
    { apply Rsum_pos; auto. intros x I. apply filter_In in I as [I1 I2]. specialize (Hf x I1 I2). lra. }
    rewrite Rsum_scal in Q. lra. }
  pose proof (G num (fun r I M => proj1 (H r I M))). pose proof (G den (fun r I M => proj2 (H r I M))).
  replace (Rsum (map num _) / Rsum (map den _)) with (- Rsum (map num (filter mask (d_rows d))) / - Rsum (map den (filter mask (d_rows d)))) by (field; lra).
  apply Rdiv_lt_0_compat; lra.
Qed.
Section Correct.
  Variables (d0 : sdrive R) (ovr : option (list R)) (d : sdrive R).
  Hypotheses (W : wf_sd d0) (RN : run d0 ovr d).
  Let v := d_veh d0.
  Hypothesis T : increasing (time_s (d_cyc d)).
  Hypothesis HY : veh_pt_type v = HEV.
  Hypothesis NF : is_h2fc (fc_eff_type v) = false.
  Hypothesis MM : motor_map_ok v.
  Hypothesis EM : engine_map_ok v.
  Hypotheses (F1 : 0 <= fc_max_kw v) (F2 : 0 < fc_sec_to_peak_pwr v).
  Hypotheses (B1 : ess_max_kw v <> 0) (B2 : 0 < ess_max_kwh v) (B3 : 0 < ess_round_trip_eff v).
  Hypothesis AX : forall i, 0 <= aux_load d i.
  Hypothesis EN : exists i, (1 <= i < length (d_rows d))%nat /\ 0 < trans_kw_in_ach (pwr (row_at d i)) /\ 0 < fc_kw_out_ach (fc (row_at d i)).
  Variable peak : R.
  Hypothesis PK : get_mcPeakEff v = Ok peak.

  Lemma row_cases r : In r (d_rows d) -> r = row_at d 0 \/ exists i, (1 <= i < length (d_rows d))%nat /\ r = row_at d i.
  Proof.
    intros I. apply (In_nth _ _ zero_row) in I as (i & L & <-). destruct i as [|i]; [now left|]. right. exists (S i). split; [lia|]. reflexivity.
  Qed.
  Lemma motor_signs i : (1 <= i < length (d_rows d))%nat ->
    let mech := mc_mech_kw_out_ach (dec (row_at d i)) in let elec := mc_elec_kw_in_ach (dec (row_at d i)) in
    (0 < mech -> 0 < elec) /\ (mech < 0 -> elec < 0) /\ (mech = 0 -> elec = 0).
  Proof.
    intros I mech elec. pose proof (mc_elec _ _ _ _ (step_of _ _ _ W RN i I)) as E. fold mech in E. fold elec in E. rewrite E.
    pose proof (mm_two _ MM) as L2. assert (L1 : (1 <= length (mc_full_eff_array v) - 1)%nat) by lia.
    assert (EL := mm_eff _ MM _ _ L1 (mc_last_point _ L2)).
    assert (EA : forall g t x, length g = length (mc_full_eff_array v) -> 0 < mc_eff_at v g t x <= 1).
    { intros g t x Hg. destruct (mc_eff_point _ g t x L2 Hg) as (k & K1 & K2 & _). eapply MM; eauto. }
    unfold calc_mc_elec_in. unR. fold v. destruct (Reqb_spec mech 0) as [Z|Z]; [repeat split; intros; lra|].
    destruct (Rltb_spec mech 0).
    - pose proof (EA _ (amax (mc_kw_in_array v)) (mech * - (1)) (mm_in _ MM)). repeat split; intros; try lra; rcase; nra.
    - pose proof (EA _ (mc_max_kw v) mech (mm_out _ MM)). repeat split; intros; try lra; rcase; apply Rdiv_lt_0_compat; lra.
  Qed.
  Lemma peak_pos : 0 < peak.
  Proof.
    revert PK. unfold get_mcPeakEff, lmax. pose proof (mm_two _ MM) as L2.
    destruct (mc_full_eff_array v) as [|a [|b l]] eqn:E; cbn [length] in L2; try lia. cbn [bindR].
    destruct (mc_eff_array v); [discriminate|]. cbn [bindR]. unfold assertR. destruct (neqb _ _); [|discriminate]. cbn [bindR]. intros Q. injection Q as <-.
    assert (B : 0 < b <= 1) by (apply (mm_eff _ MM 1%nat); [lia|]; now rewrite E). pose proof (nmaxl_ge (b :: l) a b (or_intror (or_introl eq_refl))). change (nmaxl (nmax a b) l) with (nmaxl a (b :: l)). lra.
  Qed.
  Lemma first_zero : mc_mech_kw_out_ach (dec (row_at d 0)) = 0 /\ mc_elec_kw_in_ach (dec (row_at d 0)) = 0 /\ trans_kw_in_ach (pwr (row_at d 0)) = 0.
  Proof. destruct (first_is _ _ _ W RN) as (s & ->). repeat split; reflexivity. Qed.
  Lemma corrected : exists k, 0 < k /\
    estimate_soc_corrected_fuel_kJ d = Ok (fuel_kj (set_post_scalars d) - (final_soc d - soc (dec (row_at d 0))) * k).
  Proof.
    destruct (run_len _ _ _ W RN) as (L & P & V & _). destruct first_zero as (Z1 & Z2 & Z3).
    unfold estimate_soc_corrected_fuel_kJ. rewrite V. fold v. rewrite HY, PK. cbn [bindR].
    set (chg := ratio_where d (fun r => nltb (mc_mech_kw_out_ach (dec r)) n0) _ _ peak).
    assert (C1 : 0 < chg).
    { apply ratio_neg; [apply peak_pos|]. intros r I. unR. destruct (row_cases r I) as [->|(i & Ii & ->)].
      - rewrite Z1. rcase; [lra|discriminate].
      - destruct (motor_signs i Ii) as (_ & S & _). rcase; [|discriminate]. auto. }
    set (dis := ratio_where d _ _ _ chg).
    assert (C2 : 0 < dis).
    { apply ratio_pos; [exact C1|]. intros r I. unR. destruct (row_cases r I) as [->|(i & Ii & ->)].
      - rewrite Z1. rcase; [lra|discriminate].
      - destruct (motor_signs i Ii) as (S & _). rcase; [|discriminate]. auto. }
    set (trac := ratio_where d _ _ _ n1).
    assert (C3 : 0 < trac).
    { apply ratio_pos; [change (@n1 R RNum) with 1; lra|]. intros r I. unR. destruct (row_cases r I) as [->|(i & Ii & ->)].
      - rewrite Z2. rcase; [lra|discriminate].
      - rcase; [|discriminate]. intros _. split; auto.
        rewrite (electric_bus _ _ _ _ (step_of _ _ _ W RN i Ii) B1) by (auto; fold v; lra).
        pose proof (AX i) as A. unfold aux_load in A. destruct (aux_on_shaft _ _); lra. }
    set (eff := ratio_where d _ _ _ (ndiv _ _)).
    assert (C4 : 0 < eff).
    { destruct EN as (i & Ii & A & B). unfold eff, ratio_where. set (l := filter _ _).
      assert (J : In (row_at d i) l).
      { apply filter_In. split; [apply nth_In; lia|]. unR. rcase; [reflexivity|lra]. }
      destruct l as [|r0 rest] eqn:E; [destruct J|]. rewrite <- E in *. rewrite !nsum_Rsum. unR.
      assert (FL : forall r, In r l -> 0 <= fc_kw_out_ach (fc r) <= fc_kw_in_ach (fc r)).
      { intros r Ir. unfold l in Ir. apply filter_In in Ir as [I1 I2]. destruct (row_cases r I1) as [->|(j & Ij & ->)].
        - revert I2. rewrite Z3. unR. rcase; [lra|discriminate].
        - apply (fc_loss _ _ _ _ (step_of _ _ _ W RN j Ij) T F1 F2 EM). }
      apply Rdiv_lt_0_compat.
      - apply (Rsum_some (fun r => fc_kw_out_ach (fc r)) l (row_at d i) J B). intros y Iy. apply FL, Iy.
      - apply (Rsum_some (fun r => fc_kw_in_ach (fc r)) l (row_at d i) J).
        + pose proof (FL _ J). lra. + intros y Iy. pose proof (FL _ Iy). lra. }
    change (soc_last d) with (final_soc d). change (soc_first d) with (soc (dec (row_at d 0))). change (@nofZ R RNum 3600) with 3600. unR.
    set (delta := final_soc d - soc (dec (row_at d 0))).
    assert (SQ : 0 < sqrt (ess_round_trip_eff v)) by now apply sqrt_lt_R0.
    destruct (Rleb_spec 0 delta).
    - exists (ess_max_kwh v * 3600 * sqrt (ess_round_trip_eff v) * dis * trac / eff). split.
      + apply Rdiv_lt_0_compat; auto. repeat apply Rmult_lt_0_compat; auto; lra.
      + f_equal. ring.
    - exists (ess_max_kwh v * 3600 / (sqrt (ess_round_trip_eff v) * chg * eff)). split.
      + apply Rdiv_lt_0_compat; [apply Rmult_lt_0_compat; lra|]. repeat apply Rmult_lt_0_compat; auto.
      + f_equal. ring.
  Qed.
End Correct.
Lemma not_hybrid (d : sdrive R) : veh_pt_type (d_veh d) <> HEV -> estimate_soc_corrected_fuel_kJ d = Err ValueError.
Proof. intros H. unfold estimate_soc_corrected_fuel_kJ. destruct (veh_pt_type (d_veh d)); congruence. Qed.
