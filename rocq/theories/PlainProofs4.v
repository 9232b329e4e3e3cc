(** Proofs for properties C100-C104. *)
From Verif Require Import Num Numpy ListFacts CycleModel CycleSpec VehModel SimModel SimState WalkModel
  FrameProofs WalkProofs SimSpec SimDemo WalkSpec WalkProofs2 PlainProofs PlainProofs2 PlainSpec PlainProofs3.
From Coq Require Import Lia FunctionalExtensionality.
Local Open Scope R_scope.

Lemma new_wf (v : vehicle R) pr sp c : wf c -> wf_sd (new_sd v pr sp c).
Proof. intros W. split; [exact W|]. split; [exact W|reflexivity]. Qed.
Lemma firstn_nth {A} (l l' : list A) k i d : firstn k l = firstn k l' -> (i < k)%nat -> nth i l d = nth i l' d.
Proof.
  revert l l' i. induction k as [|k IH]; intros l l' i E H; [lia|].
  destruct l as [|a l], l' as [|b l']; cbn [firstn] in E; try discriminate; [reflexivity|].
  inversion E; subst. destruct i as [|i]; [reflexivity|]. cbn. apply IH; [auto|lia].
Qed.

(** ** Causality *)
Definition same_aux (k n n' : nat) (ovr ovr' : option (list R)) : Prop :=
  forall i, (i < k)%nat -> aux_start ovr n i = aux_start ovr' n' i /\
    all_zero (map (aux_start ovr n) (seq i (n - i))) = all_zero (map (aux_start ovr' n') (seq i (n' - i))).
Lemma aux_none_zero n (i : nat) : aux_start (F := R) None n i = 0.
Proof. reflexivity. Qed.
Lemma all_zero_const n k : all_zero (map (fun _ : nat => 0) (seq k n)) = true.
Proof.
  unfold all_zero. apply forallb_forall. intros x Hx. apply in_map_iff in Hx as (? & <- & _). unR.
  now destruct (Reqb_spec 0 0).
Qed.
Lemma same_aux_none k n n' : same_aux k n n' None None.
Proof.
  intros i Hi. split; [reflexivity|].
  rewrite !(map_ext (aux_start None _) (fun _ => 0)) by reflexivity. now rewrite !all_zero_const.
Qed.
Lemma plain_env_until v pr sp c c' k ovr ovr' i : same_until k c c' -> same_aux k (clen c) (clen c') ovr ovr' -> (1 <= i < k)%nat ->
  plain_env (new_sd v pr sp c) ovr i = plain_env (new_sd v pr sp c') ovr' i.
Proof.
  intros (L1 & L2 & T & M & G) A Hi. unfold plain_env. rewrite !plain_grade_new. cbn [d_cyc new_sd init_arrays].
  rewrite (firstn_nth _ _ k i 0 G) by lia. destruct (A i) as [_ Z]; [lia|]. rewrite Z. f_equal.
  - unfold cdt, ctime. destruct (Nat.ltb i 1); [reflexivity|].
    now rewrite !(firstn_nth (time_s c) (time_s c') k _ n0 T) by lia.
  - unfold cmps. apply (firstn_nth _ _ k); auto. lia.
Qed.
Lemma causal_walk v pr sp c c' k s ovr ovr' x y : wf c -> wf c' -> changes_cycle sp = false -> same_until k c c' ->
  same_aux k (clen c) (clen c') ovr ovr' ->
  sim_drive_walk (new_sd v pr sp c) s ovr = Ok x -> sim_drive_walk (new_sd v pr sp c') s ovr' = Ok y ->
  forall i, (i < k)%nat -> row_at x i = row_at y i.
Proof.
  intros W W' C U A X Y. pose proof U as (L1 & L2 & T & M & G).
  eapply prefix_walk with (d := new_sd v pr sp c) (e := new_sd v pr sp c') (ovr := ovr) (ovr' := ovr') (s := s); eauto using new_wf.
  - intros K. destruct (A 0%nat) as [Z _]; [lia|]. cbn [d_cyc new_sd init_arrays]. rewrite Z.
    unfold first_row. cbn [d_cyc0 d_veh new_sd init_arrays].
    assert (Q : cmps c 0 = cmps c' 0) by (unfold cmps; apply (firstn_nth _ _ k); auto; lia).
    now rewrite Q.
  - intros i p Hi. unfold plain_row, plain_solve. rewrite (plain_env_until v pr sp c c' k ovr ovr') by auto.
    cbn [d_cyc d_veh d_props d_sp new_sd init_arrays]. destruct (A i) as [Z _]; [lia|]. rewrite Z. cbv zeta.
    replace (cdt c i) with (cdt c' i); [reflexivity|].
    unfold cdt, ctime. destruct (Nat.ltb i 1); [reflexivity|].
    now rewrite !(firstn_nth (time_s c) (time_s c') k _ n0 T) by lia.
Qed.
(** sim_drive is one walk from a state of charge that does not depend on the cycle, unless it balances. *)
Lemma drive_is_walk (d : sdrive R) si ovr : si <> None \/ veh_pt_type (d_veh d) <> HEV ->
  sim_drive d si ovr =
  sim_drive_walk (with_count d 0)
    (match si with
     | Some s => s
     | None => match veh_pt_type (d_veh d) with CONV | HEV => mid_soc (d_veh d) | _ => max_soc (d_veh d) end
     end) ovr.
Proof.
  intros H. unfold sim_drive. cbv zeta. destruct si as [s|]; [reflexivity|].
  destruct (veh_pt_type (d_veh d)) eqn:P; try reflexivity. destruct H; congruence.
Qed.
Lemma new_count (v : vehicle R) pr sp c : with_count (new_sd v pr sp c) 0 = new_sd v pr sp c.
Proof. reflexivity. Qed.

(** ** The clock *)
Lemma nth_shift t l i : (i < length l)%nat -> nth i (map (fun x : R => x + t) l) 0 = nth i l 0 + t.
Proof. intros H. rewrite (nth_indep _ 0 (0 + t)) by (now rewrite map_length). now rewrite (map_nth (fun x => x + t)). Qed.
Lemma cdt_shift t c i : (1 <= i < clen c)%nat -> cdt (later t c) i = cdt c i.
Proof.
  intros H. unfold cdt, ctime. destruct (Nat.ltb_spec i 1); [lia|]. cbn [later time_s]. unfold clen in H. unR.
  change (@n0 R RNum) with 0. rewrite !nth_shift by lia. lra.
Qed.
Lemma shift_twin v pr sp c t ovr : wf c -> changes_cycle sp = false ->
  twin ovr (new_sd v pr sp c) (new_sd v pr sp (later t c)).
Proof.
  intros W C.
  assert (W' : wf (later t c)) by (destruct W as (a & b & e); unfold wf, later; cbn; rewrite map_length; auto).
  assert (L : clen (later t c) = clen c) by (unfold clen; cbn; apply map_length).
  constructor; auto using new_wf.
  - exact (cdt_shift t c).
  - intros i p Hi. cbn [d_cyc new_sd init_arrays] in Hi.
    unfold plain_row, plain_solve, plain_env. rewrite !plain_grade_new.
    cbn [d_cyc d_veh d_props d_sp new_sd init_arrays]. rewrite L, cdt_shift by exact Hi. reflexivity.
Qed.

(** ** Attributes read *)
Lemma alike_twin v w pr sp c ovr : drives_alike v w -> wf c -> changes_cycle sp = false ->
  twin ovr (new_sd v pr sp c) (new_sd w pr sp c).
Proof.
  intros A W C. constructor; auto using new_wf; try (cbn [d_veh d_cyc new_sd init_arrays]; apply A).
  - intros s r. unfold first_row. cbn [d_veh d_cyc0 new_sd init_arrays]. now rewrite (da_ess_max_kwh _ _ A).
  - intros i p Hi. unfold plain_row, plain_solve. cbn [d_cyc d_veh d_props d_sp new_sd init_arrays]. cbv zeta.
    rewrite (al_solve v w pr sp A). now rewrite (da_veh_kg _ _ A).
Qed.
Lemma twin_same_outcome ovr d e si : twin ovr d e -> same_outcome (sim_drive d si ovr) (sim_drive e si ovr).
Proof. exact (twin_drive ovr d e si). Qed.
Lemma tank_alike v x : drives_alike v (with_tank v x).
Proof. constructor; reflexivity. Qed.

(** ** Engine-only vehicles and the initial state of charge *)
Section Engine.
  Variables (v : vehicle R) (pr : physprops R) (sp : simparams R).
  Hypothesis EO : engine_only v.
  Lemma en_type : is_h2fc (fc_eff_type v) = false.
  Proof. destruct EO as (_ & _ & _ & _ & _ & _ & T). now destruct (fc_eff_type v). Qed.
  (** Rows that agree in everything but state of charge and the flags that compare it. *)
  Record near (r r' : row R) : Prop := {
    nr_aux : aux_in_kw (misc r) = aux_in_kw (misc r'); nr_trac : max_trac_mps (misc r) = max_trac_mps (misc r');
    nr_spd : spd r = spd r'; nr_fc : fc r = fc r';
    nr_mc : mc_mech_kw_out_ach (dec r) = mc_mech_kw_out_ach (dec r'); nr_on : fc_time_on (dec r) = fc_time_on (dec r') }.
  Variables (e : step_env R) (p p' : row R) (a : R).
  Hypotheses (NR : near p p') (AX : 0 <= aux_in_kw (set_misc_calcs v e p a)).
  Let m := set_misc_calcs v e p a.
  Let m' := set_misc_calcs v e p' a.
  Let c := ctl (row_aux a (@zero_row R RNum)).
  Lemma en_misc : aux_in_kw m = aux_in_kw m' /\ max_trac_mps m = max_trac_mps m'.
  Proof. unfold m, m', set_misc_calcs. cbn. now rewrite (nr_spd _ _ NR). Qed.
  Lemma en_lims : set_comp_lims v pr e p m c = set_comp_lims v pr e p' m' c.
  Proof.
    destruct en_misc as [A T]. destruct EO as (E1 & E2 & E3 & E4 & E5 & _ & _). unfold set_comp_lims.
    rewrite E1, E5, A, T, (nr_fc _ _ NR), (nr_mc _ _ NR). cbv zeta.
    destruct (neqb 0 n0) eqn:Z; [|unR; destruct (Reqb_spec 0 0); [discriminate|lra]]. cbn [orb]. reflexivity.
  Qed.
  Lemma en_lims_0 : let l := set_comp_lims v pr e p m c in
    cur_ess_max_kw_out l = 0 /\ cur_max_ess_chg_kw l = 0 /\ cur_max_elec_kw l <= 0.
  Proof.
    destruct EO as (E1 & E2 & E3 & E4 & E5 & _ & _). unfold set_comp_lims. cbv zeta. rewrite E1, E5, E4, en_type.
    assert (RD : cur_max_roadway_chg_kw c = 0) by reflexivity. rewrite RD. unR.
    destruct (Reqb_spec 0 0); [|lra]. cbn [orb cur_ess_max_kw_out cur_max_ess_chg_kw cur_max_elec_kw].
    rewrite ?nmin_R, ?nmax_R. unR. rewrite !Rmin_left by lra. repeat split; auto. fold m in AX. lra.
  Qed.
  Lemma en_can l ab inp : 0 <> fc_max_kw v -> cur_max_elec_kw l <= 0 -> forall q, calc_can_pwr_all_elec v e q l ab inp 0 = false.
  Proof.
    intros H L q. unfold calc_can_pwr_all_elec. unR. destruct (Reqb_spec (fc_max_kw v) 0); [congruence|].
    destruct (Rltb_spec 0 (cur_max_elec_kw l)); [lra|]. cbn [orb]. now rewrite !Bool.andb_false_r.
  Qed.
  Lemma en_dis q l : cur_ess_max_kw_out l = 0 -> cur_max_ess_chg_kw l = 0 -> calc_accel_regen_dischg v e q l 0 0 0 0 = 0.
  Proof.
    intros A B. unfold calc_accel_regen_dischg. rewrite A, B. unR. destruct (Rltb_spec 0 0); [lra|].
    assert (Z : nmax (nmin 0 0) (nopp 0) = 0) by (rewrite nmax_R, nmin_R; unR; rewrite Rmin_left by lra; rewrite Ropp_0; apply Rmax_left; lra).
    assert (Z' : nmax (nmin (nopp n1 * 0) 0) (nopp 0) = 0).
    { rewrite nmax_R, nmin_R; unR. replace (- (1) * 0) with 0 by lra. rewrite Rmin_left by lra. rewrite Ropp_0. apply Rmax_left; lra. }
    cbv zeta. unR. destruct (Rltb_spec 0 (soc (dec q))); [exact Z|]. destruct (Rltb_spec (soc (dec q)) 0); [exact Z'|exact Z].
  Qed.
  Let l := set_comp_lims v pr e p m c.
  Let old := hyb (row_aux a (@zero_row R RNum)).
  Lemma en_hyb q : set_hybrid_cont_calcs v e p m l q c old = set_hybrid_cont_calcs v e p' m' l q c old.
  Proof.
    destruct en_misc as [A _]. destruct en_lims_0 as (L1 & L2 & L3). pose proof EO as (E1 & E2 & E3 & E4 & E5 & E6 & _).
    unfold set_hybrid_cont_calcs, calc_regen_buff, calc_accel_buff, calc_elec_req_4ae. rewrite E1, A.
    cbv zeta. fold l in L1, L2, L3. change (ess_regen_buff_dischg_kw old) with 0. change (max_ess_regen_buff_chg_kw old) with 0.
    change (ess_accel_buff_chg_kw old) with 0. change (max_ess_accell_buff_dischg_kw old) with 0. change (@n0 R RNum) with 0.
    rewrite !(en_can l) by auto. rewrite !(en_dis _ l) by auto. now rewrite (nr_on _ _ NR).
  Qed.
  Lemma en_dec q h f o : set_hybrid_cont_decisions v e p m l q h f c o = set_hybrid_cont_decisions v e p' m' l q h f c o.
  Proof.
    destruct en_misc as [A _]. pose proof EO as (E1 & E2 & E3 & E4 & E5 & E6 & _).
    unfold set_hybrid_cont_decisions, calc_ess_if_fc_req, calc_ess_out, calc_ess_cur_kwh. cbv zeta.
    rewrite E1, A, E4, (nr_on _ _ NR). unR. destruct (Reqb_spec 0 0); [|lra]. cbn [orb]. reflexivity.
  Qed.
  Lemma en_fc q d : set_fc_power v e m l q d = set_fc_power v e m' l q d.
  Proof.
    destruct en_misc as [A _]. pose proof EO as (E1 & E2 & E3 & E4 & E5 & E6 & _).
    unfold set_fc_power, calc_fc_out. rewrite E1, A, en_type. cbn [orb]. reflexivity.
  Qed.
  Let cur := row_aux a (@zero_row R RNum).
  Lemma en_solve : let r := solve_row v pr sp e p cur in let r' := solve_row v pr sp e p' cur in
    lims r = lims r' /\ pwr r = pwr r' /\ spd r = spd r' /\ hyb r = hyb r' /\ forced r = forced r' /\ dec r = dec r' /\
    fc r = fc r' /\ ctl r = ctl r' /\ aux_in_kw (misc r) = aux_in_kw (misc r') /\ max_trac_mps (misc r) = max_trac_mps (misc r').
  Proof.
    cbv zeta. unfold solve_row. change (aux_in_kw (misc cur)) with a. fold m m'.
    change (ctl cur) with c. fold l. rewrite <- en_lims. fold l.
    assert (PW : forall x, set_power_calcs v pr e p' l x = set_power_calcs v pr e p l x).
    { intros x. unfold set_power_calcs. now rewrite (nr_spd _ _ NR). }
    rewrite PW.
    assert (SP : forall q o, set_ach_speed v pr sp e p' l q o = set_ach_speed v pr sp e p l q o).
    { intros q o. unfold set_ach_speed. destruct (cyc_met q); [reflexivity|]. rewrite <- (nr_spd _ _ NR). cbv zeta.
      destruct (grade_loop _ _ _ _ _ _ _ _). now rewrite PW. }
    rewrite SP. destruct (set_ach_speed v pr sp e p l _ _) as [q s]. change (hyb cur) with old.
    rewrite <- en_hyb, <- en_dec, <- en_fc. cbn [lims pwr spd hyb forced dec fc ctl misc].
    destruct en_misc. repeat match goal with |- _ /\ _ => split end; first [assumption | reflexivity].
  Qed.
End Engine.

Lemma but_flags_near r r' : same_but_flags r r' -> near r r'.
Proof. intros (a & b & c & d & e & f & g & h & i & j). constructor; auto; now rewrite f. Qed.
Lemma solve_misc (v : vehicle R) pr sp e p cur : misc (solve_row v pr sp e p cur) = set_misc_calcs v e p (aux_in_kw (misc cur)).
Proof. unfold solve_row. cbv zeta. now destruct (set_ach_speed v pr sp e p _ _ _). Qed.
Lemma engine_rows v pr sp c s s' ovr x y : wf c -> changes_cycle sp = false -> engine_only v ->
  sim_drive_walk (new_sd v pr sp c) s ovr = Ok x -> sim_drive_walk (new_sd v pr sp c) s' ovr = Ok y ->
  (forall i, (1 <= i < length (d_rows x))%nat -> 0 <= aux_in_kw (misc (row_at x i))) ->
  forall i, (1 <= i < length (d_rows x))%nat -> same_but_flags (row_at x i) (row_at y i).
Proof.
  intros W C EO X Y AX. pose proof (new_wf v pr sp c W) as WD.
  destruct (plain_walk _ _ _ _ WD C X) as [X0 XI]. destruct (plain_walk _ _ _ _ WD C Y) as [Y0 YI].
  pose proof (wk_len _ _ _ _ (walk_walked _ _ _ _ WD X)) as L.
  assert (ST : forall i, (1 <= i < length (d_rows x))%nat -> near (row_at x (i - 1)) (row_at y (i - 1)) -> same_but_flags (row_at x i) (row_at y i)).
  { intros i Hi NR. rewrite L in Hi. specialize (AX i). rewrite L in AX. specialize (AX Hi).
    rewrite XI, YI by exact Hi. rewrite XI in AX by exact Hi. unfold plain_row in *. cbv zeta in *. unfold plain_solve in *.
    cbn [d_cyc d_veh d_props d_sp new_sd init_arrays] in *.
    set (a := aux_start ovr (clen c) i) in *. set (e := plain_env (new_sd v pr sp c) ovr i) in *.
    assert (AX' : 0 <= aux_in_kw (set_misc_calcs v e (row_at x (i - 1)) a)) by (rewrite <- (solve_misc v pr sp e _ (row_aux a zero_row)); exact AX).
    pose proof (en_solve v pr sp EO e _ _ a NR AX') as ES. cbv zeta in ES. clear AX AX' XI YI X0 Y0.
    set (r := solve_row v pr sp e (row_at x (i - 1)) _) in *. set (r' := solve_row v pr sp e (row_at y (i - 1)) _) in *.
    clearbody r r'. destruct ES as (a1 & a2 & a3 & a4 & a5 & a6 & a7 & a8 & a9 & a10).
    unfold same_but_flags, row_accel. cbn [lims pwr spd hyb forced dec fc ctl misc].
    rewrite a3, (nr_spd _ _ NR), a2.
    repeat match goal with |- _ /\ _ => split end; first [assumption | reflexivity]. }
  intros i. induction i as [|i IH]; intros Hi; [lia|]. apply ST; [exact Hi|]. rewrite Nat.sub_succ, Nat.sub_0_r.
  destruct i as [|i]; [|apply but_flags_near, IH; lia].
  rewrite X0, Y0. constructor; reflexivity.
Qed.

(** ** Standing still *)
Lemma park_solve v pr sp e p a : mps_ach (spd p) = 0 -> e_mps e = 0 ->
  let r := solve_row v pr sp e p (row_aux a (@zero_row R RNum)) in
  0 <= cur_max_trans_kw_out (lims r) ->
  mps_ach (spd r) = 0 /\ drag_kw (pwr r) = 0 /\ ascent_kw (pwr r) = 0 /\ rr_kw (pwr r) = 0 /\ cyc_tire_inertia_kw (pwr r) = 0 /\
  cyc_whl_kw_req (pwr r) = 0 /\ cyc_regen_brake_kw (pwr r) = 0 /\ cyc_fric_brake_kw (pwr r) = 0 /\
  trans_kw_out_ach (pwr r) = 0 /\ trans_kw_in_ach (pwr r) = 0 /\ cyc_met (pwr r) = true /\ dist_m_ach (spd r) = 0.
Proof.
  intros P E. cbv zeta. unfold solve_row. change (start_speed_of e (spd (row_aux a zero_row))) with (e_mps e). rewrite E.
  set (m := set_misc_calcs v e p _). set (l := set_comp_lims v pr e p m _).
  assert (PW : let q := set_power_calcs v pr e p l 0 in
    drag_kw q = 0 /\ ascent_kw q = 0 /\ rr_kw q = 0 /\ cyc_tire_inertia_kw q = 0 /\ cyc_whl_kw_req q = 0 /\ cyc_regen_brake_kw q = 0 /\
    cyc_fric_brake_kw q = 0 /\ cyc_met q = Rleb 0 (cur_max_trans_kw_out l) /\
    (cyc_met q = true -> trans_kw_out_ach q = 0 /\ trans_kw_in_ach q = 0)).
  { cbv zeta. unfold set_power_calcs. cbv zeta. rewrite P.
    cbn [drag_kw ascent_kw rr_kw cyc_tire_inertia_kw cyc_whl_kw_req cyc_regen_brake_kw cyc_fric_brake_kw cyc_met trans_kw_out_ach trans_kw_in_ach].
    unfold k1000, nsq, ncube. rewrite ?nmin_R, ?nmax_R. unR.
    match goal with |- ?a = 0 /\ ?b = 0 /\ ?c = 0 /\ ?d = 0 /\ ?f = 0 /\ _ =>
      assert (Q1 : a = 0) by (unfold Rdiv; ring); assert (Q2 : b = 0) by (unfold Rdiv; ring);
      assert (Q3 : c = 0) by (unfold Rdiv; ring); assert (Q4 : d = 0) by (unfold Rdiv; ring);
      assert (Q5 : f = 0) by (unfold Rdiv; ring); rewrite Q5, Q1, Q2, Q3, Q4 end.
    match goal with |- _ /\ _ /\ _ /\ _ /\ _ /\ ?g = 0 /\ _ => assert (Q6 : g = 0) end.
    { apply Rmax_right. match goal with |- Rmin ?u ?w <= 0 => pose proof (Rmin_r u w) as Z; replace w with 0 in * by ring end. lra. }
    rewrite Q6. replace (Rmin (0 + 0) 0) with 0 by (rewrite Rplus_0_r, Rmin_left; lra).
    replace (0 + - 0) with 0 by lra. do 6 (split; [reflexivity|]). split; [lra|]. split; [reflexivity|].
    intros ->. split; [reflexivity|]. destruct (Rltb_spec 0 0); [lra|]. ring. }
  set (q := set_power_calcs v pr e p l 0) in *. destruct PW as (a1 & a2 & a3 & a4 & a5 & a6 & a7 & a8 & a9).
  unfold set_ach_speed. destruct (cyc_met q) eqn:M.
  - destruct (a9 eq_refl) as [b1 b2]. cbn [lims pwr spd]. intros _. rewrite E. unfold mkspd_of. cbn [mps_ach dist_m_ach]. unR.
    repeat split; auto. ring.
  - cbv zeta. destruct (grade_loop _ _ _ _ _ _ _ _) as [x n]. cbn [lims]. intros H. symmetry in a8.
    apply Rleb_false in a8. lra.
Qed.
Lemma park_rows v pr sp c s ovr x : wf c -> changes_cycle sp = false -> (forall i, nth i (mps c) 0 = 0) ->
  sim_drive_walk (new_sd v pr sp c) s ovr = Ok x ->
  forall i, (i < length (d_rows x))%nat -> (forall j, (1 <= j <= i)%nat -> 0 <= cur_max_trans_kw_out (lims (row_at x j))) ->
  mps_ach (spd (row_at x i)) = 0 /\ dist_m_ach (spd (row_at x i)) = 0 /\ cyc_met (pwr (row_at x i)) = true /\
  let q := pwr (row_at x i) in
  drag_kw q = 0 /\ accel_kw q = 0 /\ ascent_kw q = 0 /\ rr_kw q = 0 /\ cyc_tire_inertia_kw q = 0 /\
  cyc_whl_kw_req q = 0 /\ cyc_regen_brake_kw q = 0 /\ cyc_fric_brake_kw q = 0 /\ trans_kw_out_ach q = 0 /\ trans_kw_in_ach q = 0.
Proof.
  intros W C Z X. pose proof (new_wf v pr sp c W) as WD. destruct (plain_walk _ _ _ _ WD C X) as [X0 XI].
  pose proof (wk_len _ _ _ _ (walk_walked _ _ _ _ WD X)) as L. rewrite L.
  induction i as [|i IH]; intros Hi HL.
  - rewrite X0. unfold first_row. cbn. unfold cmps. rewrite Z. repeat split.
  - destruct IH as (V & _); [lia|intros; apply HL; lia|].
    assert (HI : (1 <= S i < clen c)%nat) by (cbn in Hi; lia).
    pose proof (HL (S i) ltac:(lia)) as HS. rewrite XI in * by exact HI. rewrite Nat.sub_succ, Nat.sub_0_r in *.
    unfold plain_row in *. cbv zeta in *. unfold plain_solve in *. cbn [d_cyc d_veh d_props d_sp new_sd init_arrays] in *.
    set (a := aux_start ovr (clen c) (S i)) in *. set (e := plain_env (new_sd v pr sp c) ovr (S i)) in *.
    assert (EM : e_mps e = 0) by (unfold e, plain_env; cbn; unfold cmps; apply Z).
    pose proof (park_solve v pr sp e (row_at x i) a V EM HS) as ES. set (r := solve_row v pr sp e (row_at x i) _) in *. clearbody r.
    destruct ES as (a1 & a2 & a3 & a4 & a5 & a6 & a7 & a8 & a9 & a10 & a11 & a12).
    unfold row_accel. cbn [spd pwr drag_kw accel_kw ascent_kw rr_kw cyc_tire_inertia_kw cyc_whl_kw_req cyc_regen_brake_kw cyc_fric_brake_kw cyc_met trans_kw_out_ach trans_kw_in_ach].
    rewrite a1, V. repeat match goal with |- _ /\ _ => split end; try assumption; [reflexivity|]. unfold nsq. unR. unfold Rdiv. ring.
Qed.
