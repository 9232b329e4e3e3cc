(** When set_derived accepts a vehicle (C44). *)
From Coq Require Import Lia.
From Verif Require Import Num Numpy ListFacts CycleModel CycleSpec VehModel SimModel SimState FrameProofs SimSpec SimProofs1 SimProofs3 ResampleProofs VehSpec VehProofs VehProofs2.
Local Open Scope R_scope.

Lemma polyline_range xs ys x y lo hi : on_polyline xs ys x y -> ys <> [] -> increasing xs -> (forall z, In z ys -> lo <= z <= hi) -> lo <= y <= hi.
Proof.
  intros H NE I P. destruct H as [(_ & ->)|[(_ & ->)|(i & a & b & c & d & A & B & C & D & E & ->)]].
  - apply P. destruct ys; [congruence|]. now left.
  - apply P. apply last_In. exact NE.
  - apply nth_error_In in C, D. apply P in C, D.
    assert (AB : a < b) by (eapply I; [|exact A|exact B]; lia).
    assert (0 <= (x - a) / (b - a) <= 1).
    { split; [apply Rmult_le_pos; [lra|left; apply Rinv_0_lt_compat; lra]|]. apply Rmult_le_reg_r with (b - a); [lra|]. unfold Rdiv. rewrite Rmult_assoc, Rinv_l by lra. lra. }
    nra.
Qed.
Lemma polyline_knot xs ys i x y : length ys = length xs -> increasing xs -> nth_error xs i = Some x -> nth_error ys i = Some y -> on_polyline xs ys x y.
Proof.
  intros L I X Y. assert (LI : (i < length xs)%nat) by (apply nth_error_Some; congruence).
  destruct (nth_error xs (S i)) as [b|] eqn:B.
  - right; right. assert (LJ : (S i < length ys)%nat) by (rewrite L; apply nth_error_Some; congruence).
    assert (AB : x < b) by (eapply I; [|exact X|exact B]; lia).
    destruct (nth_error ys (S i)) as [d|] eqn:D; [|apply nth_error_None in D; lia].
    exists i, x, b, y, d. repeat split; auto; try lra. all: field; lra.
  - right; left. apply nth_error_None in B. rewrite !last_nth.
    assert (XE : nth (length xs - 1) xs 0 = x) by (apply nth_error_nth; rewrite <- X; f_equal; lia).
    assert (YE : nth (length ys - 1) ys 0 = y) by (apply nth_error_nth; rewrite <- Y; f_equal; lia).
    rewrite XE, YE. split; [lra|reflexivity].
Qed.
Lemma accepts (v : vehicle R) m :
  is_template v = false ->
  (veh_pt_type v = BEV -> fs_max_kw v = 0 /\ fs_kwh v = 0 /\ fc_max_kw v = 0) ->
  (veh_pt_type v = CONV -> stop_start v = false -> mc_max_kw v = 0 /\ ess_max_kw v = 0 /\ ess_max_kwh v = 0) ->
  fc_peak_eff_override v = None -> mc_peak_eff_override v = None ->
  fc_pwr_out_perc v <> [] -> length (fc_eff_map v) = length (fc_pwr_out_perc v) -> increasing (fc_pwr_out_perc v) ->
  (forall x, In x (fc_eff_map v) -> 0 <= x < 1) ->
  motor_map_of v m -> length m = length (mc_pwr_out_perc v) -> increasing (mc_pwr_out_perc v) ->
  (forall x, In x m -> 0 <= x < 1) ->
  (exists i k x, (1 <= k < 100)%nat /\ nth_error (mc_pwr_out_perc v) i = Some (INR k / 100) /\ nth_error m i = Some x /\ is_max x m) ->
  exists v', set_derived v = Ok v'.
Proof.
  intros T CB CC FN MN F0 F1 F2 F3 MM M1 M2 M3 (i & k & x & K & XI & YI & MX).
  assert (UM : m = used_map v).
  { pose proof (used_map_of v) as U. unfold motor_map_of in *. destruct (mc_eff_map v); [congruence|]. destruct MM as (A1 & A2), U as (B1 & B2).
    apply nth_ext with 0 0; [congruence|]. intros n NL. rewrite A1 in NL. rewrite A2, B2 by exact NL. reflexivity. }
  subst m. assert (P0 : mc_pwr_out_perc v <> []) by (intros Q; rewrite Q in XI; destruct i; discriminate).
  assert (U0 : used_map v <> []) by (intros Q; rewrite Q in YI; destruct i; discriminate).
  assert (FE : fc_eff_map v <> []) by (intros Q; rewrite Q in F1; destruct (fc_pwr_out_perc v); [congruence|discriminate]).
  assert (N1 : forall xs xp fp : list R, xp <> [] -> length fp = length xp -> np_interp xs xp fp = Ok (interp xs xp fp)).
  { intros xs xp fp A B. unfold np_interp. destruct xp; [congruence|]. rewrite <- B. now rewrite Nat.eqb_refl. }
  set (fce := interp fc_perc_out_array (fc_pwr_out_perc v) (fc_eff_map v)).
  set (mcf0 := interp mc_perc_out_array (mc_pwr_out_perc v) (used_map v)).
  assert (L0 : length mcf0 = 101%nat) by (unfold mcf0; rewrite interp_len; apply motor_grid_len).
  assert (FX : exists mcf, fix_ends mcf0 (used_map v) = Ok mcf).
  { unfold fix_ends. destruct (used_map v) as [|e0 e]; [congruence|]. rewrite pyget_last. cbn [bindR]. destruct mcf0; [discriminate|]. eauto. }
  destruct FX as (mcf & FX). destruct (fix_ends_ok _ _ _ FX) as (L1 & _ & T0 & T1 & TM); [lia|]. rewrite L0 in *. change (101 - 1)%nat with 100%nat in *.
  assert (EX : exists mx, lmax (n0 :: zipw ndiv (tl (grid_kw v)) (tl mcf)) = Ok mx) by (cbn [lmax]; eauto). destruct EX as (mx & EX).
  assert (FR : forall y, In y fce -> 0 <= y < 1).
  { intros y Y. unfold fce, interp in Y. apply in_map_iff in Y as (u & <- & _).
    assert (PL := interp1_polyline (fc_pwr_out_perc v) (fc_eff_map v) u F0 F1 F2).
    assert (MF : exists q, is_max q (fc_eff_map v)) by (destruct (fc_eff_map v) as [|b l]; [congruence|]; exists (amax (b :: l)); now apply lmax_max).
    destruct MF as (q & Q1 & Q2). destruct (F3 q Q1).
    pose proof (polyline_range _ _ _ _ 0 q PL FE F2 (fun z Z => conj (proj1 (F3 z Z)) (Q2 z Z))). lra. }
  assert (MR : forall j, (j < 101)%nat -> 0 <= nth j mcf 0 <= x).
  { destruct MX as (X1 & X2). destruct (M3 x X1) as (X3 & X4). intros j J. destruct (Nat.eq_dec j 0) as [->|J0]; [rewrite T0; lra|].
    destruct (Nat.eq_dec j 100) as [->|J1]; [rewrite T1; pose proof (last_In (used_map v) 0 U0) as LI; destruct (M3 _ LI); pose proof (X2 _ LI); lra|].
    rewrite TM by lia. unfold mcf0. rewrite interp_nth by (rewrite motor_grid_len; unfold motor_points; lia).
    eapply polyline_range; [apply interp1_polyline; auto|exact U0|exact M2|]. intros q Q. destruct (M3 q Q). specialize (X2 q Q). lra. }
  assert (KX : nth k mcf 0 = x).
  { rewrite TM by lia. unfold mcf0. rewrite interp_nth by (rewrite motor_grid_len; unfold motor_points; lia). rewrite motor_grid by (unfold motor_points; lia).
    apply (on_polyline_unique (mc_pwr_out_perc v) (used_map v) (INR k / 100)); auto; [now apply interp1_polyline|]. now apply (polyline_knot _ _ i). }
  assert (MXF : is_max x mcf).
  { split; [rewrite <- KX; apply nth_In; lia|]. intros y Y. apply (In_nth _ _ 0) in Y as (j & J & <-). apply MR. lia. }
  exists (set_veh_mass (before_mass v fce mcf mx fce (fc_eff_map v) (used_map v) mcf)).
  apply (set_derived_close _ _ fce mcf0 mcf mx fce (fc_eff_map v) (used_map v) mcf). constructor.
  - apply (check_pt_spec v T). auto.
  - now apply N1.
  - now apply N1.
  - exact FX.
  - exact EX.
  - auto.
  - rewrite FN. discriminate.
  - auto.
  - rewrite MN. discriminate.
  - assert (FL : fce <> []). { intros Q. assert (LF : length fce = engine_points) by (unfold fce; rewrite interp_len; apply engine_grid_len). rewrite Q in LF. discriminate. }
    destruct (lmin_some fce FL) as (a & A1 & A2). { intros y Y. apply (FR y Y). }
    assert (ML : mcf <> []). { intros Q. rewrite Q in L1. discriminate. }
    destruct (lmin_some mcf ML) as (c & C1 & C2). { intros y Y. apply (In_nth _ _ 0) in Y as (j & J & <-). apply MR. lia. }
    assert (BX : exists b, lmax fce = Ok b) by (destruct fce; [congruence|cbn; eauto]). destruct BX as (b & B1).
    exists a, b, c, x, x. split; [exact A1|]. split; [unR; now apply Rleb_true|]. split; [exact B1|]. split; [unR; apply Rltb_true; apply FR, (lmax_max _ _ B1)|].
    split; [exact C1|]. split; [unR; now apply Rleb_true|]. split; [now apply lmax_some|]. split; [now apply lmax_some|]. split; [unR; now apply Reqb_true|].
    unR. apply Rltb_true. apply M3, MX.
  - reflexivity.
Qed.
Lemma parameters_kept (v v' : vehicle R) : set_derived v = Ok v' -> same_parameters v v'.
Proof.
  intros H. open_dv H OD. rewrite (od_v' _ _ _ _ _ _ _ _ _ _ OD). unfold set_veh_mass. destruct (use_override _); unfold same_parameters; repeat split.
Qed.
(** The motor map is fixed by the first derivation. *)
Lemma stale_motor_map (v v' v'' : vehicle R) x : set_derived v = Ok v' -> mc_peak_eff_override v = None ->
  set_derived (with_mc_max_kw v' x) = Ok v'' -> exists m, motor_map_of v m /\ mc_eff_map v'' = Some m /\ mc_eff_array v'' = m.
Proof.
  intros H MN H2. exists (used_map v). split; [apply used_map_of|].
  open_dv H OD. destruct (od_mc_none _ _ _ _ _ _ _ _ _ _ OD MN) as (D1 & D2).
  assert (V : v' = set_veh_mass (before_mass v fce mcf mx arr map_ mce' mcf')) by apply OD.
  assert (U : used_map (with_mc_max_kw v' x) = used_map v).
  { rewrite <- D1. rewrite V. unfold set_veh_mass. destruct (use_override _); reflexivity. }
  assert (MN2 : mc_peak_eff_override (with_mc_max_kw v' x) = None).
  { rewrite <- MN, V. unfold set_veh_mass. destruct (use_override _); reflexivity. }
  clear - U MN2 H2. open_dv H2 OD. destruct (od_mc_none _ _ _ _ _ _ _ _ _ _ OD MN2) as (E1 & E2).
  rewrite (od_v' _ _ _ _ _ _ _ _ _ _ OD). set (w := before_mass _ _ _ _ _ _ _ _).
  assert (Q1 : mc_eff_map (set_veh_mass w) = Some mce') by unmass. assert (Q2 : mc_eff_array (set_veh_mass w) = mce') by unmass.
  rewrite Q1, Q2, E1, U. auto.
Qed.
