(** C125: engine, cabin and HVAC in the compiled thermal model.  C126: exhaust port and catalyst.  C127: fuel and auxiliary load
    that follow from the temperatures.  [s] is the state before a thermal step and [s'] the state after it. *)
From Coq Require Import Floats Lia.
From Verif Require Import Num FloatNum Numpy SimModel SimState UtilModel WalkProofs3 RustUtilModel RustUtilProps RustAirProofs RustThermalModel RustThermalProofs.
Local Open Scope R_scope.
Local Set Warnings "-inexact-float".

(** The ambient temperature of a step: the entry given for it, or that of the state. *)
Definition outside (d : drive R) (s : thermal R) : R := match d_amb d with Some a => a | None => th_amb s end.

(** ** C125 *)
(** *** A step is defined *)
Theorem C125_defined (pp : pprops R) p d s : 0 < vt_tstat_delta p -> 0 < vt_fc_l p -> 0 < vt_cat_l p ->
  (forall h, th_hvac s = Some h -> -27315 / 100 < cab_te (th_cab s) /\ 0 < hv_frac h /\ (hv_waste h = false \/ d_bev d = false)) ->
  exists s', set_thermal pp p d s = Ok s'.
Proof. apply step_defined. Qed.

(** *** Engine *)
(** Of the heat the engine gives off a share between none and all warms the engine, the rest leaves with the exhaust,
    and the temperature follows the balance of heat made, lost to the air and given to the heater. *)
Theorem C125_engine (pp : pprops R) p d s s' : set_thermal pp p d s = Ok s' -> vt_fc_model p <> None -> vt_fc_c p <> 0 ->
  vt_fc_c p * (fc_te (th_fc s') - fc_te (th_fc s)) = (fc_qdot (th_fc s') - fc_to_amb (th_fc s') - fc_to_htr (th_fc s')) * d_dt d /\
  0 <= fc_share (th_fc s') <= 1 /\ fc_qdot (th_fc s') = fc_share (th_fc s') * (d_kw_in d - d_kw_out d) /\
  (vt_exh_internal p = true -> fc_qdot (th_fc s') + exh_hdot (th_exh s') = d_kw_in d - d_kw_out d).
Proof.
  intros E M C. apply step_ok in E. destruct E as (fc & EF & _ & (fce & _ & F2 & _ & _ & EE) & _ & _ & _ & E2 & E3 & E4 & _ & _ & ET).
  destruct (vt_fc_model p); [|congruence]. apply fc_ok in EF. destruct EF as (ad & pa & htc & sh & -> & HS & _).
  cbn [fc_te fc_share fc_qdot fc_to_amb fc_to_htr] in *. rewrite ET, E2, E3, E4.
  split; [field; exact C|]. split; [rewrite HS; split; [apply Rmax_r|apply Rmax_lub; [apply Rmin_r|lra]]|]. split; [reflexivity|].
  intros X. rewrite X in EE. apply exh_ok in EE. destruct EE as (_ & -> & _). rewrite F2. ring.
Qed.
(** The colder the engine is against the flame, the larger the share. *)
Theorem C125_engine_share (pp : pprops R) p d s s' : set_thermal pp p d s = Ok s' -> vt_fc_model p <> None ->
  fc_share (th_fc s') = Rmax (Rmin (vt_fc_comb p * (fc_adiabatic (th_fc s') - fc_te (th_fc s))) 1) 0.
Proof.
  intros E M. apply step_ok in E. destruct E as (fc & EF & _ & _ & _ & _ & _ & E2 & _ & _ & _ & E7 & _).
  destruct (vt_fc_model p); [|congruence]. apply fc_ok in EF. destruct EF as (ad & pa & htc & sh & -> & HS & _).
  cbn [fc_adiabatic fc_share] in *. rewrite E2, E7. exact HS.
Qed.
(** The loss to the air flows from hot to cold; below the thermostat's range it is passive, above it [rad_eps] times that. *)
Theorem C125_engine_loss (pp : pprops R) p d s s' : set_thermal pp p d s = Ok s' -> vt_fc_model p <> None ->
  0 < vt_fc_l p -> 0 < vt_tstat_delta p -> 0 <= vt_fc_htc_stop p -> 1 <= vt_rad_eps p ->
  exists passive htc, 0 <= passive /\ passive <= htc <= passive * vt_rad_eps p /\ (d_mps d < 1 -> passive = vt_fc_htc_stop p) /\
    (fc_te (th_fc s) <= vt_tstat_sto p -> htc = passive) /\ (vt_tstat_sto p + vt_tstat_delta p <= fc_te (th_fc s) -> htc = passive * vt_rad_eps p) /\
    fc_to_amb (th_fc s') = htc / 1000 * area_ext (vt_fc_l p) * (fc_te (th_fc s) - outside d s) /\ 0 <= area_ext (vt_fc_l p).
Proof.
  intros E M L D HS EP. apply step_ok in E. destruct E as (fc & EF & _ & _ & _ & _ & _ & _ & _ & E4 & _).
  destruct (vt_fc_model p); [|congruence]. apply fc_ok in EF. destruct EF as (ad & pa & htc & sh & -> & _ & P1 & P2 & EI). cbn [fc_to_amb] in E4.
  assert (P : 0 <= pa) by (destruct (Rlt_le_dec (d_mps d) 1); [rewrite P1 by assumption; assumption|apply P2; assumption]).
  destruct (tstat_value (fc_te (th_fc s)) (vt_tstat_sto p) (vt_tstat_sto p + vt_tstat_delta p) pa (pa * vt_rad_eps p) ltac:(lra)) as (y & EY & Y1 & Y2 & Y3).
  assert (y = htc) by congruence. subst y. assert (LT : vt_tstat_sto p < vt_tstat_sto p + vt_tstat_delta p) by lra. pose proof (between_ends _ _ _ _ _ _ LT Y1 Y2 Y3) as B.
  assert (pa <= pa * vt_rad_eps p) by nra. rewrite Rmin_left, Rmax_right in B by assumption. exists pa, htc. unfold ambient in E4. unfold outside.
  repeat split; try tauto; try lra. apply area_pos.
Qed.
Lemma soak_step (pp : pprops R) p d s s' : set_thermal pp p d s = Ok s' -> vt_fc_model p <> None -> th_hvac s = None -> fc_to_htr (th_fc s) = 0 ->
  0 < vt_fc_l p -> 0 < vt_tstat_delta p -> 0 <= vt_fc_htc_stop p -> 1 <= vt_rad_eps p -> 0 < vt_fc_c p ->
  d_kw_in d = d_kw_out d -> d_mps d < 1 -> 0 <= d_dt d -> d_amb d = None ->
  vt_fc_htc_stop p * vt_rad_eps p * area_ext (vt_fc_l p) * d_dt d <= 1000 * vt_fc_c p ->
  th_hvac s' = None /\ fc_to_htr (th_fc s') = 0 /\ th_amb s' = th_amb s /\
  exists w, 0 <= w <= 1 /\ fc_te (th_fc s') - th_amb s = w * (fc_te (th_fc s) - th_amb s).
Proof.
  intros E M NH NQ L D HS EP C KW MPS DT AM LIM.
  destruct (C125_engine _ _ _ _ _ E M ltac:(lra)) as (BAL & _ & Q & _).
  destruct (C125_engine_loss _ _ _ _ _ E M L D HS EP) as (pa & htc & P0 & PB & PS & _ & _ & LOSS & AP). rewrite PS in PB by exact MPS.
  apply step_ok in E. destruct E as (fc & EF & EH & _ & _ & EA & _). rewrite NH in EH. destruct EH as (_ & H1 & H2).
  destruct (vt_fc_model p); [|congruence]. apply fc_ok in EF. destruct EF as (ad & pa' & htc' & sh & -> & _). cbn [fc_to_htr] in H2. rewrite NQ in H2.
  split; [exact H1|]. split; [exact H2|]. unfold ambient in EA. rewrite AM in EA. split; [exact EA|].
  unfold outside in LOSS. rewrite AM in LOSS. rewrite H2, LOSS, Q, KW in BAL.
  set (a := area_ext (vt_fc_l p)) in *. set (T := fc_te (th_fc s)) in *. set (T' := fc_te (th_fc s')) in *. set (A := th_amb s) in *. clearbody a.
  assert (W : 0 <= htc * a * d_dt d <= 1000 * vt_fc_c p).
  { split; [repeat apply Rmult_le_pos; lra|]. eapply Rle_trans; [|exact LIM]. apply Rmult_le_compat_r; [exact DT|]. apply Rmult_le_compat_r; lra. }
  exists (1 - htc * a * d_dt d / (1000 * vt_fc_c p)). split.
  - assert (0 <= htc * a * d_dt d / (1000 * vt_fc_c p) <= 1) by (apply slope_in; lra). lra.
  - apply (Rmult_eq_reg_l (vt_fc_c p)); [|lra]. replace (vt_fc_c p * (T' - A)) with (vt_fc_c p * (T' - T) + vt_fc_c p * (T - A)) by ring. rewrite BAL. field. lra.
Qed.
(** Soaking, a stopped engine goes towards the ambient temperature and never past it, over a soak of any length, as long as
    each time step is short against the time constant of the engine. *)
Theorem C125_soak (pp : pprops R) p ds s s' : thermal_walk pp p ds s = Ok s' -> vt_fc_model p <> None -> th_hvac s = None -> fc_to_htr (th_fc s) = 0 ->
  0 < vt_fc_l p -> 0 < vt_tstat_delta p -> 0 <= vt_fc_htc_stop p -> 1 <= vt_rad_eps p -> 0 < vt_fc_c p ->
  (forall d, In d ds -> d_kw_in d = d_kw_out d /\ d_mps d < 1 /\ 0 <= d_dt d /\ d_amb d = None /\
     vt_fc_htc_stop p * vt_rad_eps p * area_ext (vt_fc_l p) * d_dt d <= 1000 * vt_fc_c p) ->
  exists w, 0 <= w <= 1 /\ fc_te (th_fc s') - th_amb s = w * (fc_te (th_fc s) - th_amb s).
Proof.
  intros E M NH NQ L D HS EP C. revert s NH NQ E. induction ds as [|d ds IH]; intros s NH NQ E ALL; cbn [thermal_walk] in E.
  - exists 1. injection E as <-. split; [lra|ring].
  - destruct (set_thermal pp p d s) as [s1|] eqn:E1; [|discriminate]. cbn [bindR] in E.
    destruct (ALL d (or_introl eq_refl)) as (A1 & A2 & A3 & A4 & A5).
    destruct (soak_step _ _ _ _ _ E1 M NH NQ L D HS EP C A1 A2 A3 A4 A5) as (N1 & N2 & N3 & w & W & EW).
    destruct (IH s1 N1 N2 E (fun x I => ALL x (or_intror I))) as (v & V & EV). rewrite N3, EW in EV.
    exists (v * w). split; [split; nra|]. rewrite EV. ring.
Qed.
Example C125_soak_run :
  (match thermal_walk r_default_props (default_vthermal false false) [mkdrive 0 0 0 0 0 60 None false; mkdrive 0 0 0 0 0 60 None false]
           (new_thermal (Some 20) (Some 80) None None None None) with
   | Ok s => (72 <? fc_te (th_fc s)) && (fc_te (th_fc s) <? 73) | Err _ => false end = true)%float.
Proof. vm_compute. reflexivity. Qed.
(** With time steps of an hour the engine of the default vehicle ends a soak at 20 degrees far below 0. *)
Theorem C125_soak_refuted : exists (d : drive R) s', d_kw_in d = 0 /\ d_kw_out d = 0 /\ d_mps d = 0 /\ d_dt d = 3600 /\
  set_thermal r_default_props (default_vthermal false false) d (new_thermal (Some 20) (Some 80) None None None None) = Ok s' /\
  th_amb s' = 20 /\ fc_te (th_fc s') < -100.
Proof.
  set (p := default_vthermal false false). set (s := new_thermal (Some 20) (Some 80) None None None None).
  set (d := mkdrive 0 0 0 0 0 3600 None false). exists d.
  destruct (C125_defined r_default_props p d s) as (s' & E); try (cbn; unR; rewrite ?lit_R; lra). { intros h H. discriminate H. }
  exists s'. split; [reflexivity|]. split; [reflexivity|]. split; [reflexivity|]. split; [reflexivity|]. split; [exact E|].
  destruct (C125_engine _ _ _ _ _ E) as (BAL & _ & Q & _); [discriminate|cbn; unR; lra|].
  destruct (C125_engine_loss _ _ _ _ _ E) as (pa & htc & _ & _ & PS & LO & _ & LOSS & _); try discriminate; try (cbn; unR; lra).
  pose proof (step_ok _ _ _ _ _ E) as (fc & EF & EH & _ & _ & EA & _). split; [exact EA|]. cbn [th_hvac s new_thermal] in EH. destruct EH as (_ & _ & EQ).
  change (vt_fc_model p) with (Some (@Exponential R n0 (nofZ 25) (lit 2 10), FuelConverter)) in EF. cbn match in EF. apply fc_ok in EF. destruct EF as (ad & pa' & htc' & sh & -> & _). cbn [fc_to_htr th_fc s new_thermal] in EQ.
  rewrite EQ, LOSS, Q in BAL. rewrite LO, PS in BAL by (cbn; unR; lra).
  change (vt_fc_l p) with 1 in BAL. rewrite area_value, sqrt_1 in BAL by lra. unfold f64_pi in BAL. rewrite lit_R in BAL. cbn in BAL. unR. lra.
Qed.

(** *** Cabin *)
(** The cabin follows its heat balance; what it loses to the air flows from hot to cold. *)
Theorem C125_cabin (pp : pprops R) p d s s' h : set_thermal pp p d s = Ok s' -> th_hvac s = Some h -> vt_cab_c p <> 0 ->
  vt_cab_c p * (cab_te (th_cab s') - cab_te (th_cab s)) = (cab_from_hvac (th_cab s') - cab_to_amb (th_cab s')) * d_dt d /\
  cab_prev (th_cab s') = cab_te (th_cab s) /\
  (0 < vt_cab_len p -> 0 <= vt_cab_width p -> 0 <= vt_cab_r p -> 0 <= vt_cab_htc_stop p ->
   exists g, 0 <= g /\ cab_to_amb (th_cab s') = g * (cab_te (th_cab s) - outside d s)).
Proof.
  intros E H C. apply step_ok in E. destruct E as (fc & _ & EH & _). rewrite H in EH. destruct EH as (h' & EC & _). apply cab_ok in EC.
  destruct EC as (g & EG & T & P & A & _). split; [rewrite T; field; exact C|]. split; [exact P|]. intros L W RR HS.
  destruct (cab_ok_g p d (1 / 2 * (cab_te (th_cab s) + ambient d s))) as (g' & EG' & G). assert (g' = g) by congruence. subst. exists g. split; [auto|exact A].
Qed.
(** At rest the conductance is that of the shell and of still air in series. *)
Theorem C125_cabin_stopped (pp : pprops R) p d s s' h : set_thermal pp p d s = Ok s' -> th_hvac s = Some h -> d_mph d <= 2 ->
  cab_to_amb (th_cab s') = 1 / 1000 * (vt_cab_len p * vt_cab_width p) / (1 / vt_cab_htc_stop p + vt_cab_r p) * (cab_te (th_cab s) - outside d s).
Proof.
  intros E H M. apply step_ok in E. destruct E as (fc & _ & EH & _). rewrite H in EH. destruct EH as (h' & EC & _). apply cab_ok in EC.
  destruct EC as (g & EG & _ & _ & A & _). rewrite A. unfold cab_conductance in EG.
  match type of EG with context [get_mu ?x] => destruct (some_mu x) as (mu & EM & _); rewrite EM in EG; destruct (some_pr x) as (pr & EP & _); rewrite EP in EG;
    destruct (some_k x) as (k & EK & _); rewrite EK in EG end. cbn [bindR] in EG. unR. rewrite ?lit_R in EG. destruct (Rltb_spec 2 (d_mph d)); [lra|]. injection EG as <-. reflexivity.
Qed.
(** Within the deadband there is no heating or cooling; above it the cabin is only cooled, below it only heated.  The electric power stays
    within its limit and moves heat in proportion; heat from the engine is the engine's loss, and flows only if the engine is warmer. *)
Theorem C125_hvac (pp : pprops R) p d s s' h : set_thermal pp p d s = Ok s' -> th_hvac s = Some h -> 0 <= hv_band h -> 0 <= hv_aux_max h ->
  exists h', th_hvac s' = Some h' /\
  (hv_set h - hv_band h <= cab_te (th_cab s) <= hv_set h + hv_band h -> cab_from_hvac (th_cab s') = 0) /\
  (hv_set h + hv_band h < cab_te (th_cab s) ->
     0 <= cab_aux (th_cab s') <= hv_aux_max h /\ 0 < hv_cop h' /\ cab_from_hvac (th_cab s') = - (hv_cop h' * cab_aux (th_cab s')) /\ cab_from_hvac (th_cab s') <= 0 /\
     (0 <= hv_max h -> - hv_max h <= cab_from_hvac (th_cab s'))) /\
  (cab_te (th_cab s) < hv_set h - hv_band h -> hv_waste h = false ->
     0 <= cab_aux (th_cab s') <= hv_aux_max h /\ 0 < hv_cop h' /\ cab_from_hvac (th_cab s') = hv_cop h' * cab_aux (th_cab s') /\
     (0 <= hv_max h -> cab_from_hvac (th_cab s') <= hv_max h)) /\
  (cab_te (th_cab s) < hv_set h - hv_band h -> hv_waste h = true ->
     d_bev d = false /\ 0 <= cab_from_hvac (th_cab s') /\ fc_to_htr (th_fc s') = cab_from_hvac (th_cab s') /\
     (0 <= hv_max h -> cab_from_hvac (th_cab s') <= hv_max h) /\
     (0 < vt_cab_c p -> 0 < d_dt d -> 0 < cab_from_hvac (th_cab s') ->
        cab_from_hvac (th_cab s') * d_dt d <= vt_cab_c p * (fc_te (th_fc s) - cab_te (th_cab s)) / 10)).
Proof.
  intros E H B AM. apply step_ok in E. destruct E as (fc & EF & EH & _). rewrite H in EH. destruct EH as (h' & EC & EH'). exists h'. split; [exact EH'|].
  assert (TE : fc_te fc = fc_te (th_fc s)).
  { destruct (vt_fc_model p); [|now subst]. apply fc_ok in EF. destruct EF as (? & ? & ? & ? & -> & _). reflexivity. }
  rewrite TE in EC. apply cab_ok in EC. destruct EC as (g & _ & _ & _ & _ & _ & _ & _ & _ & _ & _ & BAND & COOL & HEAT & _).
  assert (RNG : forall x, 0 <= Rmax (Rmin x (hv_aux_max h)) 0 <= hv_aux_max h).
  { intros x. split; [apply Rmax_r|apply Rmax_lub; [apply Rmin_r|exact AM]]. }
  assert (SM : forall w cop, 0 < cop -> 0 <= hv_max h -> w <= hv_max h -> Rmax (Rmin (w / cop) (hv_aux_max h)) 0 * cop <= hv_max h).
  { intros w cop PC PM WM. unfold Rmax. destruct (Rle_dec (Rmin (w / cop) (hv_aux_max h)) 0); [lra|].
    eapply Rle_trans; [apply Rmult_le_compat_r; [lra|apply Rmin_l]|]. unfold Rdiv. rewrite Rmult_assoc, Rinv_l by lra. lra. }
  split; [intros X; apply BAND; exact X|]. split; [|split].
  - intros X. destruct (COOL X) as (PC & EA & EQ & _).
    assert (RA : 0 <= cab_aux (th_cab s') <= hv_aux_max h) by (rewrite EA; apply RNG).
    assert (0 <= cab_aux (th_cab s') * hv_cop h') by (apply Rmult_le_pos; lra).
    split; [exact RA|]. split; [exact PC|]. rewrite EQ. split; [ring|]. split; [lra|]. intros PM.
    assert (- Rmax (- hv_p h' - hv_i h' - hv_d h') (- hv_max h) <= hv_max h) as WM by (pose proof (Rmax_r (- hv_p h' - hv_i h' - hv_d h') (- hv_max h)); lra).
    pose proof (SM _ _ PC PM WM) as Z. rewrite <- EA in Z. lra.
  - intros X NW. destruct (HEAT X B) as (PC & _ & want & EW & Y). rewrite NW in Y. destruct Y as (EA & EQ & _).
    assert (RA : 0 <= cab_aux (th_cab s') <= hv_aux_max h) by (rewrite EA; apply RNG).
    split; [exact RA|]. split; [exact PC|]. rewrite EQ. split; [ring|]. intros PM. rewrite EA. apply SM; [exact PC|exact PM|]. rewrite EW. apply Rmin_r.
  - intros X NW. destruct (HEAT X B) as (PC & _ & want & EW & Y). rewrite NW in Y. destruct Y as (BV & EQ & _ & Q). split; [exact BV|]. rewrite Q. split; [rewrite EQ; apply Rmax_r|].
    split; [reflexivity|]. split.
    + intros PM. rewrite EQ. apply Rmax_lub; [|exact PM]. eapply Rle_trans; [apply Rmin_l|]. rewrite EW. apply Rmin_r.
    + intros C D PQ. rewrite EQ in PQ |- *.
      match type of PQ with 0 < Rmax ?x 0 => assert (Rmax x 0 = x) as -> by (unfold Rmax in *; destruct (Rle_dec x 0); lra) end.
      apply (Rle_trans _ ((fc_te (th_fc s) - cab_te (th_cab s)) * (1 / 10) * vt_cab_c p / d_dt d * d_dt d)); [apply Rmult_le_compat_r; [lra|apply Rmin_r]|]. right. field. lra.
Qed.
(** Over a run of any length the electric power of the HVAC stays between nothing and its limit. *)
Theorem C125_hvac_power (pp : pprops R) p ds s s' h : thermal_walk pp p ds s = Ok s' -> th_hvac s = Some h -> 0 <= hv_band h -> 0 <= cab_aux (th_cab s) <= hv_aux_max h ->
  0 <= cab_aux (th_cab s') <= hv_aux_max h.
Proof.
  revert s h. induction ds as [|d ds IH]; intros s h E H B A; cbn [thermal_walk] in E; [injection E as <-; exact A|].
  destruct (set_thermal pp p d s) as [s1|] eqn:E1; [|discriminate]. cbn [bindR] in E.
  pose proof (step_ok _ _ _ _ _ E1) as (fc & _ & EH & _). rewrite H in EH. destruct EH as (h1 & EC & EH1).
  apply cab_ok in EC. destruct EC as (g & _ & _ & _ & _ & S1 & S2 & S3 & S4 & _ & _ & BAND & COOL & HEAT & _).
  rewrite <- S3. apply (IH s1 h1 E EH1); [now rewrite S2|]. rewrite S3.
  destruct (Rle_lt_dec (hv_set h - hv_band h) (cab_te (th_cab s))) as [L1|L1]; [destruct (Rle_lt_dec (cab_te (th_cab s)) (hv_set h + hv_band h)) as [L2|L2]|].
  - destruct (BAND (conj L1 L2)) as (_ & -> & _). exact A.
  - destruct (COOL L2) as (_ & -> & _). split; [apply Rmax_r|apply Rmax_lub; [apply Rmin_r|lra]].
  - destruct (HEAT L1 B) as (_ & _ & want & _ & Y). destruct (hv_waste h); [destruct Y as (_ & _ & -> & _); exact A|]. destruct Y as (-> & _).
    split; [apply Rmax_r|apply Rmax_lub; [apply Rmin_r|lra]].
Qed.
(** After a second of cooling that brings the cabin of a default vehicle into the deadband, the HVAC moves no heat but its electric power is
    still drawn: the code leaves it as it was. *)
Theorem C125_band_power_refuted : exists (p : vthermal R) d s s1 s2 h, p = default_vthermal false false /\
  s = new_thermal (Some 22) None (Some (230001 / 10000)) None None (Some default_hvac) /\
  set_thermal r_default_props p d s = Ok s1 /\ set_thermal r_default_props p d s1 = Ok s2 /\ th_hvac s1 = Some h /\
  hv_set h - hv_band h <= cab_te (th_cab s1) <= hv_set h + hv_band h /\ cab_from_hvac (th_cab s2) = 0 /\ 0 < cab_aux (th_cab s2).
Proof.
  set (p := default_vthermal false false). set (h := @default_hvac R RNum). set (s := new_thermal (Some 22) None (Some (230001 / 10000)) None None (Some h)).
  set (d := mkdrive 0 0 0 0 0 1 None false). exists p, d, s.
  assert (HF : hv_set h = 22 /\ hv_band h = 1 /\ hv_max h = 5 /\ hv_aux_max h = 5 /\ hv_p_gain h = 1 / 10 /\ hv_i_gain h = 1 / 100 /\ hv_d_gain h = 1 / 10 /\
    hv_i h = 0 /\ 0 < hv_frac h /\ cab_te (th_cab s) = 230001 / 10000 /\ cab_prev (th_cab s) = 230001 / 10000).
  { cbn. unR. rewrite ?lit_R. repeat split; try reflexivity; lra. }
  destruct HF as (F1 & F2 & F3 & F4 & F5 & F6 & F7 & F8 & F9 & F10 & F11).
  destruct (C125_defined r_default_props p d s) as (s1 & E1); try (cbn; unR; rewrite ?lit_R; lra).
  { intros x [= <-]. rewrite F10. split; [lra|]. split; [exact F9|]. right. reflexivity. }
  destruct (C125_cabin _ _ _ _ _ h E1 eq_refl) as (BAL & _ & _); [cbn; unR; lra|].
  pose proof (C125_cabin_stopped _ _ _ _ _ h E1 eq_refl ltac:(cbn; lra)) as LOSS.
  destruct (C125_hvac _ _ _ _ _ h E1 eq_refl) as (h' & EH' & _ & COOL & _); [lra|lra|]. specialize (COOL ltac:(lra)). destruct COOL as (_ & _ & _ & Q1 & Q2). specialize (Q2 ltac:(lra)).
  pose proof (step_ok _ _ _ _ _ E1) as (fc & _ & EH & _). change (th_hvac s) with (Some h) in EH. cbn match in EH. destruct EH as (h1 & EC & EH1).
  assert (h1 = h') by congruence. subst h1. apply cab_ok in EC. destruct EC as (g & _ & _ & _ & _ & S1 & S2 & S3 & S4 & _ & SF & _ & CC & _ & PD).
  specialize (CC ltac:(lra)). destruct CC as (PC & EA & _ & _ & EI). specialize (PD ltac:(lra)). destruct PD as (_ & EP & ED).
  change (d_dt d) with 1 in EI, ED, BAL. change (outside d s) with 22 in LOSS. change (vt_cab_c p) with 125 in BAL. rewrite F8, F6, F10, F1, F3 in EI. rewrite F5, F10, F1 in EP. rewrite F7, F10, F11 in ED.
  assert (EI' : hv_i h' = 10001 / 1000000) by (rewrite EI, Rmax_left by lra; rewrite Rmin_left by lra; lra).
  assert (EP' : hv_p h' = 10001 / 100000) by lra. assert (ED' : hv_d h' = 0) by (rewrite ED; field).
  assert (AUX : 0 < cab_aux (th_cab s1)).
  { rewrite EA, F3, F4, EI', EP', ED'. rewrite (Rmax_left (- _ - _ - _)) by lra.
    set (w := _ / hv_cop h'). assert (0 < w) by (unfold w; apply Rdiv_lt_0_compat; lra).
    apply (Rlt_le_trans _ (Rmin w 5)); [apply Rmin_glb_lt; lra|apply Rmax_l]. }
  assert (L1 : cab_to_amb (th_cab s1) = 10001 / 300000). { rewrite LOSS, F10. cbn. unR. rewrite ?lit_R. field. }
  rewrite L1, F10 in BAL. rewrite F3 in Q2.
  assert (IN : hv_set h' - hv_band h' <= cab_te (th_cab s1) <= hv_set h' + hv_band h') by (rewrite S1, S2, F1, F2; lra).
  destruct (C125_defined r_default_props p d s1) as (s2 & E2); try (cbn; unR; rewrite ?lit_R; lra).
  { intros x EX. assert (x = h') by congruence. subst x.
    split; [rewrite S1, S2, F1, F2 in IN; lra|]. split; [lra|right; reflexivity]. }
  exists s1, s2, h'. split; [reflexivity|]. split; [reflexivity|]. split; [exact E1|]. split; [exact E2|]. split; [exact EH'|]. split; [exact IN|].
  pose proof (step_ok _ _ _ _ _ E2) as (fc2 & _ & EH2 & _). rewrite EH' in EH2. destruct EH2 as (h2 & EC2 & _). apply cab_ok in EC2.
  destruct EC2 as (g2 & _ & _ & _ & _ & _ & _ & _ & _ & _ & _ & BB & _). destruct (BB IN) as (Z1 & Z2 & _). split; [exact Z1|]. rewrite Z2. exact AUX.
Qed.
(** Likewise the engine goes on giving heat to a heater that gives none to the cabin. *)
Theorem C125_band_heat_refuted : exists (p : vthermal R) d s s1 s2 h, p = default_vthermal false false /\
  s = new_thermal (Some 22) (Some 90) (Some (209999 / 10000)) None None (Some default_hvac) /\
  set_thermal r_default_props p d s = Ok s1 /\ set_thermal r_default_props p d s1 = Ok s2 /\ th_hvac s1 = Some h /\
  hv_set h - hv_band h <= cab_te (th_cab s1) <= hv_set h + hv_band h /\ cab_from_hvac (th_cab s2) = 0 /\ 0 < fc_to_htr (th_fc s2).
Proof.
  set (p := default_vthermal false false). set (h := @default_hvac R RNum). set (s := new_thermal (Some 22) (Some 90) (Some (209999 / 10000)) None None (Some h)).
  set (d := mkdrive 0 0 0 0 0 1 None false). exists p, d, s.
  assert (HF : hv_set h = 22 /\ hv_band h = 1 /\ hv_max h = 5 /\ hv_aux_max h = 5 /\ hv_p_gain h = 1 / 10 /\ hv_i_gain h = 1 / 100 /\ hv_d_gain h = 1 / 10 /\
    hv_i h = 0 /\ 0 < hv_frac h /\ cab_te (th_cab s) = 209999 / 10000 /\ cab_prev (th_cab s) = 209999 / 10000).
  { cbn. unR. rewrite ?lit_R. repeat split; try reflexivity; lra. }
  destruct HF as (F1 & F2 & F3 & F4 & F5 & F6 & F7 & F8 & F9 & F10 & F11).
  destruct (C125_defined r_default_props p d s) as (s1 & E1); try (cbn; unR; rewrite ?lit_R; lra).
  { intros x [= <-]. rewrite F10. split; [lra|]. split; [exact F9|]. right. reflexivity. }
  destruct (C125_cabin _ _ _ _ _ h E1 eq_refl) as (BAL & _ & _); [cbn; unR; lra|].
  pose proof (C125_cabin_stopped _ _ _ _ _ h E1 eq_refl ltac:(cbn; lra)) as LOSS.
  pose proof (step_ok _ _ _ _ _ E1) as (fc & EF & EH & _). change (th_hvac s) with (Some h) in EH. cbn match in EH. destruct EH as (h' & EC & EH').
  change (vt_fc_model p) with (Some (@Exponential R n0 (nofZ 25) (lit 2 10), FuelConverter)) in EF. cbn match in EF.
  apply fc_ok in EF. destruct EF as (ad & pa' & htc' & sh & -> & _). cbn [fc_te fc_to_htr] in EC. change (fc_te (th_fc s)) with 90 in EC.
  apply cab_ok in EC. destruct EC as (g & _ & _ & _ & _ & S1 & S2 & S3 & S4 & _ & SF & _ & _ & CC & PD).
  specialize (CC ltac:(lra) ltac:(lra)). destruct CC as (PC & EI & want & EW & Y). change (hv_waste h) with true in Y. cbn match in Y. destruct Y as (_ & EQ & _ & EQ').
  specialize (PD ltac:(lra)). destruct PD as (_ & EP & ED).
  change (d_dt d) with 1 in EI, ED, EQ, BAL. change (outside d s) with 22 in LOSS. change (vt_cab_c p) with 125 in BAL, EQ. rewrite F8, F6, F10, F1, F3 in EI. rewrite F5, F10, F1 in EP. rewrite F7, F10, F11 in ED.
  assert (EI' : hv_i h' = - (10001 / 1000000)) by (rewrite EI, Rmin_left by lra; rewrite Rmax_left by lra; lra).
  assert (EP' : hv_p h' = - (10001 / 100000)) by lra. assert (ED' : hv_d h' = 0) by (rewrite ED; field).
  assert (EW' : want = 110011 / 1000000) by (rewrite EW, F3, EI', EP', ED', Rmin_left by lra; lra).
  assert (EQ2 : cab_from_hvac (th_cab s1) = 110011 / 1000000) by (rewrite EQ, EW', F10, Rmin_left, Rmax_left by lra; reflexivity).
  assert (L1 : cab_to_amb (th_cab s1) = - (10001 / 300000)). { rewrite LOSS, F10. cbn. unR. rewrite ?lit_R. field. }
  rewrite L1, F10, EQ2 in BAL.
  assert (IN : hv_set h' - hv_band h' <= cab_te (th_cab s1) <= hv_set h' + hv_band h') by (rewrite S1, S2, F1, F2; lra).
  destruct (C125_defined r_default_props p d s1) as (s2 & E2); try (cbn; unR; rewrite ?lit_R; lra).
  { intros x EX. assert (x = h') by congruence. subst x. split; [rewrite S1, S2, F1, F2 in IN; lra|]. split; [lra|right; reflexivity]. }
  exists s1, s2, h'. split; [reflexivity|]. split; [reflexivity|]. split; [exact E1|]. split; [exact E2|]. split; [exact EH'|]. split; [exact IN|].
  pose proof (step_ok _ _ _ _ _ E2) as (fc2 & EF2 & EH2 & _). rewrite EH' in EH2. destruct EH2 as (h2 & EC2 & _). apply cab_ok in EC2.
  destruct EC2 as (g2 & _ & _ & _ & _ & _ & _ & _ & _ & _ & _ & BB & _). destruct (BB IN) as (Z1 & _ & Z2 & _). split; [exact Z1|]. rewrite Z2.
  change (vt_fc_model p) with (Some (@Exponential R n0 (nofZ 25) (lit 2 10), FuelConverter)) in EF2. cbn match in EF2.
  apply fc_ok in EF2. destruct EF2 as (? & ? & ? & ? & -> & _). cbn [fc_to_htr]. rewrite EQ', EQ2. lra.
Qed.

(** ** C126 *)
(** *** The exhaust *)
(** Mass flow and enthalpy flow; above 0.5 g/s the temperature at the port is that of this enthalpy, at most the flame's. *)
Theorem C126_exhaust (pp : pprops R) p d s s' : set_thermal pp p d s = Ok s' -> vt_exh_internal p = true ->
  exh_mdot (th_exh s') = d_fs_out d / r_get_fuel_lhv pp * (1 + pp_fuel_afr pp * fc_lambda (th_fc s')) /\
  exh_hdot (th_exh s') = (1 - fc_share (th_fc s')) * (d_kw_in d - d_kw_out d) /\
  (5 / 10000 < exh_mdot (th_exh s') -> exists t, get_te_from_h (exh_hdot (th_exh s') * 1000 / exh_mdot (th_exh s')) = Ok t /\
     exh_te_in (th_exh s') = Rmin t (fc_adiabatic (th_fc s'))) /\
  (exh_mdot (th_exh s') <= 5 / 10000 -> exh_te_in (th_exh s') = exh_te_in (th_exh s)).
Proof.
  intros E X. apply step_ok in E. destruct E as (fc & _ & _ & (fce & F1 & F2 & F3 & F4 & EE) & _ & _ & _ & E2 & _ & _ & E6 & E7 & _).
  rewrite X in EE. apply exh_ok in EE. destruct EE as (A & B & C & _ & D & _). rewrite E2, E6, E7, <- F2, <- F3, <- F4. tauto.
Qed.
Lemma mix a b C dt (w1 w2 g1 g2 : R) : 0 < C -> a * dt = w1 * (C * 1000 * g1) -> b * dt = w2 * (C * 1000 * g2) -> (a - b) / (C * 1000) * dt = w1 * g1 - w2 * g2.
Proof.
  intros HC A B. replace ((a - b) / (C * 1000) * dt) with ((a * dt - b * dt) / (C * 1000)) by (field; lra). rewrite A, B. field. lra.
Qed.
(** The port is drawn towards the exhaust and towards the engine, each time by at most the whole difference. *)
Theorem C126_port (pp : pprops R) p d s s' : set_thermal pp p d s = Ok s' -> vt_exh_internal p = true ->
  0 < vt_exh_c p -> 0 < d_dt d -> 0 <= vt_exh_ha_amb p -> 0 <= vt_exh_ha_int p -> 0 <= exh_mdot (th_exh s') ->
  vt_exh_c p * 1000 * (exh_te (th_exh s') - exh_te (th_exh s)) = (exh_from (th_exh s') - exh_to_amb (th_exh s')) * d_dt d /\
  exists w1 w2, 0 <= w1 <= 1 /\ 0 <= w2 <= 1 /\
    exh_from (th_exh s') * d_dt d = w1 * (vt_exh_c p * 1000 * (exh_te_in (th_exh s') - exh_te (th_exh s))) /\
    exh_to_amb (th_exh s') * d_dt d = w2 * (vt_exh_c p * 1000 * (exh_te (th_exh s) - fc_te (th_fc s))) /\
    exh_te (th_exh s') = exh_te (th_exh s) + w1 * (exh_te_in (th_exh s') - exh_te (th_exh s)) + w2 * (fc_te (th_fc s) - exh_te (th_exh s)).
Proof.
  intros E X C D A B M. apply step_ok in E. destruct E as (fc & EF & _ & (fce & F1 & F2 & F3 & F4 & EE) & _).
  assert (TE : fc_te fc = fc_te (th_fc s)).
  { destruct (vt_fc_model p); [|now subst]. apply fc_ok in EF. destruct EF as (? & ? & ? & ? & -> & _). reflexivity. }
  rewrite X in EE. apply exh_ok in EE. destruct EE as (_ & _ & _ & _ & _ & N1 & T & W2 & W1).
  destruct (W2 C D A) as (w2 & R2 & Q2). destruct (W1 C D B M) as (w1 & R1 & Q1). rewrite F1, TE in Q2. rewrite N1 in T.
  split; [rewrite T; field; lra|]. exists w1, w2. split; [exact R1|]. split; [exact R2|]. split; [exact Q1|]. split; [exact Q2|].
  rewrite T at 1. rewrite (mix _ _ _ _ _ _ _ _ C Q1 Q2). ring.
Qed.
(** Hence a port between engine and exhaust stays between them. *)
Theorem C126_port_between (pp : pprops R) p d s s' : set_thermal pp p d s = Ok s' -> vt_exh_internal p = true ->
  0 < vt_exh_c p -> 0 < d_dt d -> 0 <= vt_exh_ha_amb p -> 0 <= vt_exh_ha_int p -> 0 <= exh_mdot (th_exh s') ->
  (fc_te (th_fc s) <= exh_te (th_exh s) <= exh_te_in (th_exh s') -> fc_te (th_fc s) <= exh_te (th_exh s') <= exh_te_in (th_exh s')) /\
  (exh_te_in (th_exh s') <= exh_te (th_exh s) <= fc_te (th_fc s) -> exh_te_in (th_exh s') <= exh_te (th_exh s') <= fc_te (th_fc s)).
Proof.
  intros E X C D A B M. destruct (C126_port _ _ _ _ _ E X C D A B M) as (_ & w1 & w2 & R1 & R2 & _ & _ & ->). split; intros H; split; nra.
Qed.

(** *** The catalyst *)
Theorem C126_catalyst (pp : pprops R) p d s s' : set_thermal pp p d s = Ok s' -> vt_cat_internal p = true ->
  0 < vt_cat_c p -> 0 < d_dt d -> 0 <= cat_htc (th_cat s') -> 0 <= exh_mdot (th_exh s') ->
  vt_cat_c p * 1000 * (cat_te (th_cat s') - cat_te (th_cat s)) = (cat_from (th_cat s') - cat_to_amb (th_cat s')) * d_dt d /\
  (exists w, 0 <= w <= 1 /\ cat_to_amb (th_cat s') * d_dt d = w * (vt_cat_c p * 1000 * (cat_te (th_cat s) - outside d s))) /\
  (cat_te_in (th_cat s') <= cat_te (th_cat s) \/ 0 <= vt_cab_c p <= vt_cat_c p \/ (0 <= vt_cab_c p /\ exh_mdot (th_exh s') * 1337 * d_dt d <= vt_cat_c p * 1000) ->
   exists w, 0 <= w <= 1 /\ cat_from (th_cat s') * d_dt d = w * (vt_cat_c p * 1000 * (cat_te_in (th_cat s') - cat_te (th_cat s)))).
Proof.
  intros E X C D A M. apply step_ok in E. destruct E as (fc & _ & _ & _ & EC & _). rewrite X in EC. apply cat_ok in EC.
  destruct EC as (_ & _ & _ & _ & _ & N1 & T & _ & W2 & W1 & _). split; [rewrite T, N1; field; lra|]. split; [apply W2; assumption|].
  intros W. apply W1; assumption.
Qed.
Theorem C126_catalyst_inlet (pp : pprops R) p d s s' : set_thermal pp p d s = Ok s' -> vt_cat_internal p = true ->
  (5 / 10000 < exh_mdot (th_exh s') -> exists t, get_te_from_h ((exh_hdot (th_exh s') * 1000 - exh_from (th_exh s')) / exh_mdot (th_exh s')) = Ok t /\
     cat_te_in (th_cat s') = Rmin t (fc_adiabatic (th_fc s'))) /\
  (exh_mdot (th_exh s') <= 5 / 10000 -> cat_te_in (th_cat s') = cat_te_in (th_cat s)).
Proof.
  intros E X. apply step_ok in E. destruct E as (fc & _ & _ & _ & EC & _ & _ & _ & _ & _ & _ & E7 & _). rewrite X in EC. apply cat_ok in EC.
  destruct EC as (_ & _ & C & D & _). rewrite E7. tauto.
Qed.
(** The coefficient of the catalyst is set at rest; on the move it is left as it was. *)
Theorem C126_catalyst_coefficient (pp : pprops R) p d s s' : set_thermal pp p d s = Ok s' -> vt_cat_internal p = true ->
  (d_mps d < 1 -> cat_htc (th_cat s') = vt_cat_htc_stop p) /\ (1 <= d_mps d -> cat_htc (th_cat s') = cat_htc (th_cat s)).
Proof.
  intros E X. apply step_ok in E. destruct E as (fc & _ & _ & _ & EC & _). rewrite X in EC. apply cat_ok in EC. destruct EC as (A & B & _). split; [apply A|exact B].
Qed.
(** So a catalyst of 400 degrees on a vehicle that moves from the start, here at 30 m/s in air of 20 degrees, loses no heat to the air. *)
Theorem C126_catalyst_moving_refuted : exists (d : drive R) s', d_mps d = 30 /\ d_dt d = 1 /\
  set_thermal r_default_props (default_vthermal true true) d (new_thermal (Some 20) None None None (Some 400) None) = Ok s' /\
  th_amb s' = 20 /\ cat_to_amb (th_cat s') = 0.
Proof.
  set (p := default_vthermal true true). set (s := new_thermal (Some 20) None None None (Some 400) None).
  set (d := mkdrive 0 0 0 30 (6711 / 100) 1 None false). exists d.
  destruct (C125_defined r_default_props p d s) as (s' & E); try (cbn; unR; rewrite ?lit_R; lra). { intros h H. discriminate H. }
  exists s'. split; [reflexivity|]. split; [reflexivity|]. split; [exact E|]. pose proof (step_ok _ _ _ _ _ E) as (fc & _ & _ & _ & EC & EA & _).
  split; [exact EA|]. change (vt_cat_internal p) with true in EC. cbn match in EC. apply cat_ok in EC. destruct EC as (_ & H & _ & _ & _ & _ & _ & Z & _).
  apply Z; [rewrite H; [reflexivity|cbn; lra]|cbn; unR; lra|cbn; lra].
Qed.
(** The exhaust can heat the catalyst past its own temperature: the limit on the heat is that of the cabin's thermal mass, not the catalyst's.
    Default parameters, exhaust of 500 degrees at 50 g/s, steps of 15 minutes. *)
Theorem C126_catalyst_refuted : exists (p : vthermal R) d amb ad fh e s s' fh', p = default_vthermal true true /\ d_dt d = 900 /\ exh_mdot e = 5 / 100 /\
  cat_te s = 20 /\ amb = 20 /\ set_cat_thermal p d amb ad fh e s = Ok (s', fh') /\ cat_te_in s' = 500 /\ 500 < cat_te s'.
Proof.
  destruct (h_there_back 500 ltac:(lra)) as (h500 & EH & HB & ET).
  set (p := default_vthermal true true). set (d := mkdrive 0 0 0 0 0 900 None false).
  set (e := mkexh (5 / 100) (h500 * (5 / 100) / 1000) 0 0 0 0 0). set (s := mkcat 0 0 0 20 22 0 0 0).
  destruct (cat_defined p d 20 2000 0 e s) as ((s' & fh') & E); [right; cbn; lra|].
  exists p, d, 20, 2000, 0, e, s, s', fh'. repeat (split; [reflexivity|]). split; [exact E|]. apply cat_ok in E.
  destruct E as (H & _ & _ & TI & _ & N1 & T & _ & W2 & _ & y & y' & EY & EY' & FR).
  destruct (TI ltac:(cbn; lra)) as (t & Et & EI). replace ((exh_hdot e * 1000 - exh_from e) / exh_mdot e) with h500 in Et by (cbn; field).
  assert (t = 500) by congruence. subst t. rewrite Rmin_left in EI by lra. split; [exact EI|]. rewrite EI in *. change (cat_te s) with 20 in *.
  specialize (FR ltac:(lra)). assert (y' = h500) by congruence. subst y'.
  destruct (h_in 20 500 y h500 ltac:(lra) ltac:(lra) ltac:(lra) EY EH) as [HI1 HI2].
  change (vt_cab_c p) with 125 in FR. change (d_dt d) with 900 in *. change (exh_mdot e) with (5 / 100) in FR. rewrite Rmin_left in FR by lra.
  destruct (W2 ltac:(cbn; unR; lra) ltac:(lra)) as (w & W & EW). { destruct (H ltac:(cbn; lra)) as (-> & _). cbn. unR. lra. }
  assert (Z : cat_to_amb s' = 0) by (replace (20 - 20) with 0 in EW by ring; rewrite !Rmult_0_r in EW; lra).
  rewrite N1, Z, FR in T. change (vt_cat_c p) with 15 in T. rewrite T. lra.
Qed.
(** *** Surfaces *)
(** Engine and catalyst are taken as spheres; the area used for a diameter is right for one metre only. *)
Theorem C126_area (l : R) : 0 < l -> (area_ext l = f64_pi * l ^ 2 <-> l = 1).
Proof.
  intros H. rewrite area_value by lra. assert (0 < @f64_pi R RNum) as P by apply pi_pos. split.
  - intros E. apply Rmult_eq_reg_l in E; [|lra]. assert (S : sqrt l * sqrt l = l) by (apply sqrt_sqrt; lra).
    assert (l ^ 2 * l ^ 2 = l) by (rewrite <- E; exact S). assert (l * (l - 1) * (l * l + l + 1) = 0) by nra.
    assert (l - 1 = 0); [|lra]. apply Rmult_integral in H1. destruct H1 as [H1|H1]; [apply Rmult_integral in H1; lra|nra].
  - intros ->. rewrite sqrt_1. ring.
Qed.
Theorem C126_area_refuted : exists l : R, l = vt_cat_l (default_vthermal true true) /\ f64_pi * l ^ 2 < area_ext l / 2.
Proof.
  exists (50 / 100). split; [reflexivity|]. rewrite area_value by lra. assert (0 < @f64_pi R RNum) as P by apply pi_pos.
  assert (7 / 10 < sqrt (50 / 100)). { apply Rsqr_incrst_0; [|lra|apply sqrt_pos]. rewrite Rsqr_sqrt by lra. unfold Rsqr. lra. } nra.
Qed.
Example C126_run :
  (match set_thermal r_default_props (default_vthermal true true) (mkdrive 30 10 30 20 44.7 1 (Some 15) false) (new_thermal (Some 20) (Some 60) None (Some 100) (Some 200) None) with
   | Ok s => (fc_te (th_fc s) <? 60) && (100 <? exh_te (th_exh s)) && (exh_te (th_exh s) <? exh_te_in (th_exh s)) && (cat_te (th_cat s) <? 200) &&
             (cat_te_in (th_cat s) <? cat_te (th_cat s)) && (th_amb s =? 15)
   | Err _ => false end = true)%float.
Proof. vm_compute. reflexivity. Qed.

(** ** C127 *)
(** *** The effect of temperature on efficiency *)
Lemma grow_rising (lag o m x y : R) : 0 < lag -> x <= y -> Rmax (1 - exp (- (1) / lag * (x - o))) m <= Rmax (1 - exp (- (1) / lag * (y - o))) m.
Proof.
  intros L H. apply Rle_max_compat_r. assert (exp (- (1) / lag * (y - o)) <= exp (- (1) / lag * (x - o))); [|lra].
  assert (- (1) / lag * (y - o) <= - (1) / lag * (x - o)) as [Q|Q].
  { assert (0 < / lag) by (now apply Rinv_0_lt_compat). unfold Rdiv. nra. }
  - left. now apply exp_increasing.
  - rewrite Q. lra.
Qed.
Lemma grow_range (lag o m x : R) : m <= 1 -> m <= Rmax (1 - exp (- (1) / lag * (x - o))) m <= 1.
Proof. intros M. split; [apply Rmax_r|apply Rmax_lub; [|exact M]]. pose proof (exp_pos (- (1) / lag * (x - o))). lra. Qed.
(** The coefficient lies between the minimum and 1 and does not fall as engine and catalyst warm up, unless it depends on the light-off. *)
Theorem C127_range (p : vthermal R) m c te kte old lo : vt_fc_model p = Some (m, c) -> c <> CatAndFC \/ (exists o k, m = Linear o k lo) ->
  lo = (match m with Linear _ _ lo => lo | Exponential _ _ lo => lo end) -> lo <= 1 -> lo <= temp_coeff p te kte old <= 1.
Proof.
  intros E NC -> LO. unfold temp_coeff. rewrite E. destruct m as [o k lo|o lag lo].
  - rewrite nmax_R, nmin_R. unR. split; [apply Rmax_l|apply Rmax_lub; [exact LO|apply Rmin_l]].
  - unR. rewrite !nmax_R. destruct c; [|destruct NC as [NC|(a & b & NC)]; [congruence|discriminate]|]; apply grow_range; exact LO.
Qed.
Theorem C127_rising (p : vthermal R) m c te te' kte kte' old : vt_fc_model p = Some (m, c) ->
  (match m with Linear _ slope _ => 0 <= slope | Exponential _ lag _ => 0 < lag /\ c <> CatAndFC end) -> te <= te' -> kte <= kte' ->
  temp_coeff p te kte old <= temp_coeff p te' kte' old.
Proof.
  intros E G T K. unfold temp_coeff. rewrite E. destruct m as [o k lo|o lag lo].
  - rewrite !nmax_R, !nmin_R. unR. apply Rle_max_compat_l. apply Rle_min_compat_l. nra.
  - destruct G as [L NC]. unR. rewrite !nmax_R. destruct c; [apply grow_rising; assumption|congruence|apply grow_rising; assumption].
Qed.
(** A component of the coefficient is the one chosen: the other temperature does not matter. *)
Theorem C127_component (p : vthermal R) o lag lo te kte old x : 
  (vt_fc_model p = Some (Exponential o lag lo, FuelConverter) -> temp_coeff p te kte old = temp_coeff p te x old /\
     temp_coeff p te kte old = Rmax (1 - exp (- (1) / lag * (te - o))) lo) /\
  (vt_fc_model p = Some (Exponential o lag lo, Catalyst) -> temp_coeff p te kte old = temp_coeff p x kte old /\
     temp_coeff p te kte old = Rmax (1 - exp (- (1) / lag * (kte - o))) lo) /\
  (vt_fc_model p = Some (Exponential o lag lo, CatAndFC) -> kte < vt_lightoff p ->
     temp_coeff p te kte old = Rmax (1 - exp (- (1) / lag * (te - o))) lo * vt_cat_eta p).
Proof.
  unfold temp_coeff. split; [|split]; intros E; rewrite E; unR; rewrite ?nmax_R; [split; reflexivity|split; reflexivity|].
  intros L. destruct (Rltb_spec kte (vt_lightoff p)); [reflexivity|lra].
Qed.
(** *** Fuel *)
(** An engine that gives no power takes no fuel; else fuel times coefficient is the fuel of a warm engine, so that no fuel is saved. *)
Theorem C127_fuel (p : vthermal R) s kw eff : 
  (kw = 0 -> thermal_fuel p s kw eff = (fc_coeff (th_fc s), 0)) /\
  (0 < kw -> 0 < eff -> forall k fuel, thermal_fuel p s kw eff = (k, fuel) ->
     k = temp_coeff p (fc_te (th_fc s)) (cat_te (th_cat s)) (fc_coeff (th_fc s)) /\
     (0 < k -> fuel * k * eff = kw) /\ (0 < k <= 1 -> kw / eff <= fuel)).
Proof.
  unfold thermal_fuel. unR. split; [intros ->; destruct (Reqb_spec 0 0); [reflexivity|lra]|]. intros K F k fuel. destruct (Reqb_spec kw 0); [lra|].
  intros [= EK EF]. split; [now symmetry|]. rewrite EK in EF. split; intros P; rewrite <- EF; [field; split; lra|].
  assert (0 < kw / eff) by (apply Rdiv_lt_0_compat; lra). apply (Rmult_le_reg_r k); [lra|]. replace (kw / eff / k * k) with (kw / eff) by (field; split; lra). nra.
Qed.
(** A colder engine takes no less fuel for the same output. *)
Theorem C127_cold (p : vthermal R) m c s1 s2 kw eff lo : vt_fc_model p = Some (m, c) ->
  (match m with Linear _ slope l => 0 <= slope /\ l = lo | Exponential _ lag l => 0 < lag /\ c <> CatAndFC /\ l = lo end) -> 0 < lo ->
  fc_te (th_fc s1) <= fc_te (th_fc s2) -> cat_te (th_cat s1) <= cat_te (th_cat s2) -> fc_coeff (th_fc s1) = fc_coeff (th_fc s2) ->
  0 <= kw -> 0 < eff -> snd (thermal_fuel p s2 kw eff) <= snd (thermal_fuel p s1 kw eff).
Proof.
  intros E G LO T K O KW F. assert (R1 : temp_coeff p (fc_te (th_fc s1)) (cat_te (th_cat s1)) (fc_coeff (th_fc s1)) <= temp_coeff p (fc_te (th_fc s2)) (cat_te (th_cat s2)) (fc_coeff (th_fc s1))).
  { apply (C127_rising p m c); try assumption. destruct m; tauto. }
  assert (P1 : 0 < temp_coeff p (fc_te (th_fc s1)) (cat_te (th_cat s1)) (fc_coeff (th_fc s1))).
  { unfold temp_coeff. rewrite E. destruct m as [o k l|o lag l].
    - destruct G as [_ ->]. rewrite nmax_R. pose proof (Rmax_l lo (nmin n1 (o + k * fc_te (th_fc s1))%num)). lra.
    - destruct G as (_ & NC & ->). rewrite !nmax_R. destruct c; [|congruence|];
        match goal with |- 0 < Rmax ?a lo => pose proof (Rmax_r a lo); lra end. }
  unfold thermal_fuel. unR. rewrite <- O. destruct (Reqb_spec kw 0); [cbn; lra|]. cbn [snd].
  assert (0 <= kw / eff) by (apply div_nonneg; lra). unfold Rdiv at 1 3. apply Rmult_le_compat_l; [assumption|]. apply Rinv_le_contravar; assumption.
Qed.
Example C127_run : (let s := new_thermal (F := float) (Some 20) (Some 90) None None None None in
  let c := new_thermal (F := float) (Some 20) None None None None None in let p := default_vthermal false false in
  (snd (thermal_fuel p s 20 0.4) <? 51.5) && (50 <? snd (thermal_fuel p s 20 0.4)) && (90 <? snd (thermal_fuel p c 20 0.4)) = true)%float.
Proof. vm_compute. reflexivity. Qed.
(** With CatAndFC the penalty of a cold catalyst is kept after light-off: the coefficient of a warm engine with a lit catalyst is still that of before. *)
Theorem C127_lightoff_refuted : exists (p : vthermal R) te kte kte' old k, vt_fc_model p = Some (Exponential 0 25 (2 / 10), CatAndFC) /\
  kte < vt_lightoff p <= kte' /\ te = 90 /\ temp_coeff p te kte old = k /\ temp_coeff p te kte' k = k /\ k <= 3 / 10 /\
  3 / 10 < Rmax (1 - exp (- (1) / 25 * (te - 0))) (2 / 10).
Proof.
  set (p := mkvthermal 150 1 50 (1 / 10000) 85 5 5 (Some (Exponential 0 25 (2 / 10), CatAndFC)) 125 2 2 (2 / 100) 10 true 5 100 10 true (1 / 2) 15 10 400 (3 / 10)).
  destruct (C127_component p 0 25 (2 / 10) 90 20 0 0) as (_ & _ & Q). specialize (Q eq_refl ltac:(cbn; lra)). cbn [vt_cat_eta p] in Q.
  exists p, 90, 20, 450, 0, (temp_coeff p 90 20 0). split; [reflexivity|]. split; [cbn; lra|]. split; [reflexivity|]. split; [reflexivity|].
  split. { unfold temp_coeff at 1. cbn [vt_fc_model vt_lightoff p]. unR. destruct (Rltb_spec 450 400); [lra|reflexivity]. }
  rewrite Q. split; [pose proof (grow_range 25 0 (2 / 10) 90 ltac:(lra)); lra|].
  apply (Rlt_le_trans _ (1 - exp (- (1) / 25 * (90 - 0)))); [|apply Rmax_l].
  assert (exp (- (1) / 25 * (90 - 0)) < 7 / 10); [|lra].
  assert (EQ : exp (- (1) / 25 * (90 - 0)) * exp (18 / 5) = 1) by (rewrite <- exp_plus; replace (- (1) / 25 * (90 - 0) + 18 / 5) with 0 by lra; apply exp_0).
  pose proof (exp_ineq1 (18 / 5) ltac:(lra)). pose proof (exp_pos (- (1) / 25 * (90 - 0))). nra.
Qed.
(** And a run that starts with a lit catalyst divides by the initial coefficient of 0. *)
Theorem C127_lit_start_refuted : exists (p : vthermal R) s, vt_fc_model p = Some (Exponential 0 25 (2 / 10), CatAndFC) /\
  s = new_thermal (Some 20) (Some 90) None None (Some 450) None /\ forall kw eff, 0 < kw -> fst (thermal_fuel p s kw eff) = 0.
Proof.
  set (p := mkvthermal 150 1 50 (1 / 10000) 85 5 5 (Some (Exponential 0 25 (2 / 10), CatAndFC)) 125 2 2 (2 / 100) 10 true 5 100 10 true (1 / 2) 15 10 400 (3 / 10)).
  exists p. eexists. split; [reflexivity|]. split; [reflexivity|]. intros kw eff K. unfold thermal_fuel. unR. destruct (Reqb_spec kw 0); [lra|]. cbn [fst].
  unfold temp_coeff. cbn [vt_fc_model vt_lightoff p new_thermal th_cat th_fc cat_te fc_coeff]. unR. destruct (Rltb_spec 450 400); [lra|reflexivity].
Qed.
(** *** Auxiliary load *)
(** The power of the HVAC comes on top of the given load, or of the vehicle's own if none is given from this step on. *)
Theorem C127_aux (no_elec : bool) (aux_kw alt_eff : R) aux_in s x : thermal_aux no_elec aux_kw alt_eff aux_in s = Ok x ->
  ((forall a, In a aux_in -> a = 0) -> x = (if no_elec then aux_kw / alt_eff else aux_kw) + cab_aux (th_cab s)) /\
  ((exists a, In a aux_in /\ a <> 0) -> x = hd 0 aux_in + cab_aux (th_cab s)).
Proof.
  unfold thermal_aux. destruct aux_in as [|a r]; [discriminate|]. unR. destruct (forallb (fun x => Reqb x 0) (a :: r)) eqn:FB; intros [= <-]; split.
  - intros _. reflexivity.
  - intros (y & I & Y). rewrite forallb_forall in FB. apply FB in I. destruct (Reqb_spec y 0); [contradiction|discriminate].
  - intros H. assert (forallb (fun x => Reqb x 0) (a :: r) = true); [|congruence]. apply forallb_forall. intros y I. destruct (Reqb_spec y 0); [reflexivity|]. now apply H in I.
  - intros _. reflexivity.
Qed.
Example C127_aux_run : (thermal_aux false 0.7 1 [0; 0] (new_thermal None None None None None None) = Ok 0.7)%float.
Proof. vm_compute. reflexivity. Qed.
(** A hot cabin is cooled, a cold one is heated by the engine. *)
Example C125_run :
  (let d := mkdrive 30 10 30 20 44.7 1 None false in let p := default_vthermal false false in
   let go t := set_thermal r_default_props p d (new_thermal (Some t) (Some 85) None None None (Some default_hvac)) in
   match go 35, go 0 with
   | Ok a, Ok b => (cab_te (th_cab a) <? 35) && (0 <? cab_aux (th_cab a)) && (0 <? cab_te (th_cab b)) && (0 <? fc_to_htr (th_fc b)) && (cab_aux (th_cab b) =? 0)
   | _, _ => false end = true)%float.
Proof. vm_compute. reflexivity. Qed.

(** *** The correlations *)
(** Parameters of the correlation for a sphere, by the Reynolds number. *)
Theorem C126_sphere (re : R) :
  (re < 4 -> sphere_params re = (0.989, 0.330)) /\ (4 <= re < 40 -> sphere_params re = (0.911, 0.385)) /\ (40 <= re < 4000 -> sphere_params re = (0.683, 0.466)) /\
  (4000 <= re < 40000 -> sphere_params re = (0.193, 0.618)) /\ (40000 <= re -> sphere_params re = (0.027, 0.805)).
Proof.
  unfold sphere_params. unR. rewrite ?lit_R.
  repeat split; intros H; repeat (match goal with |- context [Rltb re ?b] => destruct (Rltb_spec re b); try lra end); f_equal; lra.
Qed.
(** The coefficient of a sphere of diameter [l] in air of temperature [film], from the printed table of C124. *)
Definition sphere_law (re film l q : R) : Prop :=
  forall pr k c m, get_pr film = Ok pr -> get_k film = Ok k -> sphere_params re = (c, m) -> q * l = c * Rpow_py re m * Rpow_py pr (1 / 3) * k.
Definition reynolds (mps film l re : R) : Prop := forall mu, get_mu film = Ok mu -> re * mu = r_get_rho film None * mps * l.
Lemma sphere_lawful re film l q : 0 < l -> sphere_htc re film l = Ok q -> sphere_law re film l q.
Proof.
  intros L E pr k c m EP EK ES. unfold sphere_htc in E. rewrite EP, EK, ES in E. cbn [bindR fst snd] in E. unR. injection E as <-. field. lra.
Qed.
(** Engine on the move: the passive coefficient is that of a sphere at the Reynolds number of the speed.  The flame has the enthalpy of the
    charge at ambient temperature and the heat of the fuel that finds air. *)
Theorem C125_engine_moving (pp : pprops R) p d s s' : set_thermal pp p d s = Ok s' -> vt_fc_model p <> None -> 0 < vt_fc_l p -> 0 < vt_tstat_delta p -> 1 <= d_mps d ->
  exists re passive htc, reynolds (d_mps d) (1 / 2 * (fc_te (th_fc s) + outside d s)) (vt_fc_l p) re /\
    sphere_law re (1 / 2 * (fc_te (th_fc s) + outside d s)) (vt_fc_l p) passive /\
    fc_to_amb (th_fc s') = htc / 1000 * area_ext (vt_fc_l p) * (fc_te (th_fc s) - outside d s) /\
    (fc_te (th_fc s) <= vt_tstat_sto p -> htc = passive) /\ (vt_tstat_sto p + vt_tstat_delta p <= fc_te (th_fc s) -> htc = passive * vt_rad_eps p).
Proof.
  intros E M L D MV. apply step_ok in E. destruct E as (fc & EF & _ & _ & _ & _ & _ & _ & _ & E4 & _). unfold outside. fold (ambient d s).
  destruct (vt_fc_model p); [|congruence]. unfold set_fc_thermal in EF. destruct (some_h (ambient d s)) as (h & EHH). rewrite EHH in EF. cbn [bindR] in EF.
  match type of EF with context [get_te_from_h ?x] => destruct (some_te x) as (ad & EAD); rewrite EAD in EF end. cbn [bindR] in EF. rewrite lit_R in EF. unR.
  destruct (some_mu (1 / 2 * (fc_te (th_fc s) + ambient d s))) as (mu & EM & MU). rewrite EM in EF. cbn [bindR] in EF.
  destruct (Rltb_spec (d_mps d) 1); [lra|].
  match type of EF with context [sphere_htc ?a ?b ?c] => set (re := a) in EF; destruct (sphere_htc re b c) as [q|] eqn:EQ; [|discriminate] end. cbn [bindR] in EF.
  unfold tstat_fo in EF. unR.
  destruct (tstat_value (fc_te (th_fc s)) (vt_tstat_sto p) (vt_tstat_sto p + vt_tstat_delta p) q (q * vt_rad_eps p) ltac:(lra)) as (y & EY & Y1 & Y2 & _).
  rewrite EY in EF. cbn [bindR] in EF. injection EF as <-. cbn [fc_to_amb] in E4. exists re, q, y.
  split. { intros m' Em. assert (m' = mu) by congruence. subst m'. unfold re. field. lra. }
  split; [apply sphere_lawful; assumption|]. split; [rewrite E4; unfold area_ext, f64_pi; unR; rewrite ?lit_R; unR; lra|]. split; assumption.
Qed.
Theorem C125_flame (pp : pprops R) p d s s' h : set_thermal pp p d s = Ok s' -> vt_fc_model p <> None -> get_h (outside d s) = Ok h ->
  let parts := 1 + fc_lambda (th_fc s) * pp_fuel_afr pp in let hot := h + r_get_fuel_lhv pp * 1000 * Rmin (fc_lambda (th_fc s)) 1 / parts in
  parts <> 0 -> get_te_from_h hot = Ok (fc_adiabatic (th_fc s')) /\ (338940 <= hot <= 6662000 -> get_h (fc_adiabatic (th_fc s')) = Ok hot).
Proof.
  intros E M EH parts hot P. apply step_ok in E. destruct E as (fc & EF & _ & _ & _ & _ & _ & _ & _ & _ & _ & E7 & _). rewrite E7.
  destruct (vt_fc_model p); [|congruence]. unfold set_fc_thermal in EF. fold (outside d s) in EH. unfold outside in EH. fold (ambient d s) in EH. rewrite EH in EF. cbn [bindR] in EF.
  rewrite nmin_R in EF. unR. fold parts in EF.
  replace ((parts * h + r_get_fuel_lhv pp * 1000 * Rmin (fc_lambda (th_fc s)) 1) / parts) with hot in EF by (unfold hot; field; exact P).
  destruct (get_te_from_h hot) as [ad|] eqn:EA; [|discriminate]. cbn [bindR] in EF.
  match type of EF with context [get_mu ?x] => destruct (some_mu x) as (mu & EM & MU); rewrite EM in EF end. cbn [bindR] in EF.
  match type of EF with bindR ?x _ = _ => destruct x; [|discriminate] end. cbn [bindR] in EF.
  match type of EF with bindR ?x _ = _ => destruct x; [|discriminate] end. cbn [bindR] in EF. injection EF as <-. cbn [fc_adiabatic].
  split; [reflexivity|]. intros B. destruct (te_there_back hot B) as (t & E1 & _ & E2). congruence.
Qed.
(** Cabin on the move: the air film, laminar or turbulent over a flat plate, and the shell in series. *)
Theorem C125_cabin_moving (pp : pprops R) p d s s' h : set_thermal pp p d s = Ok s' -> th_hvac s = Some h -> 2 < d_mph d -> 0 < vt_cab_len p ->
  exists re nu film k pr, film = 1 / 2 * (cab_te (th_cab s) + outside d s) /\ reynolds (d_mps d) film (vt_cab_len p) re /\ get_k film = Ok k /\ get_pr film = Ok pr /\
    (re < 500000 -> nu = 0.664 * Rpow_py re (1 / 2) * Rpow_py pr (1 / 3)) /\ (500000 <= re -> nu = (0.037 * Rpow_py re 0.8 - 871) * pr) /\
    cab_to_amb (th_cab s') = 1 / 1000 * (vt_cab_len p * vt_cab_width p) / (1 / (nu * k / vt_cab_len p) + vt_cab_r p) * (cab_te (th_cab s) - outside d s).
Proof.
  intros E H M L. apply step_ok in E. destruct E as (fc & _ & EH & _). rewrite H in EH. destruct EH as (h' & EC & _). apply cab_ok in EC.
  destruct EC as (g & EG & _ & _ & A & _). rewrite A. unfold outside. fold (ambient d s). set (film := 1 / 2 * (cab_te (th_cab s) + ambient d s)) in *. unfold cab_conductance in EG.
  destruct (some_mu film) as (mu & EM & MU). destruct (some_pr film) as (pr & EP & _). destruct (some_k film) as (k & EK & _). rewrite EM, EP, EK in EG. cbn [bindR] in EG. unR.
  rewrite ?lit_R in EG. destruct (Rltb_spec 2 (d_mph d)); [|lra]. set (re := _ / mu) in EG.
  match type of EG with context [?n * k / vt_cab_len p] => set (nu := n) in EG end. injection EG as <-. exists re, nu, film, k, pr.
  split; [reflexivity|]. split. { intros m' Em. assert (m' = mu) by congruence. subst m'. unfold re. field. lra. }
  split; [exact EK|]. split; [exact EP|]. unfold nu. destruct (Rltb_spec re 500000); (split; [|split; [|reflexivity]]); intros; try lra; replace 0.8 with (8 / 10) by lra; lra.
Qed.
(** *** The controller *)
(** Outside the deadband the controller asks for heat in proportion to the error, its sum (held to one sign and within the limit) and its rate;
    the coefficient of performance is a fraction of the ideal one, with differences to ambient of less than 5 degrees taken as 5. *)
Theorem C125_control (pp : pprops R) p d s s' h : set_thermal pp p d s = Ok s' -> th_hvac s = Some h -> 0 <= hv_band h -> 0 <= hv_max h ->
  exists h', th_hvac s' = Some h' /\
  (hv_set h - hv_band h <= cab_te (th_cab s) <= hv_set h + hv_band h -> hv_i h' = 0) /\
  let err := cab_te (th_cab s) - hv_set h in let sum := hv_i h + hv_i_gain h * err * d_dt d in
  let rate := (cab_te (th_cab s) - cab_prev (th_cab s)) / d_dt d in
  (hv_band h < Rabs err ->
     hv_cop h' * Rmax (Rabs (cab_te (th_cab s) - outside d s)) 5 = hv_frac h * (cab_te (th_cab s) + 273.15)) /\
  (hv_band h < err -> hv_i h' = Rmin (Rmax sum 0) (hv_max h) /\
     let ask := Rmin (hv_p_gain h * err + hv_i h' + hv_d_gain h * rate) (hv_max h) in
     cab_aux (th_cab s') = Rmax 0 (Rmin (ask / hv_cop h') (hv_aux_max h))) /\
  (err < - hv_band h -> hv_i h' = Rmax (Rmin sum 0) (- hv_max h) /\
     let ask := Rmin (- (hv_p_gain h * err + hv_i h' + hv_d_gain h * rate)) (hv_max h) in
     if hv_waste h then cab_from_hvac (th_cab s') = Rmax 0 (Rmin ask (vt_cab_c p * (fc_te (th_fc s) - cab_te (th_cab s)) / 10 / d_dt d))
     else cab_aux (th_cab s') = Rmax 0 (Rmin (ask / hv_cop h') (hv_aux_max h))).
Proof.
  intros E H B AM. apply step_ok in E. destruct E as (fc & EF & EH & _). rewrite H in EH. destruct EH as (h' & EC & EH'). exists h'. split; [exact EH'|].
  assert (TE : fc_te fc = fc_te (th_fc s)).
  { destruct (vt_fc_model p); [|now subst]. apply fc_ok in EF. destruct EF as (? & ? & ? & ? & -> & _). reflexivity. }
  rewrite TE in EC. apply cab_ok in EC. destruct EC as (g & _ & _ & _ & _ & _ & _ & _ & _ & _ & _ & BAND & COOL & HEAT & PD).
  split; [intros X; apply BAND; exact X|]. intros err sum rate. unfold outside. fold (ambient d s).
  split; [|split].
  - intros X. destruct PD as (EC & _ & _). { unfold err, Rabs in X. destruct (Rcase_abs _); lra. }
    rewrite EC. assert (0 < Rmax (Rabs (cab_te (th_cab s) - ambient d s)) 5) by (pose proof (Rmax_r (Rabs (cab_te (th_cab s) - ambient d s)) 5); lra). replace 273.15 with (27315 / 100) by lra. set (m := Rmax _ _) in *. field. lra.
  - intros X. unfold err in X. destruct (COOL ltac:(lra)) as (PC & EA & _ & _ & EI). destruct (PD ltac:(lra)) as (_ & EP & ED). split; [exact EI|]. cbn zeta.
    rewrite EA, Rmax_comm. f_equal. f_equal. f_equal. fold err in EP. fold rate in ED. rewrite <- EP, <- ED. set (a := hv_p h'). set (b := hv_i h'). set (c := hv_d h').
    unfold Rmin, Rmax. destruct (Rle_dec _ _); destruct (Rle_dec _ _); lra.
  - intros X. unfold err in X. destruct (HEAT ltac:(lra) B) as (PC & EI & want & EW & Y). destruct (PD ltac:(lra)) as (_ & EP & ED). split; [exact EI|]. cbn zeta.
    fold err in EP. fold rate in ED. rewrite <- EP, <- ED. replace (- (hv_p h' + hv_i h' + hv_d h')) with (- hv_p h' - hv_i h' - hv_d h') by ring. rewrite <- EW.
    destruct (hv_waste h).
    + destruct Y as (_ & -> & _). rewrite Rmax_comm. f_equal. f_equal. unfold Rdiv. ring.
    + destruct Y as (-> & _). apply Rmax_comm.
Qed.
(** *** Sizes of the exchanges *)
(** Port: the nominal exchange with engine and exhaust, or less if that would take more than there is. *)
Theorem C126_port_flows (pp : pprops R) p d s s' y y' : set_thermal pp p d s = Ok s' -> vt_exh_internal p = true ->
  0 < vt_exh_c p -> 0 < d_dt d -> 0 <= vt_exh_ha_amb p -> 0 <= vt_exh_ha_int p -> 0 <= exh_mdot (th_exh s') ->
  get_h (exh_te (th_exh s)) = Ok y -> get_h (exh_te_in (th_exh s')) = Ok y' ->
  let out := Rabs (exh_te (th_exh s) - fc_te (th_fc s)) in let gap := Rabs (exh_te_in (th_exh s') - exh_te (th_exh s)) in
  Rabs (exh_to_amb (th_exh s')) = Rmin (vt_exh_ha_amb p * out) (vt_exh_c p * 1000 * out / d_dt d) /\
  Rabs (exh_from (th_exh s')) = Rmin (Rmin (vt_exh_ha_int p * gap) (exh_mdot (th_exh s') * Rabs (y' - y))) (vt_exh_c p * 1000 * gap / d_dt d).
Proof.
  intros E X C D A B M EY EY' out gap. apply step_ok in E. destruct E as (fc & EF & _ & (fce & F1 & _ & _ & _ & EE) & _).
  assert (TE : fc_te fc = fc_te (th_fc s)).
  { destruct (vt_fc_model p); [|now subst]. apply fc_ok in EF. destruct EF as (? & ? & ? & ? & -> & _). reflexivity. }
  rewrite X in EE. destruct (exh_flows _ _ _ _ _ _ EE C D A B M) as (E1 & y1 & y2 & EY1 & EY2 & E2).
  assert (y1 = y) by congruence. assert (y2 = y') by congruence. subst y1 y2. rewrite F1, TE in E1. unfold out, gap. split; assumption.
Qed.
Theorem C126_catalyst_flows (pp : pprops R) p d s s' y y' : set_thermal pp p d s = Ok s' -> vt_cat_internal p = true ->
  0 < vt_cat_c p -> 0 < d_dt d -> 0 <= cat_htc (th_cat s') -> 0 <= exh_mdot (th_exh s') ->
  get_h (cat_te (th_cat s)) = Ok y -> get_h (cat_te_in (th_cat s')) = Ok y' ->
  let out := Rabs (cat_te (th_cat s) - outside d s) in let gap := Rabs (cat_te_in (th_cat s') - cat_te (th_cat s)) in
  Rabs (cat_to_amb (th_cat s')) = Rmin (cat_htc (th_cat s') * area_ext (vt_cat_l p) * out) (vt_cat_c p * 1000 * out / d_dt d) /\
  (cat_te_in (th_cat s') <= cat_te (th_cat s) -> Rabs (cat_from (th_cat s')) = Rmin (exh_mdot (th_exh s') * Rabs (y' - y)) (vt_cat_c p * 1000 * gap / d_dt d)) /\
  (cat_te (th_cat s) < cat_te_in (th_cat s') -> cat_from (th_cat s') = Rmin (exh_mdot (th_exh s') * (y' - y)) (vt_cab_c p * 1000 * gap / d_dt d)).
Proof.
  intros E X C D A M EY EY' out gap. apply step_ok in E. destruct E as (fc & _ & _ & _ & EC & _). rewrite X in EC.
  pose proof (cat_ok _ _ _ _ _ _ _ _ _ EC) as (_ & _ & _ & _ & _ & _ & _ & _ & _ & _ & y1 & y2 & EY1 & EY2 & FR).
  assert (y1 = y) by congruence. assert (y2 = y') by congruence. subst y1 y2.
  destruct (cat_flows _ _ _ _ _ _ _ _ _ EC C D A M) as (E1 & y3 & y4 & EY3 & EY4 & E2).
  assert (y3 = y) by congruence. assert (y4 = y') by congruence. subst y3 y4. unfold out, gap. split; [exact E1|]. split; [exact E2|].
  intros L. rewrite (FR L), (Rabs_right (cat_te_in _ - _)) by lra. reflexivity.
Qed.
(** A fresh state: components start at ambient temperature (22 degrees if none is given) unless told otherwise, at rest and with no flows. *)
Theorem C125_fresh (amb fc cab exh cat : option R) h : let s := new_thermal amb fc cab exh cat h in
  let a := match amb with Some a => a | None => 22 end in let start o := match o with Some x => x | None => a end in
  th_amb s = a /\ fc_te (th_fc s) = start fc /\ cab_te (th_cab s) = start cab /\ cab_prev (th_cab s) = start cab /\ exh_te (th_exh s) = start exh /\
  cat_te (th_cat s) = start cat /\ th_hvac s = h /\ cab_aux (th_cab s) = 0 /\ fc_to_htr (th_fc s) = 0 /\ fc_lambda (th_fc s) = 1 /\
  exh_te_in (th_exh s) = 22 /\ cat_te_in (th_cat s) = 22 /\ cat_htc (th_cat s) = 0 /\ fc_coeff (th_fc s) = 0 /\ fc_adiabatic (th_fc s) = 22 /\
  exh_mdot (th_exh s) = 0 /\ exh_from (th_exh s) = 0 /\ exh_to_amb (th_exh s) = 0 /\ exh_hdot (th_exh s) = 0 /\ exh_net (th_exh s) = 0 /\
  fc_share (th_fc s) = 0 /\ fc_qdot (th_fc s) = 0 /\ fc_to_amb (th_fc s) = 0 /\ fc_htc (th_fc s) = 0 /\ cab_to_amb (th_cab s) = 0 /\ cab_from_hvac (th_cab s) = 0 /\
  cat_qdot (th_cat s) = 0 /\ cat_to_amb (th_cat s) = 0 /\ cat_re (th_cat s) = 0 /\ cat_from (th_cat s) = 0 /\ cat_net (th_cat s) = 0.
Proof. cbn. unR. destruct amb, fc, cab, exh, cat; repeat split. Qed.
(** The default parameters, as printed. *)
Theorem C125_defaults (x k : bool) : @default_vthermal R RNum x k =
    mkvthermal 150 1 50 1e-4 85 5 5 (Some (Exponential 0 25 0.2, FuelConverter)) 125 2 2 0.02 10 x 5 100 10 k 0.50 15 10 400 0.3 /\
  @default_hvac R RNum = mkhvac 22 0.1 0.01 0.1 5 1 0 0 0 0.075 true 5 0.
Proof. unfold default_vthermal, default_hvac. rewrite !lit_R. unR. split; repeat f_equal; lra. Qed.
(** A drive at 20 m/s with the default parameters and every component modelled meets the hypotheses of the theorems above. *)
Example C125_moving_case :
  let d := mkdrive 30 10 30 20 (447 / 10) 1 None false in let p := default_vthermal true true in
  let s := new_thermal (Some 35) (Some 85) None None None (Some default_hvac) in
  exists s', set_thermal r_default_props p d s = Ok s' /\ vt_fc_model p <> None /\ 0 < vt_fc_l p /\ 0 < vt_tstat_delta p /\ 1 <= d_mps d /\ 2 < d_mph d /\
    0 < vt_cab_len p /\ th_hvac s = Some default_hvac /\ hv_band (F := R) default_hvac < cab_te (th_cab s) - hv_set default_hvac /\ 0 < vt_exh_c p /\ 0 < vt_cat_c p /\
    0 <= vt_exh_ha_amb p /\ 0 <= vt_exh_ha_int p /\ exists y, get_h (outside d s) = Ok y.
Proof.
  intros d p s. destruct (C125_defined r_default_props p d s) as (s' & E); try (cbn; unR; rewrite ?lit_R; lra).
  { intros h H. injection H as <-. cbn. unR. rewrite ?lit_R. split; [lra|]. split; [lra|now right]. }
  exists s'. split; [exact E|]. split; [discriminate|]. repeat (split; [try reflexivity; cbn; unR; rewrite ?lit_R; try lra|]). apply some_h.
Qed.
(** On the move the coefficient of the catalyst, a sphere in the air stream, is computed and reported as that of the engine. *)
Theorem C126_engine_overwritten (pp : pprops R) p d s s' : set_thermal pp p d s = Ok s' -> vt_cat_internal p = true -> 0 < vt_cat_l p ->
  let film := 1 / 2 * (cat_te (th_cat s) + outside d s) in
  reynolds (d_mps d) film (vt_cat_l p) (cat_re (th_cat s')) /\
  (1 <= d_mps d -> sphere_law (cat_re (th_cat s')) film (vt_cat_l p) (fc_htc (th_fc s'))).
Proof.
  intros E X L film. apply step_ok in E. destruct E as (fc & _ & _ & _ & EC & _). rewrite X in EC. apply cat_coeff in EC. destruct EC as (mu & EM & MU & ER & ES).
  unfold film, outside. fold (ambient d s). split.
  - intros m Em. assert (m = mu) by congruence. subst m. rewrite ER. field. lra.
  - intros M. apply sphere_lawful; [exact L|apply ES; exact M].
Qed.
(** The area that multiplies the coefficients: pi to 15 decimals, and the root of the diameter in place of its square. *)
Theorem C126_area_exact (l : R) : 0 <= l -> area_ext l = 3.141592653589793 * sqrt l.
Proof. intros H. rewrite area_value by exact H. unfold f64_pi. rewrite lit_R. reflexivity. Qed.
