(** Conversions, air density, road load, error metric, resampling. *)
From Coq Require Import Lia Lra.
From Verif Require Import Num Numpy CycleModel CycleSpec ListFacts ResampleProofs RateProofs VehModel VehProofs SimModel SimState WalkModel UtilModel UtilSpec.
Local Open Scope R_scope.

(** *** Conversions *)
Lemma pydiv_ok a b r : pydiv (F := R) a b = Ok r <-> b <> 0 /\ r = a / b.
Proof. unfold pydiv. unR. destruct (Reqb_spec b 0); split; try discriminate; [tauto|intros [= <-]; auto|intros [_ ->]; auto]. Qed.
Lemma mpg_value x : x <> 0 -> l__100km_to_mpg (F := R) x = Ok (378500 / 1609 / x) /\ mpg_to_l__100km (F := R) x = Ok (378500 / 1609 / x).
Proof.
  intros X. unfold l__100km_to_mpg, mpg_to_l__100km. split; apply pydiv_ok; unR; rewrite ?lit_R; split; try (field; lra).
  - intros E. apply X. apply (f_equal (fun y => y * (3785 / 1000) * 100 * 1000 / 1609)) in E. field_simplify in E; lra.
  - intros E. apply X. apply (f_equal (fun y => y * (3785 / 1000) * 100 * 1000 / 1609)) in E. field_simplify in E; lra.
Qed.
Lemma mpg_zero : l__100km_to_mpg (F := R) 0 = Err ZeroDivisionError /\ mpg_to_l__100km (F := R) 0 = Err ZeroDivisionError.
Proof.
  unfold l__100km_to_mpg, mpg_to_l__100km, pydiv. unR. rewrite !lit_R. split; match goal with |- (if Reqb ?x 0 then _ else _) = _ => replace x with 0 by field end;
  destruct (Reqb_spec 0 0); congruence.
Qed.
Lemma mph_set_get (c : cyc R) l : get_mph (set_mph c l) = l.
Proof. unfold get_mph, set_mph. cbn [mps]. rewrite map_map. rewrite <- (map_id l) at 2. apply map_ext. intros. unfold MPH_PER_MPS. rewrite lit_R. unR. field. Qed.
Lemma mph_get_set (c : cyc R) : set_mph c (get_mph c) = c.
Proof. destruct c as [ts vs gs rs]. unfold get_mph, set_mph. cbn [mps time_s grade road_type]. rewrite map_map. f_equal.
  rewrite <- (map_id vs) at 2. apply map_ext. intros. unfold MPH_PER_MPS. rewrite lit_R. unR. field. Qed.
Lemma lhv_get_set (p : pprops R) x : pp_fuel_rho p <> 0 -> get_fuel_lhv (set_fuel_lhv p x) = x.
Proof. intros H. unfold get_fuel_lhv, set_fuel_lhv. cbn [pp_air_density pp_grav pp_kwh_per_gge pp_fuel_rho pp_fuel_afr]. unR. rewrite !lit_R. field. auto. Qed.
Lemma lhv_set_get (p : pprops R) : pp_fuel_rho p <> 0 -> set_fuel_lhv p (get_fuel_lhv p) = p.
Proof. intros H. destruct p as [x1 x2 x3 x4 x5]. unfold get_fuel_lhv, set_fuel_lhv. cbn [pp_air_density pp_grav pp_kwh_per_gge pp_fuel_rho pp_fuel_afr] in *. unR. rewrite !lit_R. f_equal. field. auto. Qed.

(** *** Properties *)
Lemma props_equal_iff (a b : pprops R) : physical_properties_equal a b = true <-> a = b.
Proof.
  unfold physical_properties_equal. unR. rewrite !Bool.andb_true_iff, !Reqb_true. destruct a as [x1 x2 x3 x4 x5], b as [y1 y2 y3 y4 y5]; cbn. split; [intros; intuition congruence|intros [= -> -> -> -> ->]; auto].
Qed.

(** *** Air density *)
Lemma Rpow_pos x y : 0 < x -> Rpow_py x y = Rpower x y.
Proof. intros H. unfold Rpow_py. destruct (Req_EM_T x 0); [lra|reflexivity]. Qed.
Lemma rho_value t h : get_rho_air (F := R) t h =
  101290 * Rpow_py ((1504 / 100 - 649 / 100000 * h + 2731 / 10) / (28808 / 100)) (5256 / 1000) / (287 * (t + 27315 / 100)).
Proof. unfold get_rho_air. cbv zeta. unR. rewrite !lit_R. reflexivity. Qed.
Lemma rho_base h : h < 44397 -> 0 < (1504 / 100 - 649 / 100000 * h + 2731 / 10) / (28808 / 100).
Proof. intros. apply Rmult_lt_0_compat; lra. Qed.
Lemma rho_pos t h : -27315 / 100 < t -> h < 44397 -> 0 < get_rho_air (F := R) t h.
Proof.
  intros T H. rewrite rho_value. apply Rmult_lt_0_compat; [|apply Rinv_0_lt_compat; lra]. rewrite Rpow_pos by (apply rho_base; auto). unfold Rpower. pose proof (exp_pos (5256 / 1000 * ln ((1504 / 100 - 649 / 100000 * h + 2731 / 10) / (28808 / 100)))). lra.
Qed.
Lemma rho_temp t t' h : -27315 / 100 < t -> t < t' -> h < 44397 -> get_rho_air (F := R) t' h < get_rho_air t h.
Proof.
  intros T T' H. rewrite !rho_value. apply Rmult_lt_compat_l.
  - rewrite Rpow_pos by (apply rho_base; auto). unfold Rpower. pose proof (exp_pos (5256 / 1000 * ln ((1504 / 100 - 649 / 100000 * h + 2731 / 10) / (28808 / 100)))). lra.
  - apply Rinv_lt_contravar; [apply Rmult_lt_0_compat; lra|lra].
Qed.
Lemma rho_elev t h h' : -27315 / 100 < t -> h < h' -> h' < 44397 -> get_rho_air (F := R) t h' < get_rho_air t h.
Proof.
  intros T H H'. rewrite !rho_value. apply Rmult_lt_compat_r; [apply Rinv_0_lt_compat; lra|]. apply Rmult_lt_compat_l; [lra|].
  rewrite !Rpow_pos by (apply rho_base; lra). apply exp_increasing. apply Rmult_lt_compat_l; [lra|]. apply ln_increasing; [apply rho_base; lra|]. lra.
Qed.
Lemma rho_gas t t' h : -27315 / 100 < t -> -27315 / 100 < t' -> get_rho_air (F := R) t h * (t + 27315 / 100) = get_rho_air t' h * (t' + 27315 / 100).
Proof. intros. rewrite !rho_value. field. lra. Qed.

(** *** Road load *)
Lemma abc_values (v : vehicle R) custom : let '(a, b, c) := drag_coeffs_to_abc v custom in
  b = 0 /\ a * (4448 / 1000) = wheel_rr_coef v * veh_kg v * (981 / 100) /\
  c * (4448 / 1000) * (22369 / 10000) ^ 2 = drag_coef v * (1 / 2 * frontal_area_m2 v * ambient_density custom).
Proof. unfold drag_coeffs_to_abc, N_PER_LBF, MPH_PER_MPS. cbv zeta. unR. rewrite !lit_R. repeat split; field. Qed.
Lemma abc_load (v : vehicle R) custom a b c s : drag_coeffs_to_abc v custom = (a, b, c) ->
  let mph := s * (22369 / 10000) in
  (a + b * mph + c * mph ^ 2) * (4448 / 1000) = road_load (veh_kg v) (wheel_rr_coef v) (981 / 100) (ambient_density custom) (drag_coef v) (frontal_area_m2 v) s.
Proof.
  intros E. pose proof (abc_values v custom) as A. rewrite E in A. destruct A as (-> & A & C). unfold road_load.
  replace ((a + 0 * (s * (22369 / 10000)) + c * (s * (22369 / 10000)) ^ 2) * (4448 / 1000)) with (a * (4448 / 1000) + c * (4448 / 1000) * (22369 / 10000) ^ 2 * s ^ 2) by ring.
  cbv zeta. rewrite A, C. field.
Qed.
Lemma abc_result (v v' : vehicle R) a b c custom d r : abc_to_drag_coeffs v a b c custom = Ok (v', (d, r)) ->
  v' = with_drag v d r /\ d = c * (4448 / 1000) * (22369 / 10000) ^ 2 / (1 / 2 * frontal_area_m2 v * ambient_density custom) /\
  r = a * (4448 / 1000) / veh_kg v / (981 / 100).
Proof.
  unfold abc_to_drag_coeffs. cbv zeta. intros H.
  match type of H with (bindR ?x _) = _ => remember x as run eqn:ER; clear ER end. destruct run as [sd|e]; cbn [bindR] in H; [|discriminate].
  destruct (existsb _ _); [|discriminate]. 
  apply (f_equal (fun x => match x with Ok y => y | Err _ => (v, (0, 0)) end)) in H. cbv beta iota in H.
  pose proof (f_equal fst H) as H1. pose proof (f_equal (fun x => fst (snd x)) H) as H2. pose proof (f_equal (fun x => snd (snd x)) H) as H3.
  cbn [fst snd] in H1, H2, H3. clear H. subst v' d r. unfold N_PER_LBF, MPH_PER_MPS. unR. rewrite !lit_R. repeat split; f_equal; ring.
Qed.
Lemma with_drag_self {F} (v : vehicle F) : with_drag v (drag_coef v) (wheel_rr_coef v) = v.
Proof. destruct v; reflexivity. Qed.
Lemma abc_there_back (v v' : vehicle R) custom a b c b' d r : veh_kg v <> 0 -> frontal_area_m2 v <> 0 -> ambient_density custom <> 0 ->
  drag_coeffs_to_abc v custom = (a, b, c) -> abc_to_drag_coeffs v a b' c custom = Ok (v', (d, r)) -> v' = v /\ d = drag_coef v /\ r = wheel_rr_coef v.
Proof.
  intros K A D E H. apply abc_result in H. destruct H as (Ev & Ed & Er). pose proof (abc_values v custom) as P. rewrite E in P. destruct P as (_ & P1 & P2).
  rewrite P2 in Ed. rewrite P1 in Er.
  assert (d = drag_coef v) as -> by (rewrite Ed; field; auto). assert (r = wheel_rr_coef v) as -> by (rewrite Er; field; auto).
  repeat split; auto. rewrite Ev. apply with_drag_self.
Qed.
Lemma abc_back_there (v v' : vehicle R) custom a b c d r : veh_kg v <> 0 -> frontal_area_m2 v <> 0 -> ambient_density custom <> 0 ->
  abc_to_drag_coeffs v a b c custom = Ok (v', (d, r)) -> drag_coeffs_to_abc v' custom = (a, 0, c).
Proof.
  intros K A D H. apply abc_result in H. destruct H as (Ev & Ed & Er). pose proof (abc_values v' custom) as P.
  destruct (drag_coeffs_to_abc v' custom) as [[a' b'] c']. destruct P as (-> & P1 & P2). rewrite Ev in P1, P2. cbn [with_drag wheel_rr_coef veh_kg drag_coef frontal_area_m2] in P1, P2.
  rewrite Er in P1. rewrite Ed in P2.
  assert (a' = a). { apply (Rmult_eq_reg_r (4448 / 1000)); [|lra]. rewrite P1. field; auto. }
  assert (c' = c). { apply (Rmult_eq_reg_r (4448 / 1000 * (22369 / 10000) ^ 2)); [|lra]. rewrite <- !Rmult_assoc, P2. field; auto. }
  subst. reflexivity.
Qed.

(** *** Preset arrays *)
Section Preset.
  Context {F : Type} {N : Num F}.
  Lemma walk_preset (d : sdrive F) rows s o : sim_drive_walk (with_rows d rows) s o = sim_drive_walk d s o.
  Proof. reflexivity. Qed.
  Lemma drive_preset (d : sdrive F) rows s o : sim_drive (with_rows d rows) s o = sim_drive d s o.
  Proof.
    unfold sim_drive. cbn [with_rows d_veh d_sp]. change (with_count (with_rows d rows) 0) with (with_rows (with_count d 0) rows).
    destruct s as [s|]; [apply walk_preset|]. destruct (veh_pt_type (d_veh d)); try apply walk_preset.
    generalize (with_count d 0). intros d0. destruct (sim_count_max (d_sp d)) as [|n]; cbn [balance_loop].
    - cbn [with_rows d_veh d_hev_sim_count d_sp]. match goal with |- context [if ?c then _ else _] => destruct c end; reflexivity.
    - cbn [with_rows d_veh d_hev_sim_count d_sp]. match goal with |- context [if ?c then _ else _] => destruct c end; reflexivity.
  Qed.
  Lemma impose_preset (d : sdrive F) s o : sim_drive (impose_all d) s o = sim_drive d s o.
  Proof. unfold impose_all, upd_ctl_rows. apply drive_preset. Qed.
End Preset.
