(** Lemmas for the label properties: dictionary, combined and adjusted values, utility factor, acceleration. *)
From Coq Require Import Ascii Lia.
From Verif Require Import Num Numpy ListFacts CycleModel CycleSpec ConcatProofs ResampleProofs VehModel SimModel SimState WalkModel FrameProofs PostModel UtilModel LabelModel LabelSpec.
Local Open Scope R_scope.

(** *** The dictionary *)
Ltac dict := cbv [dnums dzeros dset fold_left map String.eqb Ascii.eqb Bool.eqb fst snd].
Definition start (v : vehicle R) (a : adj_coef R) : ldict R := [("veh", LVeh v); ("adjParams", LAdj a)]%string.
Definition fuel_dict v a mu mh lc au ah ac : ldict R :=
  [("veh", LVeh v); ("adjParams", LAdj a); ("labUddsMpgge", LNum mu); ("labHwyMpgge", LNum mh); ("labCombMpgge", LNum lc);
   ("labUddsKwhPerMile", LNum 0); ("labHwyKwhPerMile", LNum 0); ("labCombKwhPerMile", LNum 0);
   ("adjUddsMpgge", LNum au); ("adjHwyMpgge", LNum ah); ("adjCombMpgge", LNum ac);
   ("adjUddsKwhPerMile", LNum 0); ("adjHwyKwhPerMile", LNum 0); ("adjCombKwhPerMile", LNum 0); ("adjUddsEssKwhPerMile", LNum 0);
   ("adjHwyEssKwhPerMile", LNum 0); ("adjCombEssKwhPerMilenetRangeMiles", LNum 0); ("UF", LNum 0)]%string.
Definition elec_dict v a bu bh bc ku kh kc eu eh ec range : ldict R :=
  [("veh", LVeh v); ("adjParams", LAdj a); ("labUddsMpgge", LNum 0); ("labHwyMpgge", LNum 0); ("labCombMpgge", LNum 0);
   ("labUddsKwhPerMile", LNum bu); ("labHwyKwhPerMile", LNum bh); ("labCombKwhPerMile", LNum bc);
   ("adjUddsMpgge", LNum 0); ("adjHwyMpgge", LNum 0); ("adjCombMpgge", LNum 0);
   ("adjUddsKwhPerMile", LNum ku); ("adjHwyKwhPerMile", LNum kh); ("adjCombKwhPerMile", LNum kc); ("adjUddsEssKwhPerMile", LNum eu);
   ("adjHwyEssKwhPerMile", LNum eh); ("adjCombEssKwhPerMile", LNum ec); ("netRangeMiles", LNum range); ("UF", LNum 0)]%string.

Lemma label_fuel v a mu mh bu bh : veh_pt_type v <> BEV ->
  label_values (start v a) v a mu mh bu bh =
  if (Reqb mu 0 || Reqb mh 0)%bool then Err ZeroDivisionError
  else let au := adj_mpgge (city_intercept a) (city_slope a) mu in
       let ah := adj_mpgge (hwy_intercept a) (hwy_slope a) mh in
       Ok (fuel_dict v a mu mh (comb_mpgge mu mh) au ah (comb_mpgge au ah)).
Proof.
  intros H. unfold label_values. cbv zeta. unR.
  assert (E : match veh_pt_type v with BEV => true | _ => false end = false) by (destruct (veh_pt_type v); congruence).
  rewrite E. cbn [negb andb]. destruct (Reqb mu 0 || Reqb mh 0)%bool; [reflexivity|].
  cbn [bindR]. unfold start, fuel_dict. dict. reflexivity.
Qed.
Lemma label_elec v a mu mh bu bh : veh_pt_type v = BEV ->
  label_values (start v a) v a mu mh bu bh =
  let ku := adj_kwh (city_intercept a) (city_slope a) bu / label_chg_eff in
  let kh := adj_kwh (hwy_intercept a) (hwy_slope a) bh / label_chg_eff in
  let kc := comb_kwh ku kh in
  Ok (elec_dict v a bu bh (comb_kwh bu bh) ku kh kc (ku * label_chg_eff) (kh * label_chg_eff) (kc * label_chg_eff)
        (ess_max_kwh v / (kc * label_chg_eff))).
Proof.
  intros H. unfold label_values. cbv zeta. unR. rewrite H. cbn [negb andb bindR]. unfold start, elec_dict. dict. reflexivity.
Qed.
Definition phev_dict v a u h uf cs cd mi rng : ldict R :=
  [("veh", LVeh v); ("adjParams", LAdj a); ("phev_calcs", LCalcs u h);
       ("labUddsMpgge", LNum (labMpgge u)); ("labHwyMpgge", LNum (labMpgge h)); ("labCombMpgge", LNum (comb_mpgge (labMpgge u) (labMpgge h)));
       ("labUddsKwhPerMile", LNum (labKwhPerMile u)); ("labHwyKwhPerMile", LNum (labKwhPerMile h));
       ("labCombKwhPerMile", LNum (comb_kwh (labKwhPerMile u) (labKwhPerMile h)));
       ("adjUddsMpgge", LNum (adjMpgge u)); ("adjHwyMpgge", LNum (adjMpgge h)); ("adjCombMpgge", LNum (comb_mpgge (adjMpgge u) (adjMpgge h)));
       ("adjCsCombMpgge", LNum cs); ("adjCdCombMpgge", LNum cd);
       ("adjUddsKwhPerMile", LNum (adjKwhPerMile u)); ("adjHwyKwhPerMile", LNum (adjKwhPerMile h));
       ("adjCombKwhPerMile", LNum (comb_kwh (adjKwhPerMile u) (adjKwhPerMile h)));
       ("adjUddsEssKwhPerMile", LNum (adjEssKwhPerMile u)); ("adjHwyEssKwhPerMile", LNum (adjEssKwhPerMile h));
       ("adjCombEssKwhPerMile", LNum (comb_kwh (adjEssKwhPerMile u) (adjEssKwhPerMile h)));
       ("UF", LNum uf); ("netPhevCDMiles", LNum mi); ("netRangeMiles", LNum rng)]%string.
Lemma label_phev v a u h out : phev_label (start v a) v u h = Ok out ->
  let cs := comb_mpgge (adjCsMpgge u) (adjCsMpgge h) in
  let cd := comb_mpgge (adjCdMpgge u) (adjCdMpgge h) in
  let mi := comb_kwh (adjCdMiles u) (adjCdMiles h) in
  exists uf, interpf mi = Ok uf /\
    out = phev_dict v a u h uf cs cd mi ((fs_kwh v / label_kwh_per_gge - mi / cd) * cs + mi).
Proof.
  unfold phev_label. cbv zeta. remember (interpf (comb_kwh (adjCdMiles u) (adjCdMiles h))) as q eqn:Eq. destruct q as [uf|]; [|discriminate].
  cbn [bindR]. intros H. exists uf. split; [reflexivity|]. apply (f_equal (fun r => match r with Ok x => x | Err _ => [] end)) in H.
  rewrite <- H. unfold start, phev_dict. dict. unR. reflexivity.
Qed.

(** What get_label_fe is made of. *)
Definition accel_entry (v : vehicle R) (a : sdrive R) : R := net_accel (map (fun r => mph_ach (spd r)) (d_rows a)) (time_s (accel_cycle (F := R))).
Definition closing (t : R) : ldict R := [("netAccel", LNum t); ("resFound", LText "model needs to be implemented for this")]%string.
Lemma dset_fresh (d : ldict R) k x : ~ In k (map fst d) -> dset d k x = d ++ [(k, x)].
Proof.
  induction d as [|[k' w] d IH]; intros H; [reflexivity|]. cbn [dset app]. destruct (String.eqb_spec k' k) as [->|E].
  - destruct H. now left.
  - rewrite IH; [reflexivity|]. intros I. apply H. now right.
Qed.
Inductive label_of (udds hwfet : cyc R) (v : vehicle R) (year : Z) (out : ldict R) : Prop :=
| label_is_fuel u h a :
    veh_pt_type v <> BEV -> veh_pt_type v <> PHEV ->
    sim_drive (new_sd v label_props default_sim_params udds) None None = Ok u ->
    sim_drive (new_sd v label_props default_sim_params hwfet) None None = Ok h ->
    run_simdrive_for_accel_test (new_sd v label_props default_sim_params accel_cycle) = Ok a ->
    post_mpgge u <> 0 -> post_mpgge h <> 0 ->
    out = (let ad := adj_params year in
           let au := adj_mpgge (city_intercept ad) (city_slope ad) (post_mpgge u) in
           let ah := adj_mpgge (hwy_intercept ad) (hwy_slope ad) (post_mpgge h) in
           fuel_dict v ad (post_mpgge u) (post_mpgge h) (comb_mpgge (post_mpgge u) (post_mpgge h)) au ah (comb_mpgge au ah))
          ++ closing (accel_entry v a) -> label_of udds hwfet v year out
| label_is_elec u h a :
    veh_pt_type v = BEV ->
    sim_drive (new_sd v label_props default_sim_params udds) None None = Ok u ->
    sim_drive (new_sd v label_props default_sim_params hwfet) None None = Ok h ->
    run_simdrive_for_accel_test (new_sd v label_props default_sim_params accel_cycle) = Ok a ->
    out = (let ad := adj_params year in
           let bu := battery_kwh_per_mi (set_post_scalars u) in
           let bh := battery_kwh_per_mi (set_post_scalars h) in
           let ku := adj_kwh (city_intercept ad) (city_slope ad) bu / label_chg_eff in
           let kh := adj_kwh (hwy_intercept ad) (hwy_slope ad) bh / label_chg_eff in
           let kc := comb_kwh ku kh in
           elec_dict v ad bu bh (comb_kwh bu bh) ku kh kc (ku * label_chg_eff) (kh * label_chg_eff) (kc * label_chg_eff)
             (ess_max_kwh v / (kc * label_chg_eff)))
          ++ closing (accel_entry v a) -> label_of udds hwfet v year out
| label_is_phev u0 h0 u h peak ru rh cu ch uf a :
    veh_pt_type v = PHEV ->
    sim_drive (new_sd v label_props default_sim_params udds) None None = Ok u0 ->
    sim_drive (new_sd v label_props default_sim_params hwfet) None None = Ok h0 ->
    sim_drive u0 (Some (max_soc v)) None = Ok u -> sim_drive h0 (Some (max_soc v)) None = Ok h ->
    get_mcPeakEff v = Ok peak -> phev_runs_of u = Ok ru -> phev_runs_of h = Ok rh ->
    phev_values v peak (city_intercept (adj_params year)) (city_slope (adj_params year)) ru = Ok cu ->
    phev_values v peak (hwy_intercept (adj_params year)) (hwy_slope (adj_params year)) rh = Ok ch ->
    run_simdrive_for_accel_test (new_sd v label_props default_sim_params accel_cycle) = Ok a ->
    interpf (comb_kwh (adjCdMiles cu) (adjCdMiles ch)) = Ok uf ->
    out = (let cs := comb_mpgge (adjCsMpgge cu) (adjCsMpgge ch) in
           let cd := comb_mpgge (adjCdMpgge cu) (adjCdMpgge ch) in
           let mi := comb_kwh (adjCdMiles cu) (adjCdMiles ch) in
           phev_dict v (adj_params year) cu ch uf cs cd mi ((fs_kwh v / label_kwh_per_gge - mi / cd) * cs + mi))
          ++ closing (accel_entry v a) -> label_of udds hwfet v year out.

Ltac bind_in H x E := lazymatch type of H with bindR ?r _ = Ok _ =>
  let q := fresh "q" in remember r as q eqn:E; symmetry in E; destruct q as [x|]; [cbn [bindR] in H|discriminate H] end.
Lemma closed (d : ldict R) t : ~ In "netAccel"%string (map fst d) -> ~ In "resFound"%string (map fst d) ->
  dset (dset d "netAccel" (LNum t)) "resFound" (LText "model needs to be implemented for this") = d ++ closing t.
Proof.
  intros H1 H2. rewrite (dset_fresh d) by auto. rewrite dset_fresh; [now rewrite <- app_assoc|].
  rewrite map_app, in_app_iff. cbn. intros [I|[I|[]]]; [auto|discriminate].
Qed.
Ltac nokey := unfold fuel_dict, elec_dict, phev_dict; cbn [map fst In]; intros I; repeat (destruct I as [I|I]; [discriminate I|]); destruct I.
Lemma get_label_inv udds hwfet v year out : get_label_fe udds hwfet v year = Ok out -> label_of udds hwfet v year out.
Proof.
  unfold get_label_fe. cbv zeta. intros H. bind_in H u Eu. bind_in H h Eh. bind_in H d Ed. bind_in H a Ea.
  match type of H with Ok ?x = Ok _ => assert (Ho : out = x) by congruence end. clear H. change (map (fun r => mph_ach (spd r)) (d_rows a)) with (map (fun r => mph_ach (spd r)) (d_rows a)) in Ho.
  fold (start v (adj_params year)) in Ed. fold (accel_entry v a) in Ho.
  destruct (veh_pt_type v) eqn:Ept.
  1,2,4: try (rewrite label_fuel in Ed by congruence; remember (post_mpgge u) as mu eqn:Emu; remember (post_mpgge h) as mh eqn:Emh;
    destruct (Reqb_spec mu 0) as [?|N1]; [discriminate Ed|]; destruct (Reqb_spec mh 0) as [?|N2]; [discriminate Ed|];
    cbn [orb] in Ed; cbv zeta in Ed;
    match type of Ed with Ok ?x = Ok _ => assert (Hd : d = x) by congruence end; clear Ed;
    eapply (label_is_fuel _ _ _ _ _ u h a); try congruence; try (rewrite Ept; discriminate); cbv zeta; rewrite <- Emu, <- Emh, <- Hd, Ho;
    apply closed; rewrite Hd; nokey).
  all: cycle 1.
  - (* PHEV *)
    bind_in Ed u1 Eu1. bind_in Ed h1 Eh1. bind_in Ed peak Ep. bind_in Ed ru Eru. bind_in Ed cu Ecu. bind_in Ed rh Erh. bind_in Ed ch Ech.
    apply label_phev in Ed. destruct Ed as (uf & Euf & Hd).
    eapply (label_is_phev _ _ _ _ _ u h u1 h1 peak ru rh cu ch uf a); eauto. cbv zeta. cbv zeta in Hd. rewrite <- Hd, Ho. apply closed; rewrite Hd; nokey.
  - rewrite label_elec in Ed by auto. cbv zeta in Ed.
    match type of Ed with Ok ?x = Ok _ => assert (Hd : d = x) by congruence end; clear Ed.
    eapply (label_is_elec _ _ _ _ _ u h a); eauto. cbv zeta. rewrite <- Hd, Ho. apply closed; rewrite Hd; nokey.
Qed.

(** *** Combined and adjusted values *)
Lemma comb_mpgge_R a b : a <> 0 -> b <> 0 -> comb_mpgge a b = / (55 / 100 * / a + 45 / 100 * / b).
Proof. intros Ha Hb. unfold comb_mpgge. unR. rewrite !lit_R. unfold Rdiv. rewrite Rmult_1_l. reflexivity. Qed.
Lemma comb_kwh_R a b : comb_kwh a b = 55 / 100 * a + 45 / 100 * b.
Proof. unfold comb_kwh. unR. rewrite !lit_R. reflexivity. Qed.
Lemma combined_mpg_ok a b : a <> 0 -> b <> 0 -> combined_mpg a b (comb_mpgge a b).
Proof. intros Ha Hb. unfold combined_mpg. rewrite comb_mpgge_R by auto. now rewrite Rinv_inv. Qed.
Lemma combined_between a b c : 0 < a -> 0 < b -> combined_mpg a b c -> between a b c.
Proof.
  intros Ha Hb H. unfold combined_mpg in H.
  assert (Pa := Rinv_0_lt_compat a Ha). assert (Pb := Rinv_0_lt_compat b Hb).
  assert (Pc : 0 < / c) by lra.
  assert (Hc : 0 < c). { rewrite <- (Rinv_inv c). now apply Rinv_0_lt_compat. }
  assert (W : forall x y, 0 < x -> 0 < y -> x <= y -> / y <= / x) by (intros; now apply Rinv_le_contravar).
  unfold between. destruct (Rle_dec a b) as [L|L].
  - rewrite Rmin_left, Rmax_right by lra. assert (W1 := W a b Ha Hb L). split.
    + rewrite <- (Rinv_inv a), <- (Rinv_inv c). apply Rinv_le_contravar; lra.
    + rewrite <- (Rinv_inv b), <- (Rinv_inv c). apply Rinv_le_contravar; lra.
  - rewrite Rmin_right, Rmax_left by lra. assert (W1 := W b a Hb Ha ltac:(lra)). split.
    + rewrite <- (Rinv_inv b), <- (Rinv_inv c). apply Rinv_le_contravar; lra.
    + rewrite <- (Rinv_inv a), <- (Rinv_inv c). apply Rinv_le_contravar; lra.
Qed.
Lemma combined_kwh_between a b c : combined_kwh a b c -> between a b c.
Proof. unfold combined_kwh, between. intros ->. unfold Rmin, Rmax. destruct (Rle_dec a b); lra. Qed.

Lemma adj_city year : city_intercept (adj_params (F := R) year) = fst (coef_city year) /\ city_slope (adj_params (F := R) year) = snd (coef_city year).
Proof. unfold adj_params, coef_city. destruct (year <? 2017)%Z; cbn [city_intercept city_slope fst snd]; rewrite !lit_R; auto. Qed.
Lemma adj_hwy year : hwy_intercept (adj_params (F := R) year) = fst (coef_hwy year) /\ hwy_slope (adj_params (F := R) year) = snd (coef_hwy year).
Proof. unfold adj_params, coef_hwy. destruct (year <? 2017)%Z; cbn [hwy_intercept hwy_slope fst snd]; rewrite !lit_R; auto. Qed.
Lemma coef_signs year : 0 < fst (coef_city year) < 1 /\ 1 < snd (coef_city year) < 2 /\ 0 < fst (coef_hwy year) < 1 /\ 1 < snd (coef_hwy year) < 2.
Proof. unfold coef_city, coef_hwy. destruct (year <? 2017)%Z; cbn [fst snd]; lra. Qed.
Lemma adj_mpgge_R i s m : adj_mpgge i s m = / (i + s * / m).
Proof. unfold adj_mpgge. unR. unfold Rdiv. now rewrite Rmult_1_l. Qed.
Lemma adj_mpgge_ok c m : adjusted_mpg c m (adj_mpgge (fst c) (snd c) m).
Proof. unfold adjusted_mpg. now rewrite adj_mpgge_R, Rinv_inv. Qed.
Lemma label_consts : label_kwh_per_gge = 33.7 /\ label_max_epa_adj = 3 / 10 /\ label_chg_eff = 86 / 100.
Proof. unfold label_kwh_per_gge, label_max_epa_adj, label_chg_eff. rewrite !lit_R. repeat split; lra. Qed.
Lemma adj_kwh_R i s k : adj_kwh i s k = 33.7 / Rmax (/ (i + s * (k / 33.7))) (7 / 10 * (33.7 / k)).
Proof.
  unfold adj_kwh. destruct label_consts as (-> & -> & _). unR. rewrite nmax_R. unfold Rdiv at 1. rewrite Rmult_1_l.
  replace (1 / (i + s / (1 / k * 33.7))) with (/ (i + s * (k / 33.7))).
  - replace (1 / k * 33.7 * (1 - 3 / 10)) with (7 / 10 * (33.7 / k)) by (unfold Rdiv; lra).
    unfold Rdiv. ring.
  - unfold Rdiv. rewrite !Rmult_1_l. rewrite Rinv_mult, Rinv_inv. reflexivity.
Qed.
Lemma adj_kwh_ok c k : 0 < k -> 0 < fst c -> 0 < snd c -> adjusted_kwh c k (adj_kwh (fst c) (snd c) k).
Proof.
  intros Hk Hc1 Hc2. unfold adjusted_kwh. rewrite adj_kwh_R. destruct c as [i s]; cbn [fst snd] in *.
  assert (P : 0 < s * (k / 33.7)) by (apply Rmult_lt_0_compat; [lra|]; apply Rdiv_lt_0_compat; lra).
  assert (E1 : 33.7 / / (i + s * (k / 33.7)) = 33.7 * i + s * k) by (field; lra).
  assert (E2 : 33.7 / (7 / 10 * (33.7 / k)) = 10 / 7 * k) by (field; lra).
  assert (P1 : 0 < / (i + s * (k / 33.7))) by (apply Rinv_0_lt_compat; lra).
  assert (P2 : 0 < 7 / 10 * (33.7 / k)) by (apply Rmult_lt_0_compat; [lra|]; apply Rdiv_lt_0_compat; lra).
  rewrite <- E1, <- E2. unfold Rmax. destruct (Rle_dec (/ (i + s * (k / 33.7))) (7 / 10 * (33.7 / k))) as [L|L].
  - rewrite Rmin_right; [reflexivity|]. apply Rmult_le_compat_l; [lra|]. now apply Rinv_le_contravar.
  - rewrite Rmin_left; [reflexivity|]. apply Rmult_le_compat_l; [lra|]. apply Rinv_le_contravar; lra.
Qed.
(** The adjustment raises the consumption, by at most a factor 10/7. *)
Lemma adjusted_kwh_bounds c lab adj : 0 < lab -> 0 < fst c -> 1 < snd c -> adjusted_kwh c lab adj -> lab <= adj <= 10 / 7 * lab.
Proof.
  intros Hl Hc1 Hc2 ->. split; [|apply Rmin_r]. apply Rmin_glb; nra.
Qed.
Lemma adjusted_kwh_mono c l1 l2 a1 a2 : 0 < l1 <= l2 -> 0 < snd c -> adjusted_kwh c l1 a1 -> adjusted_kwh c l2 a2 -> a1 <= a2.
Proof.
  intros Hl Hc -> ->. apply Rmin_glb; [apply Rle_trans with (1 := Rmin_l _ _)|apply Rle_trans with (1 := Rmin_r _ _)]; nra.
Qed.

(** *** Utility factor *)
Lemma prev_from_ok (knots : list (R * R)) x x0 y0 : increasing (x0 :: map fst knots) -> x0 <= x ->
  exists i xi, nth_error ((x0, y0) :: knots) i = Some (xi, prev_from x y0 knots) /\ xi <= x /\
    (forall j xj yj, (i < j)%nat -> nth_error ((x0, y0) :: knots) j = Some (xj, yj) -> x < xj).
Proof.
  revert x0 y0. induction knots as [|[x1 y1] r IH]; intros x0 y0 Hi Hx; cbn [prev_from].
  - exists O, x0. cbn. repeat split; auto. intros [|j] xj yj Hj; [lia|]. cbn. destruct j; discriminate.
  - unR. destruct (Rltb_spec x x1) as [L|L].
    + exists O, x0. repeat split; auto. intros [|j] xj yj Hj E; [lia|]. cbn [nth_error] in E.
      cbn [map fst] in Hi. apply increasing_cons in Hi as [Hi _].
      assert (x1 <= xj). { destruct j as [|j]; [cbn in E; injection E; intros; lra|]. left. eapply (Hi O (S j) x1 xj); [lia|reflexivity|].
        cbn [nth_error] in *. apply map_nth_error with (f := fst) in E. exact E. }
      lra.
    + cbn [map fst] in Hi. apply increasing_cons in Hi as [Hi _].
      apply Rnot_lt_le in L. destruct (IH x1 y1 Hi L) as (i & xi & E & Hxi & Hn). exists (S i), xi. repeat split; auto.
      intros [|j] xj yj Hj Ej; [lia|]. apply (Hn j xj yj); [lia|exact Ej].
Qed.
Lemma uf_length : length uf_table = 602%nat. Proof. reflexivity. Qed.
Fixpoint zsorted (l : list Z) : bool := match l with a :: (b :: _) as r => ((a <=? b)%Z && zsorted r)%bool | _ => true end.
Lemma zsorted_nth l : zsorted l = true -> forall i j a b, (i <= j)%nat -> nth_error l i = Some a -> nth_error l j = Some b -> (a <= b)%Z.
Proof.
  induction l as [|x l IH]; intros H i j a b Hij Ha Hb; [destruct i; discriminate|].
  assert (Hl : zsorted l = true). { destruct l; [reflexivity|]. cbn [zsorted] in H. now apply andb_prop in H. }
  destruct j as [|j].
  - assert (i = O) by lia. subst i. cbn in Ha, Hb. injection Ha; injection Hb; intros; lia.
  - destruct i as [|i].
    + cbn [nth_error] in Ha, Hb. injection Ha as <-. destruct l as [|y l]; [destruct j; discriminate|].
      cbn [zsorted] in H. apply andb_prop in H as [H _]. apply Z.leb_le in H.
      apply Z.le_trans with y; [auto|]. apply (IH Hl O j y b); auto; lia.
    + apply (IH Hl i j a b); auto; lia.
Qed.
Lemma uf_sorted i j a b : (i <= j)%nat -> nth_error uf_table i = Some a -> nth_error uf_table j = Some b -> (a <= b)%Z.
Proof. apply zsorted_nth. vm_compute. reflexivity. Qed.
Lemma uf_first : nth_error uf_table 0 = Some 0%Z. Proof. reflexivity. Qed.
Lemma uf_second : nth_error uf_table 1 = Some 2455%Z. Proof. reflexivity. Qed.
Lemma uf_last_entry : nth_error uf_table 601 = Some 100000%Z. Proof. vm_compute. reflexivity. Qed.
Lemma uf_range i a : nth_error uf_table i = Some a -> (0 <= a <= 100000)%Z.
Proof.
  intros H. assert (Hi : (i < 602)%nat). { rewrite <- uf_length. apply nth_error_Some. congruence. }
  split; [apply (uf_sorted 0 i); [lia|apply uf_first|auto]|apply (uf_sorted i 601); [lia|auto|apply uf_last_entry]].
Qed.
Lemma uf_knot i z : nth_error uf_table i = Some z -> nth_error (uf_knots (F := R)) i = Some (uf_miles i, IZR z / 100000).
Proof.
  intros H. assert (Hi : (i < 602)%nat). { rewrite <- uf_length. apply nth_error_Some. congruence. }
  assert (C : forall (l1 l2 : list R) k a b, nth_error l1 k = Some a -> nth_error l2 k = Some b -> nth_error (combine l1 l2) k = Some (a, b)).
  { induction l1 as [|u l1 IH]; intros [|w l2] [|k] a b E1 E2; try discriminate; cbn in *; [congruence|auto]. }
  unfold uf_knots. apply C.
  - destruct i as [|i]; [reflexivity|]. cbn [nth_error uf_miles].
    rewrite (map_nth_error _ i _ (d := i)); [|rewrite nth_error_nth' with (d := O) by (rewrite seq_length; lia); now rewrite seq_nth by lia].
    rewrite nofN_R. f_equal. rewrite INR_IZR_INZ. f_equal. lia.
  - rewrite (map_nth_error _ i _ H). now rewrite lit_R.
Qed.
Lemma uf_knots_length : length (uf_knots (F := R)) = 602%nat.
Proof. unfold uf_knots. rewrite combine_length. cbn [length]. rewrite !map_length, seq_length, uf_length. reflexivity. Qed.
Lemma uf_miles_lt i j : (i < j)%nat -> uf_miles i < uf_miles j.
Proof. intros H. destruct j as [|j]; [lia|]. destruct i as [|i]; cbn [uf_miles]; apply IZR_lt; lia. Qed.
Lemma uf_miles_le i j : (i <= j)%nat -> uf_miles i <= uf_miles j.
Proof. intros H. destruct (Nat.eq_dec i j) as [->|]; [lra|]. left. apply uf_miles_lt. lia. Qed.
Lemma uf_knot_inv i p : nth_error (uf_knots (F := R)) i = Some p -> exists z, nth_error uf_table i = Some z /\ p = (uf_miles i, IZR z / 100000).
Proof.
  intros H. assert (Hi : (i < 602)%nat). { rewrite <- uf_knots_length. apply nth_error_Some. congruence. }
  destruct (nth_error uf_table i) as [z|] eqn:E; [|apply nth_error_None in E; rewrite uf_length in E; lia].
  exists z. split; auto. apply uf_knot in E. congruence.
Qed.
Lemma uf_increasing : increasing (map fst (uf_knots (F := R))).
Proof.
  intros i j x y Hij Hx Hy.
  assert (W : forall k w, nth_error (map fst (uf_knots (F := R))) k = Some w -> w = uf_miles k).
  { intros k w Hk. rewrite nth_error_map in Hk. destruct (nth_error uf_knots k) as [p|] eqn:E; [|discriminate].
    apply uf_knot_inv in E as (z & _ & ->). cbn in Hk. congruence. }
  rewrite (W i x Hx), (W j y Hy). now apply uf_miles_lt.
Qed.
Lemma utility_factor_unique m u w : utility_factor m u -> utility_factor m w -> u = w.
Proof.
  intros (i & z & Hz & -> & L1 & _ & N1) (j & z' & Hz' & -> & L2 & _ & N2).
  assert (Hi : (i < 602)%nat) by (rewrite <- uf_length; apply nth_error_Some; congruence).
  assert (Hj : (j < 602)%nat) by (rewrite <- uf_length; apply nth_error_Some; congruence).
  assert (i = j). { destruct (Nat.lt_trichotomy i j) as [H|[H|H]]; auto; exfalso; [specialize (N1 j ltac:(lia))|specialize (N2 i ltac:(lia))]; lra. }
  subst j. congruence.
Qed.
Lemma interpf_ok m : 0 <= m <= 1201 -> exists u, interpf m = Ok u /\ utility_factor m u.
Proof.
  intros Hm. unfold interpf. pose proof uf_increasing as Hi. pose proof uf_knots_length as HL.
  pose proof (uf_knot 0 0 uf_first) as K0. pose proof (uf_knot 601 _ uf_last_entry) as KL.
  pose proof uf_knot_inv as KI.
  remember (uf_knots (F := R)) as kn eqn:Ek. clear Ek. destruct kn as [|[x0 y0] r]; [discriminate|].
  cbn in K0. injection K0 as -> ->.
  assert (EL : last ((0, 0 / 100000) :: r) (0, 0 / 100000) = (uf_miles 601, 100000 / 100000)).
  { rewrite last_nth. rewrite HL. apply nth_error_nth with (d := (0, 0 / 100000)) in KL. exact KL. }
  unfold interp_prev. rewrite EL. cbn [fst]. unR. replace (uf_miles 601) with 1201 by reflexivity.
  destruct (Rltb_spec m 0) as [?|_]; [lra|]. destruct (Rltb_spec 1201 m) as [?|_]; [lra|]. cbn [orb].
  eexists. split; [reflexivity|].
  destruct (prev_from_ok r m 0 (0 / 100000) Hi ltac:(lra)) as (i & xi & E & Hxi & Hn).
  destruct (KI _ _ E) as (z & Hz & Hp). exists i, z. injection Hp as H1 H2. repeat split; auto.
  - rewrite <- H1. auto.
  - replace (uf_miles 601) with 1201 by reflexivity. lra.
  - intros j Hj. assert (Hjl : (j < length ((0, 0 / 100000)%R :: r))%nat) by (rewrite HL; lia).
    apply nth_error_Some in Hjl. remember (nth_error ((0, 0 / 100000) :: r) j) as q eqn:Eq. destruct q as [[xj yj]|]; [|congruence].
    symmetry in Eq. specialize (Hn j xj yj ltac:(lia) Eq). destruct (KI _ _ Eq) as (zj & _ & Hpj). injection Hpj as -> _. auto.
Qed.
Lemma interpf_err m : m < 0 \/ 1201 < m -> interpf m = Err ValueError.
Proof.
  intros Hm. unfold interpf. pose proof uf_knots_length as HL.
  pose proof (uf_knot 0 0 uf_first) as K0. pose proof (uf_knot 601 _ uf_last_entry) as KL.
  remember (uf_knots (F := R)) as kn eqn:Ek. clear Ek. destruct kn as [|[x0 y0] r]; [discriminate|].
  cbn in K0. injection K0 as -> ->.
  assert (EL : last ((0, 0 / 100000) :: r) (0, 0 / 100000) = (uf_miles 601, 100000 / 100000)).
  { rewrite last_nth. rewrite HL. apply nth_error_nth with (d := (0, 0 / 100000)) in KL. exact KL. }
  unfold interp_prev. rewrite EL. cbn [fst]. unR. replace (uf_miles 601) with 1201 by reflexivity.
  destruct (Rltb_spec m 0) as [?|?]; [reflexivity|]. destruct (Rltb_spec 1201 m) as [?|?]; [reflexivity|]. lra.
Qed.
Lemma interpf_spec m u : interpf m = Ok u <-> utility_factor m u.
Proof.
  split.
  - intros H. destruct (Rle_dec 0 m) as [L1|L1]; [|rewrite interpf_err in H by lra; discriminate].
    destruct (Rle_dec m 1201) as [L2|L2]; [|rewrite interpf_err in H by lra; discriminate].
    destruct (interpf_ok m (conj L1 L2)) as (w & Hw & Hu). rewrite Hw in H. injection H as <-. auto.
  - intros H. assert (Hm : 0 <= m <= 1201).
    { destruct H as (i & z & _ & _ & L1 & L2 & _). replace (uf_miles 601) with 1201 in L2 by reflexivity. split; [|auto].
      apply Rle_trans with (2 := L1). apply (uf_miles_le 0 i). lia. }
    destruct (interpf_ok m Hm) as (w & Hw & Hu). rewrite Hw. f_equal. eapply utility_factor_unique; eauto.
Qed.
Lemma uf_between m u : utility_factor m u -> 0 <= u <= 1.
Proof. intros (i & z & Hz & -> & _). apply uf_range in Hz as [H1 H2]. apply IZR_le in H1, H2. lra. Qed.
Lemma uf_mono m m' u u' : m <= m' -> utility_factor m u -> utility_factor m' u' -> u <= u'.
Proof.
  intros Hm (i & z & Hz & -> & L1 & _ & N1) (j & z' & Hz' & -> & L2 & _ & N2).
  assert (Hi : (i < 602)%nat) by (rewrite <- uf_length; apply nth_error_Some; congruence).
  assert (Hj : (j < 602)%nat) by (rewrite <- uf_length; apply nth_error_Some; congruence).
  assert (i <= j)%nat. { destruct (le_dec i j) as [|H]; auto. specialize (N2 i ltac:(lia)). lra. }
  assert (H1 := uf_sorted i j z z' ltac:(auto) Hz Hz'). apply IZR_le in H1. lra.
Qed.
Lemma uf_zero m u : utility_factor m u -> (u = 0 <-> m < 1).
Proof.
  intros (i & z & Hz & -> & L1 & _ & N1). split.
  - intros E. destruct i as [|i]; [apply (N1 1%nat); lia|].
    assert (2455 <= z)%Z by (apply (uf_sorted 1 (S i)); [lia|apply uf_second|auto]). apply IZR_le in H. lra.
  - intros Hm. destruct i as [|i]; [cbn in Hz; injection Hz as <-; lra|].
    assert (H := uf_miles_le 1 (S i) ltac:(lia)). cbn [uf_miles] in H, L1. change (IZR (2 * Z.of_nat 0 + 1)) with 1 in H. lra.
Qed.

(** *** Acceleration time *)
Lemma interp_from_passes ms : forall ts a c, length ts = length ms -> nondecreasing (a :: ms) -> a <= 60 -> (exists x, In x ms /\ 60 < x) ->
  passes_60 (a :: ms) (c :: ts) (interp_from 60 a c (combine ms ts)).
Proof.
  induction ms as [|b ms IH]; intros [|d ts] a c Hl Hn Ha (x & Hx & H60); try discriminate; [destruct Hx|].
  cbn [combine interp_from]. unR. destruct (Rltb_spec 60 b) as [L|L].
  - exists O, a, b, c, d. cbn [nth_error]. repeat split; auto.
    + destruct (Reqb_spec 60 a) as [->|]; [field; lra|field; lra].
    + intros [|j] y Hj E; [|lia]. cbn in E. injection E as <-. auto.
    + intros [|j] y Hj E; [lia|]. destruct j as [|j]; [cbn in E; injection E as <-; auto|].
      assert (b <= y) by (apply (Hn 1%nat (S (S j)) b y); [lia|reflexivity|exact E]). lra.
  - apply Rnot_lt_le in L. assert (Hn' : nondecreasing (b :: ms)).
    { intros i j p q Hij E1 E2. apply (Hn (S i) (S j) p q); [lia|exact E1|exact E2]. }
    destruct (IH ts b d ltac:(cbn in Hl; lia) Hn' L) as (k & a' & b' & c' & d' & E1 & E2 & E3 & E4 & E5 & E6 & E7 & E8).
    { destruct Hx as [<-|Hx]; [lra|]. eauto. }
    exists (S k), a', b', c', d'. repeat split; auto; try tauto.
    + intros [|j] y Hj E; [cbn in E; injection E as <-; auto|]. apply (E7 j); [lia|exact E].
    + intros [|j] y Hj E; [lia|]. apply (E8 j); [lia|exact E].
Qed.
Lemma net_accel_passes mph times : length times = length mph -> nondecreasing mph -> hd 0 mph <= 60 -> (exists x, In x mph /\ 60 < x) ->
  passes_60 mph times (net_accel mph times).
Proof.
  intros Hl Hn Hh (x & Hx & H60). unfold net_accel. unR. replace (existsb _ mph) with true.
  - destruct mph as [|a ms]; [destruct Hx|]. destruct times as [|c ts]; [discriminate|]. cbn [hd] in Hh.
    cbn [combine interp1]. unR. destruct (Rltb_spec 60 a); [lra|]. apply interp_from_passes; auto.
    destruct Hx as [<-|Hx]; [lra|]. eauto.
  - symmetry. apply existsb_exists. exists x. split; auto. destruct (Rleb_spec 60 x); auto; lra.
Qed.
Lemma net_accel_never mph times : (forall x, In x mph -> x < 60) -> net_accel mph times = 1000.
Proof.
  intros H. unfold net_accel. unR. replace (existsb _ mph) with false; [reflexivity|].
  symmetry. apply Bool.not_true_is_false. intros E. apply existsb_exists in E as (x & Hx & E). destruct (Rleb_spec 60 x); [|discriminate]. specialize (H x Hx). lra.
Qed.
