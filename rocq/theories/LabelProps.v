(** Properties C49, C50 and C76-C78 of the window-sticker results (python/fastsim/simdrivelabel.py, get_label_fe).
    Each group of theorems is followed by concrete cases that meet its hypotheses ([_run]: the model
    executed in binary64; [_case]: an instance over the reals). *)
From Coq Require Import Floats Lia.
From Verif Require Import Num FloatNum Numpy ListFacts CycleModel CycleSpec VehModel SimModel SimState WalkModel FrameProofs WalkProofs
  WalkProofs2 SimDemo PostModel UtilModel LabelModel LabelSpec LabelProofs LabelProofs2 LabelProofs3.
Local Open Scope R_scope.
Local Set Warnings "-inexact-float".

Ltac look H := unfold has, has_key in H; cbn [app closing In fuel_dict elec_dict phev_dict] in H; repeat (destruct H as [H|H]; [try discriminate H|]); [..|try destruct H].
Ltac entry := unfold has, fuel_dict, elec_dict, phev_dict, closing; cbn [app In]; repeat (try (left; reflexivity); right).

(** *** C49 *)
Section C49.
  Variables (udds hwfet : cyc R) (v : vehicle R) (year : Z) (out : ldict R).
  Hypothesis G : get_label_fe udds hwfet v year = Ok out.

  (** Whatever the powertrain, combined economy is the 55/45 mean of the fuel per mile, and lies between the two. *)
  Theorem C49_combined_mpg : forall kc kh kb, In (kc, kh, kb) mpg_triples ->
    exists c h b, has out kc c /\ has out kh h /\ has out kb b /\ (c <> 0 -> h <> 0 -> combined_mpg c h b) /\ (0 < c -> 0 < h -> between c h b).
  Proof.
    assert (W : forall c h b kc kh kb, b = comb_mpgge c h -> has out kc c -> has out kh h -> has out kb b ->
      exists c h b, has out kc c /\ has out kh h /\ has out kb b /\ (c <> 0 -> h <> 0 -> combined_mpg c h b) /\ (0 < c -> 0 < h -> between c h b)).
    { intros c h b kc kh kb -> H1 H2 H3. exists c, h, (comb_mpgge c h). repeat split; auto; intros.
      - now apply combined_mpg_ok.
      - apply combined_between, combined_mpg_ok; lra.
      - apply combined_between, combined_mpg_ok; lra. }
    intros kc kh kb I. destruct (get_label_inv _ _ _ _ _ G) as [u h a N1 N2 _ _ _ M1 M2 E|u h a N1 _ _ _ E|u0 h0 u h peak ru rh cu ch uf a N1 _ _ _ _ _ _ _ _ _ _ _ E]; rewrite E in *.
    - cbn [mpg_triples In] in I. destruct I as [I|[I|[]]]; injection I as <- <- <-; (eapply W; [reflexivity|entry..]).
    - cbn [mpg_triples In] in I. destruct I as [I|[I|[]]]; injection I as <- <- <-; exists 0, 0, 0; repeat split; try entry; intros; try lra; congruence.
    - cbn [mpg_triples In] in I. destruct I as [I|[I|[]]]; injection I as <- <- <-; (eapply W; [reflexivity|entry..]).
  Qed.
  (** Combined battery energy is the 55/45 mean. *)
  Theorem C49_combined_kwh : forall kc kh kb, In (kc, kh, kb) kwh_triples ->
    exists c h b, has out kc c /\ has out kh h /\ has out kb b /\ combined_kwh c h b /\ between c h b.
  Proof.
    assert (W : forall c h b kc kh kb, b = comb_kwh c h -> has out kc c -> has out kh h -> has out kb b ->
      exists c h b, has out kc c /\ has out kh h /\ has out kb b /\ combined_kwh c h b /\ between c h b).
    { intros c h b kc kh kb -> H1 H2 H3. exists c, h, (comb_kwh c h).
      assert (combined_kwh c h (comb_kwh c h)) by apply comb_kwh_R. repeat split; auto; now apply combined_kwh_between. }
    intros kc kh kb I. destruct (get_label_inv _ _ _ _ _ G) as [u h a N1 N2 _ _ _ M1 M2 E|u h a N1 _ _ _ E|u0 h0 u h peak ru rh cu ch uf a N1 _ _ _ _ _ _ _ _ _ _ _ E]; rewrite E in *.
    - cbn [kwh_triples In] in I. destruct I as [I|[I|[]]]; injection I as <- <- <-; apply (W 0 0 0); try entry; rewrite comb_kwh_R; lra.
    - cbn [kwh_triples In] in I. destruct I as [I|[I|[]]]; injection I as <- <- <-; (eapply W; [reflexivity|entry..]).
    - cbn [kwh_triples In] in I. destruct I as [I|[I|[]]]; injection I as <- <- <-; (eapply W; [reflexivity|entry..]).
  Qed.
  Let keeps c d s : wf c -> sim_drive (fresh v c) s None = Ok d -> d_props d = label_props /\ d_veh d = v.
  Proof.
    intros W H. assert (Ws : wf_sd (fresh v c)) by (repeat split; apply W).
    destruct (run_keeps (fresh v c) None d Ws) as (_ & K1 & _ & K2 & _); [right; eauto|]. split; [exact K2|exact K1].
  Qed.
  Let mpg_is c d : wf c -> sim_drive (fresh v c) None None = Ok d -> post_mpgge d <> 0 ->
    fuel_kwh d <> 0 /\ post_mpgge d = miles d / (fuel_kwh d / 33.7).
  Proof.
    intros W H. destruct (keeps _ _ _ W H) as (K & _). unfold post_mpgge, sum_rows. rewrite !nsum_Rsum. rewrite K.
    change (kwh_per_gge label_props) with (label_kwh_per_gge (F := R)). destruct label_consts as (-> & _). unR.
    fold (fuel_kwh d). fold (miles d). destruct (Reqb_spec (fuel_kwh d) 0) as [E|E]; [congruence|]. auto.
  Qed.
  (** Vehicles with an engine and no plug: the unadjusted values are the miles per gallon of the two runs, the adjusted ones
      follow the coefficients for the model year, and are lower. *)
  Theorem C49_fuel : veh_pt_type v = CONV \/ veh_pt_type v = HEV -> wf udds -> wf hwfet ->
    exists u h mu mh au ah, sim_drive (fresh v udds) None None = Ok u /\ sim_drive (fresh v hwfet) None None = Ok h /\
      fuel_kwh u <> 0 /\ fuel_kwh h <> 0 /\
      has out "labUddsMpgge" mu /\ mu = miles u / (fuel_kwh u / 33.7) /\ has out "labHwyMpgge" mh /\ mh = miles h / (fuel_kwh h / 33.7) /\
      has out "adjUddsMpgge" au /\ adjusted_mpg (coef_city year) mu au /\ has out "adjHwyMpgge" ah /\ adjusted_mpg (coef_hwy year) mh ah /\
      (0 < mu -> 0 < au < mu) /\ (0 < mh -> 0 < ah < mh).
  Proof.
    intros T Wu Wh. destruct (get_label_inv _ _ _ _ _ G) as [u h a N1 N2 R1 R2 _ M1 M2 E|u h a N1 _ _ _ E|u0 h0 u h peak ru rh cu ch uf a N1 _ _ _ _ _ _ _ _ _ _ _ E];
      [|rewrite N1 in T; destruct T; discriminate|rewrite N1 in T; destruct T; discriminate].
    destruct (mpg_is udds u Wu R1 M1) as (F1 & E1). destruct (mpg_is hwfet h Wh R2 M2) as (F2 & E2).
    destruct (adj_city year) as (A1 & A2). destruct (adj_hwy year) as (A3 & A4). cbv zeta in E. rewrite A1, A2, A3, A4 in E.
    assert (LT : forall c m, 0 < fst c < 1 -> 1 < snd c < 2 -> 0 < m -> 0 < adj_mpgge (fst c) (snd c) m < m).
    { intros c m C1 C2 Hm. rewrite adj_mpgge_R. assert (Pm := Rinv_0_lt_compat m Hm).
      split; [apply Rinv_0_lt_compat; nra|]. rewrite <- (Rinv_inv m) at 2. apply Rinv_lt_contravar; [apply Rmult_lt_0_compat|]; nra. }
    destruct (coef_signs year) as (C1 & C2 & C3 & C4).
    exists u, h, (post_mpgge u), (post_mpgge h), (adj_mpgge (fst (coef_city year)) (snd (coef_city year)) (post_mpgge u)),
      (adj_mpgge (fst (coef_hwy year)) (snd (coef_hwy year)) (post_mpgge h)). rewrite E.
    split; [exact R1|]. split; [exact R2|]. split; [exact F1|]. split; [exact F2|].
    split; [entry|]. split; [exact E1|]. split; [entry|]. split; [exact E2|]. split; [entry|]. split; [apply adj_mpgge_ok|]. split; [entry|]. split; [apply adj_mpgge_ok|].
    split; apply LT; auto.
  Qed.
  (** Battery-electric vehicles: kWh per mile of the two runs; adjusted consumption is capped at 10/7 of it; what is
      taken from the wall is that over 0.86 whatever the vehicle's own charging efficiency; the range uses up the whole battery capacity. *)
  Theorem C49_electric : veh_pt_type v = BEV ->
    exists u h bu bh eu eh ku kh kc ec range, sim_drive (fresh v udds) None None = Ok u /\ sim_drive (fresh v hwfet) None None = Ok h /\
      has out "labUddsKwhPerMile" bu /\ bu = battery_kwh_per_mi (set_post_scalars u) /\
      has out "labHwyKwhPerMile" bh /\ bh = battery_kwh_per_mi (set_post_scalars h) /\
      has out "adjUddsEssKwhPerMile" eu /\ (0 < bu -> adjusted_kwh (coef_city year) bu eu /\ bu <= eu <= 10 / 7 * bu) /\
      has out "adjHwyEssKwhPerMile" eh /\ (0 < bh -> adjusted_kwh (coef_hwy year) bh eh /\ bh <= eh <= 10 / 7 * bh) /\
      has out "adjUddsKwhPerMile" ku /\ eu = 0.86 * ku /\ has out "adjHwyKwhPerMile" kh /\ eh = 0.86 * kh /\
      has out "adjCombKwhPerMile" kc /\ has out "adjCombEssKwhPerMile" ec /\ ec = 0.86 * kc /\ combined_kwh eu eh ec /\
      has out "netRangeMiles" range /\ (0 < bu -> 0 < bh -> range * ec = ess_max_kwh v).
  Proof.
    intros T. destruct (get_label_inv _ _ _ _ _ G) as [u h a N1 N2 R1 R2 _ M1 M2 E|u h a N1 R1 R2 _ E|u0 h0 u h peak ru rh cu ch uf a N1 _ _ _ _ _ _ _ _ _ _ _ E];
      [congruence| |congruence].
    destruct (adj_city year) as (A1 & A2). destruct (adj_hwy year) as (A3 & A4). cbv zeta in E. rewrite A1, A2, A3, A4 in E.
    destruct label_consts as (_ & _ & Ec). rewrite Ec in E. destruct (coef_signs year) as (C1 & C2 & C3 & C4).
    set (bu := battery_kwh_per_mi (set_post_scalars u)) in *. set (bh := battery_kwh_per_mi (set_post_scalars h)) in *.
    set (au := adj_kwh (fst (coef_city year)) (snd (coef_city year)) bu) in *. set (ah := adj_kwh (fst (coef_hwy year)) (snd (coef_hwy year)) bh) in *.
    assert (Bu : 0 < bu -> adjusted_kwh (coef_city year) bu au /\ bu <= au <= 10 / 7 * bu).
    { intros P. assert (Q : adjusted_kwh (coef_city year) bu au) by (apply adj_kwh_ok; lra). split; auto. apply (adjusted_kwh_bounds (coef_city year)); auto; lra. }
    assert (Bh : 0 < bh -> adjusted_kwh (coef_hwy year) bh ah /\ bh <= ah <= 10 / 7 * bh).
    { intros P. assert (Q : adjusted_kwh (coef_hwy year) bh ah) by (apply adj_kwh_ok; lra). split; auto. apply (adjusted_kwh_bounds (coef_hwy year)); auto; lra. }
    assert (X1 : au / (86 / 100) * (86 / 100) = au) by (field; lra). assert (X2 : ah / (86 / 100) * (86 / 100) = ah) by (field; lra).
    set (kc := comb_kwh (au / (86 / 100)) (ah / (86 / 100))) in *.
    assert (X3 : kc * (86 / 100) = 55 / 100 * au + 45 / 100 * ah) by (unfold kc; rewrite comb_kwh_R; rewrite <- X1 at 2; rewrite <- X2 at 2; ring).
    exists u, h, bu, bh, (au / (86 / 100) * (86 / 100)), (ah / (86 / 100) * (86 / 100)), (au / (86 / 100)), (ah / (86 / 100)), kc, (kc * (86 / 100)),
      (ess_max_kwh v / (kc * (86 / 100))). rewrite E.
    split; [exact R1|]. split; [exact R2|]. split; [entry|]. split; [reflexivity|]. split; [entry|]. split; [reflexivity|].
    split; [entry|]. split; [intros P; rewrite X1; auto|]. split; [entry|]. split; [intros P; rewrite X2; auto|].
    split; [entry|]. split; [lra|]. split; [entry|]. split; [lra|]. split; [entry|]. split; [entry|]. split; [lra|].
    split; [unfold combined_kwh; rewrite X1, X2, X3; reflexivity|]. split; [entry|].
    intros P1 P2. destruct (Bu P1) as (_ & Q1). destruct (Bh P2) as (_ & Q2). rewrite X3. field. lra.
  Qed.
End C49.
(** A vehicle without a plug that burns no fuel on one of the cycles (or does not move) has no label at all. *)
Theorem C49_no_fuel (udds hwfet : cyc R) (v : vehicle R) (year : Z) (u h : sdrive R) :
  veh_pt_type v = CONV \/ veh_pt_type v = HEV -> sim_drive (fresh v udds) None None = Ok u -> sim_drive (fresh v hwfet) None None = Ok h ->
  fuel_kwh u = 0 \/ fuel_kwh h = 0 -> get_label_fe udds hwfet v year = Err ZeroDivisionError.
Proof.
  intros T Hu Hh Z. unfold get_label_fe. cbv zeta. fold (fresh v udds). fold (fresh v hwfet). rewrite Hu, Hh. cbn [bindR].
  fold (start v (adj_params year)).
  assert (Q : forall d : sdrive R, fuel_kwh d = 0 -> post_mpgge d = 0).
  { intros d Hd. unfold post_mpgge, sum_rows. rewrite !nsum_Rsum. fold (fuel_kwh d). rewrite Hd. unR. destruct (Reqb_spec 0 0); congruence. }
  assert (L : label_values (start v (adj_params year)) v (adj_params year) (post_mpgge u) (post_mpgge h)
     (battery_kwh_per_mi (set_post_scalars u)) (battery_kwh_per_mi (set_post_scalars h)) = Err ZeroDivisionError).
  { rewrite label_fuel by (destruct T; congruence). destruct Z as [Z|Z]; rewrite (Q _ Z); destruct (Reqb_spec 0 0); try congruence; cbn [orb]; auto.
    rewrite Bool.orb_true_r. reflexivity. }
  destruct T as [T|T]; rewrite T, L; reflexivity.
Qed.

(** *** C50 *)
(** Battery-electric and plug-in vehicles get all the documented keys. *)
Theorem C50_plug_in_keys (udds hwfet : cyc R) (v : vehicle R) (year : Z) (out : ldict R) : get_label_fe udds hwfet v year = Ok out ->
  (veh_pt_type v = BEV -> forall k, has_key out k <-> In k (lab_keys ++ range_keys)) /\
  (veh_pt_type v = PHEV -> forall k, has_key out k <-> In k (lab_keys ++ range_keys ++ phev_keys)) /\
  NoDup (map fst out).
Proof.
  intros G.
  assert (W : forall k, has_key out k <-> In k (map fst out)).
  { intros k. unfold has_key. rewrite in_map_iff. split; [intros (x & I); exists (k, x); auto|intros ((k' & x) & <- & I); eauto]. }
  assert (ND : forall l : list string, (fix f (l : list string) := match l with [] => true | a :: r => (negb (existsb (String.eqb a) r) && f r)%bool end) l = true -> NoDup l).
  { induction l as [|a l IH]; intros H; [constructor|]. apply andb_prop in H as (H1 & H2). constructor; [|auto].
    intros I. apply Bool.negb_true_iff in H1. assert (existsb (String.eqb a) l = true); [|congruence]. apply existsb_exists. exists a. split; [auto|apply String.eqb_refl]. }
  assert (same : forall a b : list string, (forallb (fun x => existsb (String.eqb x) b) a && forallb (fun x => existsb (String.eqb x) a) b)%bool = true -> forall k, In k a <-> In k b).
  { intros a b H. apply andb_prop in H as (H1 & H2). rewrite forallb_forall in H1, H2. intros k. split; intros I; [apply H1 in I|apply H2 in I];
      apply existsb_exists in I as (y & Iy & Ey); apply String.eqb_eq in Ey; now subst y. }
  destruct (get_label_inv _ _ _ _ _ G) as [u h a N1 N2 R1 R2 _ M1 M2 E|u h a N1 R1 R2 _ E|u0 h0 u h peak ru rh cu ch uf a N1 _ _ _ _ _ _ _ _ _ _ _ E];
    (split; [intros T; try congruence|split; [intros T; try congruence|]]).
  - rewrite E. apply ND. reflexivity.
  - intros k. rewrite W, E. apply same. reflexivity.
  - rewrite E. apply ND. reflexivity.
  - intros k. rewrite W, E. apply same. reflexivity.
  - rewrite E. apply ND. reflexivity.
Qed.
(** The others do not: two of the names are joined into one in the source. *)
Theorem C50_other_keys (udds hwfet : cyc R) (v : vehicle R) (year : Z) (out : ldict R) : get_label_fe udds hwfet v year = Ok out ->
  veh_pt_type v = CONV \/ veh_pt_type v = HEV ->
  (forall k, has_key out k <-> In k (lab_keys ++ [joined_key])) /\ ~ has_key out "netRangeMiles" /\ ~ has_key out "adjCombEssKwhPerMile".
Proof.
  intros G T.
  assert (W : forall k, has_key out k <-> In k (map fst out)).
  { intros k. unfold has_key. rewrite in_map_iff. split; [intros (x & I); exists (k, x); auto|intros ((k' & x) & <- & I); eauto]. }
  assert (same : forall a b : list string, (forallb (fun x => existsb (String.eqb x) b) a && forallb (fun x => existsb (String.eqb x) a) b)%bool = true -> forall k, In k a <-> In k b).
  { intros a b H. apply andb_prop in H as (H1 & H2). rewrite forallb_forall in H1, H2. intros k. split; intros I; [apply H1 in I|apply H2 in I];
      apply existsb_exists in I as (y & Iy & Ey); apply String.eqb_eq in Ey; now subst y. }
  assert (K : forall k, has_key out k <-> In k (lab_keys ++ [joined_key])).
  { destruct (get_label_inv _ _ _ _ _ G) as [u h a N1 N2 R1 R2 _ M1 M2 E|u h a N1 R1 R2 _ E|u0 h0 u h peak ru rh cu ch uf a N1 _ _ _ _ _ _ _ _ _ _ _ E];
    [|destruct T; congruence|destruct T; congruence]. intros k. rewrite W, E. apply same. reflexivity. }
  split; [exact K|]. split; intros I; apply K in I; cbn in I; repeat (destruct I as [I|I]; [discriminate|]); destruct I.
Qed.

(** *** C76 *)
(** The utility factor of a distance: defined from 0 to 1201 miles and an error outside; a step function of the table;
    between 0 and 1; longer distances never have a lower one; zero exactly below one mile. *)
Theorem C76_utility_factor (m : R) :
  (0 <= m <= 1201 -> exists u, interpf m = Ok u /\ utility_factor m u) /\
  (m < 0 \/ 1201 < m -> interpf m = Err ValueError) /\
  (forall u, interpf m = Ok u -> utility_factor m u /\ 0 <= u <= 1 /\ (u = 0 <-> m < 1)) /\
  (forall m' u u', m <= m' -> interpf m = Ok u -> interpf m' = Ok u' -> u <= u').
Proof.
  split; [apply interpf_ok|]. split; [apply interpf_err|]. split.
  - intros u H. apply interpf_spec in H. split; auto. split; [eapply uf_between; eauto|eapply uf_zero; eauto].
  - intros m' u u' L H H'. apply interpf_spec in H, H'. eapply uf_mono; eauto.
Qed.
(** The reported factor of a plug-in hybrid is that of its combined charge-depleting distance, all others have 0. *)
Theorem C76_reported (udds hwfet : cyc R) (v : vehicle R) (year : Z) (out : ldict R) : get_label_fe udds hwfet v year = Ok out ->
  exists u, has out "UF" u /\ 0 <= u <= 1 /\
    (veh_pt_type v = PHEV -> exists m, has out "netPhevCDMiles" m /\ utility_factor m u) /\ (veh_pt_type v <> PHEV -> u = 0).
Proof.
  intros G. destruct (get_label_inv _ _ _ _ _ G) as [u h a N1 N2 R1 R2 _ M1 M2 E|u h a N1 R1 R2 _ E|u0 h0 u h peak ru rh cu ch uf a N1 _ _ _ _ _ _ _ _ _ _ I E]; rewrite E.
  - exists 0. split; [entry|]. split; [lra|]. split; [congruence|auto].
  - exists 0. split; [entry|]. split; [lra|]. split; [congruence|auto].
  - apply interpf_spec in I. exists uf. split; [entry|]. split; [eapply uf_between; eauto|]. split; [|congruence]. intros _. eexists. split; [|exact I]. entry.
Qed.
Example C76_run : (interpf 0.99, interpf 1, interpf 34.9, interpf 1201, interpf 1201.5)%float =
  (Ok 0, Ok 0.02455, Ok 0.55812, Ok 1, Err ValueError)%float.
Proof. vm_compute. reflexivity. Qed.

(** *** C77 *)
(** What a plug-in hybrid's label is computed from: for each cycle a new run from a full battery, one from the
    state of charge after as many whole cycles as the battery allows, and one from just above the least state of charge. *)
Definition runs_of (v : vehicle R) (c : cyc R) (r : phev_runs R) : Prop :=
  exists cd tr cs, sim_drive (fresh v c) (Some (max_soc v)) None = Ok cd /\
    cd_mi r = miles cd /\ cd_batt r = battery_kwh_per_mi (set_post_scalars cd) /\
    sim_drive (fresh v c) (Some (max_soc v - IZR (nfloor (cycles v r)) * (soc_first cd - soc_last cd))) None = Ok tr /\
    sim_drive (fresh v c) (Some (min_soc v + 1 / 100)) None = Ok cs /\ cs_mi r = miles cs /\ cs_fs_kwh r = fuel_kwh cs.
Theorem C77_runs (udds hwfet : cyc R) (v : vehicle R) (year : Z) (out : ldict R) : get_label_fe udds hwfet v year = Ok out ->
  veh_pt_type v = PHEV -> wf udds -> wf hwfet ->
  exists peak ru rh cu ch, get_mcPeakEff v = Ok peak /\ runs_of v udds ru /\ runs_of v hwfet rh /\
    phev_values v peak (fst (coef_city year)) (snd (coef_city year)) ru = Ok cu /\
    phev_values v peak (fst (coef_hwy year)) (snd (coef_hwy year)) rh = Ok ch /\
    has out "labUddsMpgge" (labMpgge cu) /\ has out "labHwyMpgge" (labMpgge ch) /\
    has out "labUddsKwhPerMile" (labKwhPerMile cu) /\ has out "labHwyKwhPerMile" (labKwhPerMile ch) /\
    has out "adjUddsMpgge" (adjMpgge cu) /\ has out "adjHwyMpgge" (adjMpgge ch) /\
    has out "adjUddsKwhPerMile" (adjKwhPerMile cu) /\ has out "adjHwyKwhPerMile" (adjKwhPerMile ch) /\
    has out "adjUddsEssKwhPerMile" (adjEssKwhPerMile cu) /\ has out "adjHwyEssKwhPerMile" (adjEssKwhPerMile ch) /\
    (exists m, has out "netPhevCDMiles" m /\ combined_kwh (adjCdMiles cu) (adjCdMiles ch) m /\
     exists cs cd range, has out "adjCsCombMpgge" cs /\ has out "adjCdCombMpgge" cd /\ has out "netRangeMiles" range /\
       (adjCsMpgge cu <> 0 -> adjCsMpgge ch <> 0 -> combined_mpg (adjCsMpgge cu) (adjCsMpgge ch) cs) /\
       (adjCdMpgge cu <> 0 -> adjCdMpgge ch <> 0 -> combined_mpg (adjCdMpgge cu) (adjCdMpgge ch) cd) /\
       range = m + (fs_kwh v / 33.7 - m / cd) * cs).
Proof.
  intros G T Wu Wh. destruct (get_label_inv _ _ _ _ _ G) as [u h a N1 N2 R1 R2 _ M1 M2 E|u h a N1 R1 R2 _ E|u0 h0 u h peak ru rh cu ch uf a N1 R1 R2 R3 R4 P Q1 Q2 V1 V2 _ I E];
    [congruence|congruence|].
  assert (RO : forall c d0 d r, wf c -> sim_drive (fresh v c) None None = Ok d0 -> sim_drive d0 (Some (max_soc v)) None = Ok d -> phev_runs_of d = Ok r -> runs_of v c r).
  { intros c d0 d r W D0 D1 Q. assert (Ws : wf_sd (fresh v c)) by (repeat split; apply W).
    assert (X0 : run (fresh v c) None d0) by (right; eauto). rewrite (run_again _ _ _ Ws X0) in D1.
    assert (X1 : run (fresh v c) None d) by (right; eauto). destruct (run_keeps _ _ _ Ws X1) as (_ & Kv & _). cbn in Kv.
    unfold phev_runs_of in Q. cbv zeta in Q. rewrite Kv in Q. rewrite (run_again _ _ _ Ws X1) in Q. bind_in Q tr Et.
    assert (X2 : run (fresh v c) None tr) by (right; eauto). rewrite (run_again _ _ _ Ws X2) in Q. bind_in Q cs Ec.
    match type of Q with Ok ?x = Ok _ => assert (Er : r = x) by congruence end. clear Q.
    assert (Em : forall d : sdrive R, sum_dist d = miles d) by (intros; unfold sum_dist, sum_rows; apply nsum_Rsum).
    assert (Ef : forall d : sdrive R, sum_fs_kwh d = fuel_kwh d) by (intros; unfold sum_fs_kwh, sum_rows; apply nsum_Rsum).
    exists d, tr, cs. rewrite Er. cbn [cd_mi cd_batt cs_mi cs_fs_kwh]. rewrite !Em, !Ef.
    split; [exact D1|]. split; [reflexivity|]. split; [reflexivity|]. split; [|split; [|auto]].
    - unfold cycles. cbn [cd_batt cd_mi]. rewrite <- Em. exact Et.
    - rewrite lit_R in Ec. exact Ec. }
  destruct (adj_city year) as (A1 & A2). destruct (adj_hwy year) as (A3 & A4). rewrite A1, A2 in V1. rewrite A3, A4 in V2.
  exists peak, ru, rh, cu, ch. rewrite E. cbv zeta.
  split; [exact P|]. split; [exact (RO _ _ _ _ Wu R1 R3 Q1)|]. split; [exact (RO _ _ _ _ Wh R2 R4 Q2)|]. split; [exact V1|]. split; [exact V2|].
  do 10 (split; [entry|]). eexists. split; [entry|]. split; [unfold combined_kwh; apply comb_kwh_R|].
  eexists _, _, _. split; [entry|]. split; [entry|]. split; [entry|]. split; [intros; now apply combined_mpg_ok|]. split; [intros; now apply combined_mpg_ok|].
  destruct label_consts as (-> & _). unR. lra.
Qed.

(** One cycle of a plug-in hybrid: the battery lasts for [n] whole cycles and part of another, and the charge-sustaining
    run does leave room in the battery. *)
Record plug_in (v : vehicle R) (peak : R) (c : R * R) (r : phev_runs R) (n : nat) : Prop := mk_plug_in {
  pi_batt : 0 < cd_batt r; pi_mi : 0 < cd_mi r; pi_same : cs_mi r = cd_mi r;
  pi_n : (1 <= n)%nat; pi_part : INR n < cycles v r < INR n + 1;
  pi_coef : 0 < fst c /\ 1 < snd c;
  pi_room : 1 / 100 <= max_soc v - regen_soc_buffer v peak - cs_min_soc r }.
(** The calculation then succeeds unless the distance leaves the utility factor table. *)
Theorem C77_defined (v : vehicle R) (peak : R) (c : R * R) (r : phev_runs R) (n : nat) : plug_in v peak c r n ->
  (INR n + 1) * cd_mi r <= 1201 -> exists p, phev_values v peak (fst c) (snd c) r = Ok p.
Proof. intros P H. apply (phev_total v peak (fst c) (snd c) r n); try apply P; auto. Qed.
(** Unadjusted values.  Of the distance driven, the share [uf] is driven on whole battery-powered cycles, [ue - uf] on the cycle
    in which the battery runs out, and the rest on fuel: that weighting gives the fuel and the battery energy per mile, so that
    mileage is no lower than on fuel alone and battery energy per mile no higher than when running on the battery. *)
Theorem C77_lab (v : vehicle R) (peak : R) (c : R * R) (r : phev_runs R) (n : nat) (p : phev_calc R) : plug_in v peak c r n ->
  phev_values v peak (fst c) (snd c) r = Ok p -> 1 <= (INR n + 1) * cd_mi r ->
  exists uf ue, utility_factor (INR n * cd_mi r) uf /\ utility_factor ((INR n + 1) * cd_mi r) ue /\ 0 <= uf <= ue /\ 0 < ue <= 1 /\
    (let part := cycles v r - INR n in
     let gal_per_mile := cs_fs_kwh r / 33.7 / cd_mi r in
     / labMpgge p = gal_per_mile * ((1 - part) * (ue - uf) + (1 - ue)) /\
     labKwhPerMile p * ue = cd_batt r * uf + part * cd_batt r * (ue - uf) /\
     part * cd_batt r <= labKwhPerMile p <= cd_batt r /\
     (ue < 1 -> 0 < cs_fs_kwh r -> / gal_per_mile <= labMpgge p)).
Proof.
  intros [HB Hmi Hcs Hn HX (Hi & Hs) Hr] V H1.
  destruct (phev_closed v peak (fst c) (snd c) r n p V HB Hmi Hcs Hn HX Hi Hs) as (uf & ue & w1 & w2 & C).
  exists uf, ue. split; [apply (cl_uf _ _ _ _ _ _ _ _ _ _ _ C)|]. split; [apply (cl_ue _ _ _ _ _ _ _ _ _ _ _ C)|].
  assert (U := u_order _ _ _ _ _ _ _ _ _ _ _ C Hmi). assert (UP := ue_pos _ _ _ _ _ _ _ _ _ _ _ C Hmi H1).
  split; [lra|]. split; [lra|]. cbv zeta.
  assert (Ef : cdFracInTrans p = cycles v r - INR n) by (rewrite (cl_frac _ _ _ _ _ _ _ _ _ _ _ C); reflexivity).
  assert (Eg := cl_gal _ _ _ _ _ _ _ _ _ _ _ C).
  split; [rewrite (lab_fuel_per_mile _ _ _ _ _ _ _ _ _ _ _ C Hmi Hr H1), Ef, Eg; reflexivity|].
  split; [rewrite (cl_labk _ _ _ _ _ _ _ _ _ _ _ C), Ef; field; lra|].
  split; [assert (Q := lab_kwh_range _ _ _ _ _ _ _ _ _ _ _ C HB Hmi HX H1); rewrite Ef in Q; lra|].
  intros L1 L2. assert (Q := lab_better _ _ _ _ _ _ _ _ _ _ _ C Hmi HX Hr H1 L1 L2).
  rewrite (cl_csmpg _ _ _ _ _ _ _ _ _ _ _ C), Eg in Q. replace (/ (cs_fs_kwh r / 33.7 / cd_mi r)) with (cd_mi r / (cs_fs_kwh r / 33.7)); [exact Q|].
  field. lra.
Qed.
(** Adjusted values: the same weighting with adjusted consumption and the (shorter) distance that the battery then lasts. *)
Theorem C77_adj (v : vehicle R) (peak : R) (c : R * R) (r : phev_runs R) (n : nat) (p : phev_calc R) : plug_in v peak c r n ->
  phev_values v peak (fst c) (snd c) r = Ok p ->
  exists K Kt wf we, let part := cycles v r - INR n in
    adjusted_kwh c (cd_batt r) K /\ adjusted_kwh c (part * cd_batt r) Kt /\
    (let far := INR n * (cd_batt r / K * cd_mi r) in
     let top := far + part * cd_batt r / Kt * cd_mi r in
     utility_factor far wf /\ utility_factor top we /\ adjCdMiles p = top /\ adjUf p = we /\
     7 / 10 * ((INR n + 1) * cd_mi r) <= top <= (INR n + 1) * cd_mi r) /\
    (0 < we -> adjEssKwhPerMile p * we = K * wf + Kt * (we - wf) /\ Kt <= adjEssKwhPerMile p <= K) /\
    adjKwhPerMile p = adjEssKwhPerMile p / chg_eff v /\
    (0 < we < 1 -> 0 < cs_fs_kwh r -> exists cd_mpg cs_mpg, capped_mpg c (cd_mi r / (cs_fs_kwh r * (1 - part) / 33.7)) cd_mpg /\
      capped_mpg c (cd_mi r / (cs_fs_kwh r / 33.7)) cs_mpg /\ adjCsMpgge p = cs_mpg /\
      / adjMpgge p = (we - wf) * / cd_mpg + (1 - we) * / cs_mpg).
Proof.
  intros [HB Hmi Hcs Hn HX (Hi & Hs) Hr] V.
  destruct (phev_closed v peak (fst c) (snd c) r n p V HB Hmi Hcs Hn HX Hi Hs) as (uf & ue & w1 & w2 & C).
  assert (Ef : cdFracInTrans p = cycles v r - INR n) by (rewrite (cl_frac _ _ _ _ _ _ _ _ _ _ _ C); reflexivity).
  assert (EB : cd_batt r * cdFracInTrans p = (cycles v r - INR n) * cd_batt r) by (rewrite Ef; ring).
  exists (adj_kwh (fst c) (snd c) (cd_batt r)), (adj_kwh (fst c) (snd c) ((cycles v r - INR n) * cd_batt r)), w1, w2. cbv zeta.
  assert (KO := K_ok (fst c) (snd c) r HB Hi Hs). assert (KtO := Kt_ok _ _ _ _ _ _ _ _ _ _ _ C HB HX Hi Hs). rewrite EB in KtO.
  destruct c as [i s]. cbn [fst snd] in *.
  split; [exact KO|]. split; [exact KtO|].
  assert (M := adj_miles_range _ _ _ _ _ _ _ _ _ _ _ C HB Hmi HX Hi Hs). rewrite EB in M.
  assert (F1 := cl_wf _ _ _ _ _ _ _ _ _ _ _ C). assert (F2 := cl_we _ _ _ _ _ _ _ _ _ _ _ C). rewrite EB in F2.
  destruct (cl_yes _ _ _ _ _ _ _ _ _ _ _ C Hr) as (_ & _ & E1 & E2). rewrite EB in E1.
  replace (cd_batt r / adj_kwh i s (cd_batt r) * cd_mi r) with (cd_batt r * cd_mi r / adj_kwh i s (cd_batt r)) by (unfold Rdiv; ring).
  replace ((cycles v r - INR n) * cd_batt r / adj_kwh i s ((cycles v r - INR n) * cd_batt r) * cd_mi r)
    with ((cycles v r - INR n) * cd_batt r * cd_mi r / adj_kwh i s ((cycles v r - INR n) * cd_batt r)) by (unfold Rdiv; ring).
  split; [split; [exact F1|]; split; [exact F2|]; split; [exact E1|]; split; [exact E2|exact M]|].
  split.
  { intros W. split; [rewrite (cl_ess _ _ _ _ _ _ _ _ _ _ _ C), EB; field; lra|].
    assert (Q := adj_ess_range _ _ _ _ _ _ _ _ _ _ _ C HB Hmi HX Hi Hs W). rewrite EB in Q. exact Q. }
  split; [exact (cl_kwh _ _ _ _ _ _ _ _ _ _ _ C)|].
  intros W L. exists (adj_mpg i s (cd_mi r / (cs_fs_kwh r * (1 - (cycles v r - INR n)) / 33.7))), (adj_mpg i s (cd_mi r / (cs_fs_kwh r / 33.7))).
  assert (CM : forall m, capped_mpg (i, s) m (adj_mpg i s m)).
  { intros m. unfold capped_mpg, adj_mpg. cbn [fst snd]. unfold Rdiv. rewrite Rmult_1_l. f_equal. ring. }
  split; [apply CM|]. split; [apply CM|]. split; [exact (adj_cs _ _ _ _ _ _ _ _ _ _ _ C Hmi ltac:(lra) L)|].
  assert (Q := adj_fuel_per_mile _ _ _ _ _ _ _ _ _ _ _ C Hmi HX Hr W L). rewrite Ef in Q. rewrite Q. unfold Rdiv. reflexivity.
Qed.
(** When the battery lasts for a whole number of cycles, array lengths differ and the label raises. *)
Theorem C77_whole_cycles_refuted (v : vehicle R) (peak i s : R) (r : phev_runs R) (n : nat) :
  (1 <= n)%nat -> cycles v r = INR n -> phev_values v peak i s r = Err ValueError.
Proof. intros Hn H. now apply (phev_integer v peak i s r n). Qed.
(** A plug-in hybrid over cycles of 7.5 miles, with 0.25 kWh per mile: 2.8 cycles. *)
Definition demo_phev {F} {N : Num F} : vehicle F := demo_veh PHEV (z 60) (z 80) (z 85) (lit 88 10) false false (lit 3 10).
Definition demo_runs {F} {N : Num F} : phev_runs F :=
  mkruns (lit 8 10) (lit 587 1000) (lit 25 100) (lit 75 10) n0 (lit 75 10) (lit 75 10) (z 6) (lit 205 1000).
Example C77_case : let c := coef_city 2016 in plug_in demo_phev (9 / 10) c demo_runs 2 /\ (INR 2 + 1) * cd_mi demo_runs <= 1201 /\
  1 <= (INR 2 + 1) * cd_mi demo_runs /\ 0 < cs_fs_kwh demo_runs /\ exists p, phev_values demo_phev (9 / 10) (fst c) (snd c) demo_runs = Ok p.
Proof.
  cbv zeta. assert (Em : cd_mi demo_runs = 75 / 10) by (cbn -[lit]; apply lit_R). assert (Ec : cs_mi demo_runs = 75 / 10) by (cbn -[lit]; apply lit_R).
  assert (Eb : cd_batt demo_runs = 25 / 100) by (cbn -[lit]; apply lit_R). assert (Es : cs_min_soc demo_runs = 205 / 1000) by (cbn -[lit]; apply lit_R).
  assert (E1 : max_soc (demo_phev (F := R)) = 8 / 10) by (cbn -[lit]; apply lit_R). assert (E2 : min_soc (demo_phev (F := R)) = 2 / 10) by (cbn -[lit]; apply lit_R).
  assert (E3 : ess_max_kwh (demo_phev (F := R)) = 88 / 10) by (cbn -[lit]; apply lit_R).
  assert (EX : cycles demo_phev demo_runs = 2.816) by (unfold cycles; rewrite Em, Eb, E1, E2, E3; lra).
  destruct (coef_signs 2016) as (C1 & C2 & _).
  assert (P : plug_in demo_phev (9 / 10) (coef_city 2016) demo_runs 2).
  { constructor; rewrite ?Em, ?Eb, ?Ec, ?EX, ?Es, ?E1; try lra; try lia; [cbn; lra|].
    assert (Q : regen_soc_buffer demo_phev (9 / 10) <= (max_soc (demo_phev (F := R)) - min_soc demo_phev) / 2) by (unfold regen_soc_buffer; unR; rewrite nmin_R; apply Rmin_r).
    rewrite E1, E2 in Q. lra. }
  assert (L : (INR 2 + 1) * cd_mi demo_runs <= 1201) by (rewrite Em; cbn; lra).
  split; [exact P|]. split; [exact L|]. split; [rewrite Em; cbn; lra|]. split; [cbn; lra|].
  exact (C77_defined _ _ _ _ 2 P L).
Qed.
Definition whole_runs {F} {N : Num F} : phev_runs F :=
  mkruns (lit 8 10) (lit 587 1000) (lit 22 100) (z 12) n0 (z 12) (z 12) (z 6) (lit 205 1000).
Example C77_whole_case : cycles demo_phev whole_runs = INR 2.
Proof. unfold cycles, demo_phev, whole_runs, demo_veh, demo_veh_of. cbn [max_soc min_soc ess_max_kwh cd_batt cd_mi]. unfold z. rewrite !lit_R. unR. cbn. field. Qed.
Definition rounded (x : float) : Z := nfloor (x * 1e6 + 0.5)%float.
Example C77_run :
  match phev_values demo_phev 0.9 0.003259 1.1805 demo_runs with
  | Ok p => Some (map rounded [cdCycs p; labMpgge p; labKwhPerMile p; adjCdMiles p; adjMpgge p; adjCsMpgge p; adjEssKwhPerMile p; adjKwhPerMile p])
  | Err _ => None
  end%float = Some [2816000; 69561228; 239401; 15750000; 45311961; 31966510; 333803; 388144]%Z.
Proof. vm_compute. reflexivity. Qed.
(** With a battery that does not last for one cycle the label values are not numbers. *)
Theorem C77_short_range_refuted : exists (v : vehicle float) (peak i s : float) (r : phev_runs float) (p : phev_calc float),
  phev_values v peak i s r = Ok p /\ (cdCycs p <? 1)%float = true /\ is_nan (labMpgge p) = true /\ is_nan (labKwhPerMile p) = true /\
  is_nan (adjMpgge p) = true.
Proof.
  pose (r := mkruns 0.8%float 0.3%float 0.8%float 7.5%float 0%float 7.5%float 7.5%float 6%float 0.205%float).
  destruct (phev_values demo_phev 0.9%float 0.003259%float 1.1805%float r) as [p|] eqn:E; [|vm_compute in E; discriminate].
  exists demo_phev, 0.9%float, 0.003259%float, 1.1805%float, r, p. 
  assert (Q : match phev_values demo_phev 0.9%float 0.003259%float 1.1805%float r with
    | Ok p => ((cdCycs p <? 1) && is_nan (labMpgge p) && is_nan (labKwhPerMile p) && is_nan (adjMpgge p))%float%bool | Err _ => false end = true)
    by (vm_compute; reflexivity).
  rewrite E in Q. repeat (apply andb_prop in Q as (Q & ?)). auto.
Qed.

(** *** C78 *)
(** The acceleration entry comes from a new full-power run with samples every tenth of a second: 1000 if the vehicle never
    gets to 60 mph, and otherwise, if its speed does not drop, the time at which the broken line through its speeds passes 60 mph. *)
Theorem C78_acceleration (udds hwfet : cyc R) (v : vehicle R) (year : Z) (out : ldict R) : get_label_fe udds hwfet v year = Ok out ->
  exists a t, run_simdrive_for_accel_test (fresh v accel_cycle) = Ok a /\ has out "netAccel" t /\
    (let speeds := map (fun r => mph_ach (spd r)) (d_rows a) in
     let times := map (fun k => INR k / 10) (seq 0 3000) in
     length speeds = 3000%nat /\ ((forall x, In x speeds -> x < 60) -> t = 1000) /\
     (nondecreasing speeds -> hd 0 speeds <= 60 -> (exists x, In x speeds /\ 60 < x) -> passes_60 speeds times t)).
Proof.
  intros G. assert (Q : exists a, run_simdrive_for_accel_test (fresh v accel_cycle) = Ok a /\ has out "netAccel" (accel_entry v a)).
  { destruct (get_label_inv _ _ _ _ _ G) as [u h a N1 N2 R1 R2 A M1 M2 E|u h a N1 R1 R2 A E|u0 h0 u h peak ru rh cu ch uf a N1 _ _ _ _ _ _ _ _ _ A I E];
      exists a; (split; [exact A|]); rewrite E; entry. }
  destruct Q as (a & A & H). exists a, (accel_entry v a). split; [exact A|]. split; [exact H|]. cbv zeta.
  assert (T : time_s (accel_cycle (F := R)) = map (fun k => INR k / 10) (seq 0 3000)).
  { unfold accel_cycle. cbn [time_s]. apply map_ext. intros k. rewrite nofN_R, lit_R. unR. unfold Rdiv. ring. }
  assert (Wc : wf (accel_cycle (F := R))). { unfold wf, clen, accel_cycle. cbn [time_s mps grade road_type]. cbn [length]. rewrite !map_length, !seq_length, !repeat_length. auto. }
  assert (Ws : wf_sd (fresh v accel_cycle)) by (repeat split; apply Wc).
  assert (L : length (d_rows a) = 3000%nat).
  { assert (X : exists s, sim_drive_walk (fresh v accel_cycle) s None = Ok a) by (unfold run_simdrive_for_accel_test in A; destruct (veh_pt_type _); eauto).
    destruct X as (s & X). rewrite (wk_len _ _ _ _ (walk_walked _ _ _ _ Ws X)). unfold clen, fresh. cbn [d_cyc new_sd init_arrays]. rewrite T, map_length, seq_length. reflexivity. }
  unfold accel_entry. rewrite T. split; [now rewrite map_length|]. split; [apply net_accel_never|].
  intros ND HD EX. apply net_accel_passes; auto. now rewrite !map_length, seq_length, L.
Qed.
Example C78_run : (net_accel [0; 20; 45; 55; 65; 70] [0; 1; 2; 3; 4; 5], net_accel [0; 20; 45; 59.5] [0; 1; 2; 3])%float = (3.5, 1000)%float.
Proof. vm_compute. reflexivity. Qed.

(** *** Cases *)
(** The label of the small electric car with the short trip for both cycles exists (C49_combined_mpg, C49_combined_kwh, C49_electric,
    C50_plug_in_keys, C76_reported, C78). *)
Example C49_case : exists out : ldict R, get_label_fe demo_trip demo_trip demo_bev 2016 = Ok out.
Proof.
  assert (W : forall c : cyc R, (0 < clen c)%nat -> exists d, sim_drive_walk (new_sd demo_bev label_props default_sim_params c) (max_soc demo_bev) None = Ok d).
  { intros c L. apply walk_total; [exact L|reflexivity|]. right. unfold fresh, new_sd. cbn [d_veh init_arrays]. cbn -[lit]. rewrite !lit_R. split.
    - destruct (Rltb_spec (8 / 10) (8 / 10)); [lra|reflexivity].
    - destruct (Rltb_spec (8 / 10) (2 / 10)); [lra|reflexivity]. }
  assert (D : forall c : cyc R, sim_drive (new_sd demo_bev label_props default_sim_params c) None None = sim_drive_walk (new_sd demo_bev label_props default_sim_params c) (max_soc demo_bev) None) by reflexivity.
  assert (A : forall c : cyc R, run_simdrive_for_accel_test (new_sd demo_bev label_props default_sim_params c) = sim_drive_walk (new_sd demo_bev label_props default_sim_params c) (max_soc demo_bev) None) by reflexivity.
  unfold get_label_fe. cbv zeta. rewrite D, A.
  destruct (W demo_trip ltac:(cbn; lia)) as (d & Ed). rewrite Ed. cbn [bindR].
  replace (veh_pt_type (demo_bev (F := R))) with BEV by reflexivity.
  destruct (W accel_cycle ltac:(unfold clen, accel_cycle; cbn [time_s]; rewrite map_length, seq_length; lia)) as (a & Ea).
  fold (start (demo_bev (F := R)) (adj_params 2016)). rewrite label_elec by reflexivity. cbv zeta. cbn [bindR]. rewrite Ea. cbn [bindR]. eexists. reflexivity.
Qed.
(** Runs of the three small vehicles over the short trip, and the resulting entries. *)
Definition label_run (v : vehicle float) : option (list (string * Z)) :=
  match sim_drive (new_sd v label_props default_sim_params demo_trip) None None with
  | Ok d => match label_values [] v (adj_params 2016) (post_mpgge d) (post_mpgge d) (battery_kwh_per_mi (set_post_scalars d)) (battery_kwh_per_mi (set_post_scalars d)) with
            | Ok out => Some (flat_map (fun e => match snd e with LNum x => if (x =? 0)%float then [] else [(fst e, rounded x)] | _ => [] end) out)
            | Err _ => None
            end
  | Err _ => None
  end.
Example C49_run : (label_run demo_conv, label_run demo_hev, label_run demo_bev) =
  (Some [("labUddsMpgge", 3337785); ("labHwyMpgge", 3337785); ("labCombMpgge", 3337785); ("adjUddsMpgge", 2801618);
         ("adjHwyMpgge", 2470251); ("adjCombMpgge", 2642128)],
   Some [("labUddsMpgge", 3716231); ("labHwyMpgge", 3716231); ("labCombMpgge", 3716231); ("adjUddsMpgge", 3116046);
         ("adjHwyMpgge", 2749274); ("adjCombMpgge", 2939575)],
   Some [("labUddsKwhPerMile", 722729); ("labHwyKwhPerMile", 722729); ("labCombKwhPerMile", 722729); ("adjUddsKwhPerMile", 1119779);
         ("adjHwyKwhPerMile", 1185579); ("adjCombKwhPerMile", 1149389); ("adjUddsEssKwhPerMile", 963010);
         ("adjHwyEssKwhPerMile", 1019598); ("adjCombEssKwhPerMile", 988475); ("netRangeMiles", 24279831)])%string%Z.
Proof. vm_compute. reflexivity. Qed.
(** A car standing with its engine off and nothing switched on: no fuel (C49_no_fuel). *)
Example C49_no_fuel_run :
  match sim_drive (new_sd (demo_veh CONV (z 100) n0 n0 n0 true true n0) label_props default_sim_params demo_park) None None with
  | Ok d => Some (sum_fs_kwh d, label_values [] (demo_veh CONV (z 100) n0 n0 n0 true true n0) (adj_params 2016) (post_mpgge d) (post_mpgge d) 0%float 0%float)
  | Err _ => None
  end = Some (0%float, Err ZeroDivisionError).
Proof. vm_compute. reflexivity. Qed.
