(** Coast-down coefficients (C53), settings objects (C94), copies and comparisons of runs (C95). *)
From Coq Require Import Lia PrimFloat.
From Verif Require Import Num FloatNum Numpy ListFacts CycleModel CycleSpec VehModel SimModel SimState WalkModel FrameProofs SimDemo SimProps
  UtilModel UtilProofs UtilProps VehDictModel VehTableModel VehSpec VehProps DictSpec DictProofs DictProofs2 DictProps CopyModel CopySpec CopyProofs.
Local Open Scope R_scope.
Local Set Warnings "-inexact-float".

(** ** C53: when coast-down coefficients can be converted *)
(** The result depends on a run that only serves plots: the coast-down of the changed vehicle with the default settings.  Its
    error gets out, and so does an error if the vehicle never gets below 0.1 m/s. *)
Theorem C53_outcome : forall (v : vehicle R) (a b c : R) (custom : option (R * R)),
  let d := c * (4448 / 1000) * (22369 / 10000) ^ 2 / (1 / 2 * frontal_area_m2 v * ambient_density custom) in
  let r := a * (4448 / 1000) / veh_kg v / (981 / 100) in
  let coasting := sim_drive (new_sd (with_drag v d r) (mkprops (12 / 10) (981 / 100) (337 / 10)) documented coast_down) None None in
  (forall e, coasting = Err e -> abc_to_drag_coeffs v a b c custom = Err e) /\
  (forall s, coasting = Ok s -> (exists w, In w (d_rows s) /\ mps_ach (spd w) < 1 / 10) ->
     abc_to_drag_coeffs v a b c custom = Ok (with_drag v d r, (d, r))) /\
  (forall s, coasting = Ok s -> (forall w, In w (d_rows s) -> 1 / 10 <= mps_ach (spd w)) ->
     abc_to_drag_coeffs v a b c custom = Err IndexError).
Proof. exact abc_outcome. Qed.

(** ** C94: settings objects *)
(** A fresh object has the documented values. *)
Theorem C94_defaults : default_sim_params (F := R) = documented /\ new_params (F := R) = settings documented /\
  holds (new_params (F := R)) "max_trace_miss_iters" (SI 5) /\ holds (new_params (F := R)) "missed_trace_correction" (SB false) /\
  holds (new_params (F := R)) "newton_gain" (SN (9 / 10)) /\ holds (new_params (F := R)) "max_epa_adj" (SN (3 / 10)).
Proof.
  unfold new_params. rewrite defaults_documented. split; [reflexivity|]. split; [reflexivity|]. repeat split; apply aget_holds; reflexivity.
Qed.
(** From a dict every setting gets the value given last, or else keeps its default. *)
Theorem C94_from_dict : forall (d : attrs R) (k : string) (v : sval R),
  holds (params_from_dict d) k v <-> last_given d k v \/ (~ In k (map fst d) /\ holds new_params k v).
Proof. exact from_dict_holds. Qed.
(** A copy has exactly the settings, with the values of the original, and compares equal to it; a fresh object and one read
    from a dict can always be copied. *)
Theorem C94_copy : forall o : attrs R, complete o -> exists o', copy_sim_params o = Ok o' /\ map fst o' = ref_names (F := R) /\
  (forall k v, In k (ref_names (F := R)) -> (holds o' k v <-> holds o k v)) /\ sim_params_equal o o' = Ok true.
Proof.
  intros o C. destruct (copy_ok o C) as (o' & E & K & V). exists o'. split; [exact E|]. split; [exact K|].
  assert (I : forall k v, In k (ref_names (F := R)) -> (holds o' k v <-> holds o k v)).
  { intros k v J. rewrite <- !aget_holds, (V k J). reflexivity. }
  split; [exact I|]. assert (C' : complete o').
  { intros k J. destruct (C k J) as (v & H). exists v. now apply I. }
  apply (params_equal_iff o o' C C'). intros k v w J A B. apply I in B; [|exact J]. apply aget_holds in A. apply aget_holds in B.
  replace w with v by congruence. apply same_value_refl.
Qed.
Theorem C94_complete : forall d : attrs R, complete (params_from_dict d).
Proof.
  intros d k K. destruct (aget (params_from_dict d) k) as [v|] eqn:E; [exists v; now apply aget_holds|].
  destruct (settings_complete default_sim_params k K) as (v & H). exfalso. unfold params_from_dict in E. rewrite aget_fold in E.
  apply aget_holds in H. destruct (aget (rev d) k); [discriminate|]. unfold new_params in E. congruence.
Qed.
(** An object that lacks a setting (deleted, or never set on an object of another class) cannot be copied or compared. *)
Theorem C94_missing : forall (o p : attrs R) (k : string), In k (ref_names (F := R)) -> (forall v, ~ holds o k v) ->
  copy_sim_params o = Err AttributeError /\ sim_params_equal o p = Err AttributeError.
Proof.
  intros o p k K H. unfold copy_sim_params, sim_params_equal, params_dict. now rewrite (attr_dict_err o _ k K H).
Qed.
(** Two objects compare equal exactly if every setting has equal values; otherwise the answer is "no", not an error. *)
Theorem C94_equal : forall a b : attrs R, complete a -> complete b ->
  (sim_params_equal a b = Ok true <-> forall k v w, In k (ref_names (F := R)) -> holds a k v -> holds b k w -> same_value v w) /\
  (sim_params_equal a b <> Ok true -> sim_params_equal a b = Ok false).
Proof.
  intros a b A B. destruct (params_equal_iff a b A B) as ((r & E) & I). split; [exact I|]. rewrite E. destruct r; [congruence|reflexivity].
Qed.
(** For objects whose settings have their proper kinds, equality is equality of the settings. *)
Theorem C94_equal_settings : forall p q : simparams R, sim_params_equal (settings p) (settings q) = Ok true <-> p = q.
Proof. exact settings_equal_iff. Qed.
(** A misspelled name in a dict is accepted without notice and changes no setting. *)
Theorem C94_misspelled : forall (d e : attrs R) (k : string) (v : sval R), ~ In k (ref_names (F := R)) ->
  let a := params_from_dict (d ++ (k, v) :: e) in let b := params_from_dict (d ++ e) in
  (forall j w, j <> k -> (holds a j w <-> holds b j w)) /\ sim_params_equal a b = Ok true.
Proof.
  intros d e k v K a b. assert (I : forall j w, j <> k -> (holds a j w <-> holds b j w)).
  { intros j w J. unfold a, b, params_from_dict. rewrite <- !aget_holds, !aget_fold, !rev_app_distr. cbn [rev]. rewrite <- app_assoc. cbn [app].
    assert (S : aget (rev e ++ (k, v) :: rev d) j = aget (rev e ++ rev d) j).
    { induction (rev e) as [|[k' v'] r IH]; cbn [app aget].
      - destruct (String.eqb_spec k j); [congruence|reflexivity].
      - destruct (String.eqb k' j); [reflexivity|exact IH]. }
    now rewrite S. }
  split; [exact I|]. apply (params_equal_iff a b (C94_complete _) (C94_complete _)). intros j x w J A B.
  assert (Q : j <> k) by (intros ->; auto). apply (I j x Q) in A. apply aget_holds in A. apply aget_holds in B.
  replace w with x by congruence. apply same_value_refl.
Qed.
(** With a setting that is not a number the copy of an object is not equal to it. *)
Theorem C94_nan_refuted : exists o o' : attrs float, copy_sim_params o = Ok o' /\ sim_params_equal o o' = Ok false.
Proof.
  pose (o := params_from_dict [("idm_v_desired_m_per_s"%string, SN (0 / 0)%float)]).
  exists o, (params_from_dict [("idm_v_desired_m_per_s"%string, SN (0 / 0)%float)]). unfold o. vm_compute. auto.
Qed.
Example C94_case :
  let d := [("max_trace_miss_iters", SI 3); ("missed_trace_corection", SB true); ("max_trace_miss_iters", SI 7)]%string in
  let o := params_from_dict (F := R) d in
  complete o /\ holds o "max_trace_miss_iters" (SI 7) /\ holds o "missed_trace_correction" (SB false) /\
  holds o "missed_trace_corection" (SB true) /\ ~ In "missed_trace_corection"%string (ref_names (F := R)) /\
  In "newton_gain"%string (ref_names (F := R)) /\ (forall v, ~ holds ([] : attrs R) "newton_gain" v).
Proof.
  cbv zeta. split; [apply C94_complete|]. repeat split; try (apply aget_holds; reflexivity).
  - cbn. intuition discriminate.
  - cbn. tauto.
  - intros v H. apply aget_holds in H. discriminate.
Qed.
Example C94_run : let o := params_from_dict (F := float) [("coast_allow", SB true); ("coast_alow", SB false)]%string in
  sim_params_equal o (settings default_sim_params) = Ok false /\ sim_params_equal o (params_from_dict [("coast_allow", SN 1%float)]%string) = Ok true /\
  copy_sim_params o = Ok (params_from_dict [("coast_allow", SB true)]%string).
Proof. vm_compute. auto. Qed.

(** ** C95: copies and comparisons of runs *)
(** Two runs (with cycles of the same number of samples) compare equal exactly if their vehicles do and everything else is the same. *)
Theorem C95_equal : forall a b : pyrun R, length (d_rows (run_sd a)) = length (d_rows (run_sd b)) ->
  (sim_drive_equal a b = Ok true <-> veh_equal (run_veh a) (run_veh b) = Ok true /\ same_but_vehicle (run_sd a) (run_sd b)).
Proof. exact run_equal_iff. Qed.
(** A copy takes over everything but the vehicle, whose copy it uses; it fails exactly if the vehicle cannot be copied. *)
Theorem C95_copy : forall (T : texts R) (r : pyrun R),
  (forall e, copy_vehicle T (run_veh r) = Err e -> copy_sim_drive T r = Err e) /\
  (forall w, copy_vehicle T (run_veh r) = Ok w -> exists c, copy_sim_drive T r = Ok c /\ run_veh c = w /\ d_veh (run_sd c) = pv_core w /\
     same_but_vehicle (run_sd r) (run_sd c) /\ d_cache (run_sd c) = d_cache (run_sd r)).
Proof.
  intros T r. unfold copy_sim_drive. split; [intros e ->; reflexivity|]. intros w ->. cbn [bindR]. eexists. split; [reflexivity|].
  cbn. repeat split.
Qed.
(** If the vehicle has the default maps and no peak overrides, the copy is the run: it compares equal and simulates alike. *)
Theorem C95_copy_same : forall (T : texts R) (r : pyrun R) (c0 : vehicle R), coherent (run_veh r) -> d_veh (run_sd r) = pv_core (run_veh r) ->
  set_derived c0 = Ok (pv_core (run_veh r)) -> fc_peak_eff_override (pv_core (run_veh r)) = None ->
  mc_peak_eff_override (pv_core (run_veh r)) = None -> default_maps (run_veh r) -> length (pv_vals (run_veh r)) = 18%nat ->
  exists c, copy_sim_drive T r = Ok c /\ sim_drive_equal r c = Ok true /\
    (forall s o, sim_drive (run_sd c) s o = sim_drive (run_sd r) s o) /\ (forall s o, sim_drive_walk (run_sd c) s o = sim_drive_walk (run_sd r) s o).
Proof.
  intros T r c0 CO DV SD F1 F2 M L. exists r. assert (E : copy_sim_drive T r = Ok r).
  { unfold copy_sim_drive. rewrite (proj2 (copy_same T (run_veh r) c0 CO SD F1 F2) M). cbn [bindR]. destruct r as [v [dv p s c c' ca i rw n]]. cbn in *. now subst. }
  split; [exact E|]. split; [|auto]. apply run_equal_iff; [reflexivity|]. split; [|repeat split].
  destruct M as (_ & _ & _ & m & MM & _). apply (C48_reflexive _ m L MM).
Qed.
(** Otherwise it is not: the copy of a run with a measured engine map simulates another vehicle. *)
Definition trip_of (v : pyveh float) : pyrun float := mkrun v (demo_sd (pv_core v) demo_trip).
Definition fuel_of (d : sdrive float) : float := nsum (map (fun r => fs_kwh_out_ach (fc r)) (d_rows d)).
Theorem C95_custom_refuted : exists (T : texts float) (d d' : pydict float) (v : pyveh float) (c : pyrun float) (x y : sdrive float),
  from_dict T d = Ok (d', v) /\ copy_sim_drive T (trip_of v) = Ok c /\
  sim_drive_walk (run_sd (trip_of v)) 0.5%float None = Ok x /\ sim_drive_walk (run_sd c) 0.5%float None = Ok y /\
  PrimFloat.ltb (1.1 * fuel_of y) (fuel_of x) = true.
Proof.
  destruct (ok_witness (bindR (from_dict demo_texts custom_dict) (fun r => bindR (copy_sim_drive demo_texts (trip_of (snd r))) (fun c =>
    bindR (sim_drive_walk (run_sd (trip_of (snd r))) 0.5%float None) (fun x => bindR (sim_drive_walk (run_sd c) 0.5%float None) (fun y => Ok (r, c, x, y))))))
    (fun q => let '(_, _, x, y) := q in PrimFloat.ltb (1.1 * fuel_of y) (fuel_of x))%float) as ((((r & c) & x) & y) & E & Q).
  { vm_compute. reflexivity. }
  apply bind_ok in E as ((d' & v) & A & E). apply bind_ok in E as (c' & B & E). apply bind_ok in E as (x' & C & E). apply bind_ok in E as (y' & D & E).
  assert (Z : r = (d', v) /\ c = c' /\ x = x' /\ y = y') by (repeat split; congruence). destruct Z as (-> & -> & -> & ->).
  exists demo_texts, custom_dict, d', v, c', x', y'. cbn [snd] in *. auto.
Qed.
(** And runs that compare equal may give different results: the power a motor draws is not compared. *)
Definition override_dict : pydict float := pset demo_dict "mc_peak_eff_override" (VNum 0.8%float).
Definition drawn (d : sdrive float) : float := nsum (map (fun r => nabs (ess_kw_out_ach (dec r))) (d_rows d)).
Definition told (p q : Res bool) (w : bool) : bool := match p, q with Ok true, Ok false => w | _, _ => false end.
Lemma told_spec p q w : told p q w = true -> p = Ok true /\ q = Ok false /\ w = true.
Proof. destruct p as [[]|], q as [[]|]; cbn; auto; discriminate. Qed.
Theorem C95_equal_results_refuted : exists (a b : pyrun float) (x y : sdrive float), sim_drive_equal a b = Ok true /\
  sim_drive_walk (run_sd a) 0.5%float None = Ok x /\ sim_drive_walk (run_sd b) 0.5%float None = Ok y /\
  sim_drive_equal (mkrun (run_veh a) x) (mkrun (run_veh b) y) = Ok false /\ PrimFloat.ltb (drawn y) (drawn x) = true.
Proof.
  destruct (ok_witness (bindR (from_dict demo_texts override_dict) (fun r => bindR (copy_sim_drive demo_texts (trip_of (snd r))) (fun c =>
    bindR (sim_drive_walk (run_sd (trip_of (snd r))) 0.5%float None) (fun x => bindR (sim_drive_walk (run_sd c) 0.5%float None) (fun y => Ok (trip_of (snd r), c, x, y))))))
    (fun q => let '(a, b, x, y) := q in told (sim_drive_equal a b) (sim_drive_equal (mkrun (run_veh a) x) (mkrun (run_veh b) y)) (PrimFloat.ltb (drawn y) (drawn x)))) as ((((a & b) & x) & y) & E & Q).
  { vm_compute. reflexivity. }
  apply bind_ok in E as (r & _ & E). apply bind_ok in E as (c & _ & E). apply bind_ok in E as (x' & C & E). apply bind_ok in E as (y' & D & E).
  assert (Z : a = trip_of (snd r) /\ b = c /\ x = x' /\ y = y') by (repeat split; congruence). destruct Z as (-> & -> & -> & ->).
  exists (trip_of (snd r)), c, x', y'.
  apply told_spec in Q. destruct Q as (Q1 & Q2 & Q3). auto.
Qed.
Example C95_case : forall T : texts R, exists (r : pyrun R) (c0 : vehicle R), coherent (run_veh r) /\ d_veh (run_sd r) = pv_core (run_veh r) /\
  set_derived c0 = Ok (pv_core (run_veh r)) /\ fc_peak_eff_override (pv_core (run_veh r)) = None /\
  mc_peak_eff_override (pv_core (run_veh r)) = None /\ default_maps (run_veh r) /\ length (pv_vals (run_veh r)) = 18%nat /\
  length (d_rows (run_sd r)) = 5%nat.
Proof.
  intros T. destruct (demo_copies T) as (c & A & B & D). pose (v := with_core (F := R) demo_pv c).
  destruct (copy_settings T demo_pv _ demo_coherent B) as (S & _ & CO).
  exists (mkrun v (demo_sd (pv_core v) demo_trip)), c. cbn [run_veh run_sd]. split; [exact CO|]. split; [reflexivity|]. split; [exact D|].
  split; [exact (eq_trans (ss_fc _ _ S) eq_refl)|]. split; [exact (eq_trans (ss_mc _ _ S) eq_refl)|].
  split; [apply (C47_maps T demo_pv); auto using demo_coherent|]. split; reflexivity.
Qed.
Example C95_run : match copy_vehicle demo_texts (F := float) demo_pv with
  | Ok v => match copy_sim_drive demo_texts (trip_of v) with
            | Ok c => sim_drive_equal (trip_of v) c = Ok true /\
                      sim_drive_equal c (mkrun v (demo_sd (pv_core v) demo_dash)) = Ok false /\
                      (match sim_drive_walk (run_sd c) 0.5%float None with Ok y => sim_drive_equal c (mkrun v y) = Ok false | Err _ => False end)
            | Err _ => False end
  | Err _ => False end.
Proof. vm_compute. auto. Qed.
