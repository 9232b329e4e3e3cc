(** Proofs about set_derived, set_veh_mass and the peak-efficiency setters (C44-C46), second part. *)
From Coq Require Import Lia.
From Verif Require Import Num Numpy ListFacts CycleModel CycleSpec VehModel SimModel SimState FrameProofs SimSpec SimProofs1 SimProofs3 ResampleProofs VehSpec VehProofs.
Local Open Scope R_scope.

(** ** The tables satisfy what the simulation needs *)
Lemma polyline_pos xs ys x y : on_polyline xs ys x y -> ys <> [] -> increasing xs -> (forall z, In z ys -> 0 < z) -> 0 < y.
Proof.
  intros H NE I P. destruct H as [(_ & ->)|[(_ & ->)|(i & a & b & c & d & A & B & C & D & E & ->)]].
  - apply P. destruct ys; [congruence|]. now left.
  - apply P. apply last_In. exact NE.
  - apply nth_error_In in C, D. apply P in C, D.
    assert (AB : a < b) by (eapply I; [|exact A|exact B]; lia).
    assert (0 <= (x - a) / (b - a) <= 1).
    { split; [apply Rmult_le_pos; [lra|left; apply Rinv_0_lt_compat; lra]|]. apply Rmult_le_reg_r with (b - a); [lra|]. unfold Rdiv. rewrite Rmult_assoc, Rinv_l by lra. lra. }
    nra.
Qed.
Lemma rescaled_pos o l l' : rescaled o l l' -> pos_if_given o -> forall m, is_max m l -> 0 < m -> exists k, 0 < k /\ l' = map (fun x => x * k) l.
Proof.
  destruct o as [p|]; cbn.
  - intros (m & M & ->) P m' M' Q. rewrite (max_unique _ _ _ M M'). exists (p / m'). split; [apply Rdiv_lt_0_compat; lra|reflexivity].
  - intros -> _ m M P. exists 1. split; [lra|]. rewrite (map_ext (fun x => x * 1) (fun x => x)) by (intros; lra). now rewrite map_id.
Qed.
Lemma engine_ready (v v' : vehicle R) : set_derived v = Ok v' -> increasing (fc_pwr_out_perc v) ->
  (forall x, In x (fc_eff_map v) -> 0 < x) -> pos_if_given (fc_peak_eff_override v) -> engine_map_ok v'.
Proof.
  intros H I P O. destruct (engine_tables v v' H I) as (A & B & C & _ & t & D & E & G).
  destruct (efficiencies v v' H) as (K & _).
  assert (NE : fc_eff_map v <> []).
  { open_dv H OD. destruct (np_interp_ok _ _ _ _ (od_fc _ _ _ _ _ _ _ _ _ _ OD)) as (N1 & N2 & _). intros Q. rewrite Q in N2. cbn in N2. destruct (fc_pwr_out_perc v); [congruence|discriminate]. }
  assert (TP : forall x, In x t -> 0 < x).
  { intros x X. apply (In_nth _ _ 0) in X as (k & L & <-). rewrite D in L. eapply polyline_pos; [apply E, L|exact NE|exact I|exact P]. }
  constructor; [rewrite B; unfold engine_points; lia|now rewrite A, B|].
  intros x X. split; [|specialize (K x X); lra].
  assert (T0 : In (nth 0 t 0) t) by (apply nth_In; rewrite D; unfold engine_points; lia).
  assert (EX : exists m, is_max m t /\ 0 < m).
  { destruct t as [|a t]; [destruct T0|]. exists (amax (a :: t)). assert (M : is_max (amax (a :: t)) (a :: t)) by (apply lmax_max; reflexivity).
    split; [exact M|]. apply TP, M. }
  destruct EX as (m & M1 & M2). destruct (rescaled_pos _ _ _ G O m M1 M2) as (s & S1 & S2). rewrite S2 in X. apply in_map_iff in X as (y & <- & Y).
  apply Rmult_lt_0_compat; auto.
Qed.
Lemma motor_ready (v v' : vehicle R) : set_derived v = Ok v' -> increasing (mc_pwr_out_perc v) ->
  (forall m, mc_eff_map v = Some m -> forall x, In x m -> 0 < x) -> pos_if_given (mc_peak_eff_override v) -> motor_map_ok v'.
Proof.
  intros H I P O. destruct (motor_tables v v' H I) as (A & B & C & _ & m & t & D & E & T0 & T1 & T2 & _ & _ & _ & G & _).
  destruct (efficiencies v v' H) as (_ & K & _).
  assert (MP : (forall x, In x m -> 0 < x) /\ m <> []).
  { unfold motor_map_of in D. destruct (mc_eff_map v) as [l|] eqn:EM.
    - subst l. split; [now apply P|]. open_dv H OD. destruct (np_interp_ok _ _ _ _ (od_mc _ _ _ _ _ _ _ _ _ _ OD)) as (N1 & N2 & _). intros Q. unfold used_map in N2. rewrite EM, Q in N2. cbn in N2.
      destruct (mc_pwr_out_perc v); [congruence|discriminate].
    - destruct D as (D1 & D2). split; [|intros Q; rewrite Q in D1; discriminate]. intros x X. apply (In_nth _ _ 0) in X as (k & L & <-). rewrite D1 in L. rewrite D2 by exact L.
      unfold default_motor_eff. assert (LG : 0 <= largeness (mc_max_kw v) <= 1).
      { unfold largeness. split; [apply Rmax_l|]. apply Rmax_lub; [lra|apply Rmin_r]. }
      assert (XS : 0 < nth k small_motor 0 /\ 0 < nth k large_motor 0).
      { do 11 (destruct k as [|k]; [cbn; lra|]). lia. }
      destruct XS. nra. }
  destruct MP as (MP & NE).
  assert (TP : forall k, (1 <= k < motor_points)%nat -> 0 < nth k t 0).
  { intros k L. unfold motor_points in L. destruct (Nat.eq_dec k 100) as [->|N].
    - rewrite T1. apply MP, last_In, NE.
    - eapply polyline_pos; [apply T2; lia|exact NE|exact I|exact MP]. }
  constructor; [rewrite C; unfold motor_points; lia|now rewrite A, C|now rewrite B, C|].
  intros k x L X. split; [|pose proof (K x (nth_error_In _ _ X)); lra].
  assert (KL : (k < motor_points)%nat) by (rewrite <- C; apply nth_error_Some; congruence).
  assert (EX : exists q, is_max q t /\ 0 < q).
  { assert (LT : In (nth 1 t 0) t) by (apply nth_In; rewrite E; unfold motor_points; lia).
    pose proof (TP 1%nat ltac:(unfold motor_points; lia)) as T1P.
    destruct t as [|a t]; [destruct LT|]. exists (amax (a :: t)). assert (M : is_max (amax (a :: t)) (a :: t)) by (apply lmax_max; reflexivity).
    split; [exact M|]. pose proof (proj2 M _ LT). lra. }
  destruct EX as (q & M1 & M2). destruct (rescaled_pos _ _ _ G O q M1 M2) as (s & S1 & S2). rewrite S2 in X.
  apply (nth_error_nth _ _ 0) in X. rewrite <- X. set (g := fun x : R => x * s).
  rewrite (nth_indep _ 0 (g 0)) by (rewrite map_length, E; exact KL). rewrite map_nth. unfold g. apply Rmult_lt_0_compat; auto.
Qed.

(** ** Mass *)
Section Mass.
  Context {F : Type} {N : Num F}.
  Lemma mass_again (v : vehicle F) : nltb n0 n0 = false -> set_veh_mass (set_veh_mass v) = set_veh_mass v.
  Proof.
    intros Z. assert (U : use_override (set_veh_mass v) = use_override v).
    { unfold set_veh_mass. destruct (use_override v) as [x|] eqn:U; [exact U|]. unfold use_override. cbn. now rewrite Z. }
    unfold set_veh_mass at 1. rewrite U. unfold set_veh_mass. destruct (use_override v); reflexivity.
  Qed.
  (** ** Deriving again *)
  Lemma redo (v : vehicle F) um b1 b2 l1 l2 fce mi gk mx mcf arr map_ mce' mcf' o kg tr m1 m2 m3 m4 :
    let set x := with_mc_eff (with_fc_eff (with_derived x (Some um) false b1 b2 l1 l2 fce um mi gk mx mcf) arr map_) (Some mce') mce' mcf' in
    set (with_mass (set v) o kg tr m1 m2 m3 m4) = with_mass (set v) o kg tr m1 m2 m3 m4.
  Proof. reflexivity. Qed.
  Lemma derive_again (v v' : vehicle F) fce mcf0 mcf mx arr map_ mce' mcf' : nltb n0 n0 = false ->
    opened v v' fce mcf0 mcf mx arr map_ mce' mcf' -> mc_peak_eff_override v = None -> map_ = fc_eff_map v -> set_derived v' = Ok v'.
  Proof.
    intros Z OD MN ME. pose proof (od_mc_none _ _ _ _ _ _ _ _ _ _ OD MN) as (E1 & E2).
    assert (V : v' = set_veh_mass (before_mass v fce mcf mx arr map_ mce' mcf')) by apply (od_v' _ _ _ _ _ _ _ _ _ _ OD).
    set (w := before_mass v fce mcf mx arr map_ mce' mcf') in V.
    assert (U : used_map v' = used_map v).
    { unfold used_map at 1. replace (mc_eff_map v') with (Some mce'); [now rewrite E1|]. rewrite V. unmass. }
    assert (G : grid_kw v' = grid_kw v). { unfold grid_kw. f_equal. rewrite V. unmass. }
    apply (set_derived_close v' v' fce mcf0 mcf mx arr map_ mce' mcf'). constructor.
    - replace (check_pt v') with (check_pt v); [apply OD|]. rewrite V. unmass.
    - replace (fc_pwr_out_perc v') with (fc_pwr_out_perc v) by (rewrite V; unmass). replace (fc_eff_map v') with (fc_eff_map v); [apply OD|]. rewrite <- ME, V. unmass.
    - replace (mc_pwr_out_perc v') with (mc_pwr_out_perc v) by (rewrite V; unmass). rewrite U. apply OD.
    - rewrite U. apply OD.
    - rewrite G. apply OD.
    - replace (fc_peak_eff_override v') with (fc_peak_eff_override v) by (rewrite V; unmass). replace (fc_eff_map v') with (fc_eff_map v); [apply OD|]. rewrite <- ME, V. unmass.
    - replace (fc_peak_eff_override v') with (fc_peak_eff_override v) by (rewrite V; unmass). replace (fc_eff_map v') with (fc_eff_map v); [apply OD|]. rewrite <- ME, V. unmass.
    - rewrite U. intros _. auto.
    - replace (mc_peak_eff_override v') with (mc_peak_eff_override v) by (rewrite V; unmass). rewrite MN. discriminate.
    - apply OD.
    - assert (W : before_mass v' fce mcf mx arr map_ mce' mcf' = v').
      { unfold before_mass. rewrite U, G.
        replace (calc_no_elec_sys v') with (calc_no_elec_sys v) by (rewrite V; unmass).
        replace (calc_no_elec_aux v') with (calc_no_elec_aux v) by (rewrite V; unmass).
        replace (fc_max_kw v') with (fc_max_kw v) by (rewrite V; unmass).
        replace (fc_pwr_out_perc v') with (fc_pwr_out_perc v) by (rewrite V; unmass).
        rewrite V. unfold set_veh_mass. destruct (use_override w); unfold w, before_mass; apply redo. }
      rewrite W. rewrite V at 2. rewrite (mass_again w Z). exact V.
  Qed.
  Lemma derive_twice (v v' : vehicle F) : nltb n0 n0 = false ->
    fc_peak_eff_override v = None -> mc_peak_eff_override v = None -> set_derived v = Ok v' -> set_derived v' = Ok v'.
  Proof.
    intros Z A B H. open_dv H OD. eapply derive_again; eauto. now apply (od_fc_none _ _ _ _ _ _ _ _ _ _ OD).
  Qed.
End Mass.

Lemma table_max (v v' : vehicle R) : set_derived v = Ok v' -> increasing (fc_pwr_out_perc v) ->
  (forall x, In x (fc_eff_map v) -> 0 < x) -> forall fce, np_interp fc_perc_out_array (fc_pwr_out_perc v) (fc_eff_map v) = Ok fce ->
  forall a, lmax fce = Ok a -> 0 < a.
Proof.
  intros H I P fce E a A. destruct (np_interp_ok _ _ _ _ E) as (NE & LE & ->).
  assert (NM : fc_eff_map v <> []) by (intros Q; rewrite Q in LE; destruct (fc_pwr_out_perc v); [congruence|discriminate]).
  pose proof (lmax_max _ _ A) as [J _]. unfold interp in J. apply in_map_iff in J as (x & <- & _).
  eapply polyline_pos; [apply interp1_polyline; eauto|exact NM|exact I|exact P].
Qed.
Lemma scale_one (l : list R) k : k = 1 -> scale k l = l.
Proof. intros ->. unfold scale. unR. rewrite (map_ext (fun x => x * 1) (fun x => x)) by (intros; lra). apply map_id. Qed.
Lemma derive_stable (v v' : vehicle R) : set_derived v = Ok v' -> increasing (fc_pwr_out_perc v) ->
  (forall x, In x (fc_eff_map v) -> 0 < x) -> pos_if_given (fc_peak_eff_override v) ->
  fc_eff_map v' = fc_eff_map v /\ (mc_peak_eff_override v = None -> set_derived v' = Ok v').
Proof.
  intros H I P O. pose proof H as H0. open_dv H OD.
  assert (M : map_ = fc_eff_map v).
  { destruct (fc_peak_eff_override v) as [p|] eqn:E; [|now apply (od_fc_none _ _ _ _ _ _ _ _ _ _ OD)].
    destruct (od_fc_some _ _ _ _ _ _ _ _ _ _ OD p E) as (a & b & Q1 & Q2 & Q3 & ->). cbn in O.
    pose proof (table_max v v' H0 I P fce (od_fc _ _ _ _ _ _ _ _ _ _ OD) a Q1) as AP.
    apply scale_one. unR. replace b with p; [field; lra|].
    assert (MB : is_max (a * (p / a)) arr).
    { rewrite Q2. apply max_scale; [left; apply Rdiv_lt_0_compat; lra|now apply lmax_max]. }
    rewrite (max_unique _ _ _ (lmax_max _ _ Q3) MB). field. lra. }
  split.
  - rewrite (od_v' _ _ _ _ _ _ _ _ _ _ OD). rewrite <- M. set (w := before_mass _ _ _ _ _ _ _ _). unmass.
  - intros MN. eapply derive_again; eauto. unR. rcase; [lra|reflexivity].
Qed.

(** ** Mass *)
Lemma override_is (v : vehicle R) : use_override v = override_of v.
Proof. unfold use_override, override_of. destruct (veh_override_kg v) as [x|]; auto. unR. destruct (Rlt_dec 0 x); rcase; auto; lra. Qed.
Lemma masses (v : vehicle R) : ess_mass v = battery_kg v /\ mc_mass v = motor_kg v /\ fc_mass v = engine_kg v /\ fs_mass v = tank_kg v.
Proof.
  unfold ess_mass, mc_mass, fc_mass, fs_mass, battery_kg, motor_kg, engine_kg, tank_kg. unR. change (@n0 R RNum) with 0. change (@n1 R RNum) with 1.
  repeat split; repeat destruct (Req_EM_T _ _); repeat rcase; cbn [orb]; try congruence; try reflexivity; unfold Rdiv; ring.
Qed.
Lemma mass_is (v : vehicle R) : let v' := set_veh_mass v in
  match override_of v with
  | Some x => veh_kg v' = x /\ ess_mass_kg v' = 0 /\ mc_mass_kg v' = 0 /\ fc_mass_kg v' = 0 /\ fs_mass_kg v' = 0 /\ veh_override_kg v' = Some x
  | None => veh_kg v' = sum_of_parts v /\ ess_mass_kg v' = battery_kg v /\ mc_mass_kg v' = motor_kg v /\ fc_mass_kg v' = engine_kg v /\
            fs_mass_kg v' = tank_kg v /\ veh_override_kg v' = Some 0
  end.
Proof.
  intros v'. unfold v', set_veh_mass. rewrite override_is. destruct (override_of v) as [x|] eqn:E.
  - cbn. repeat split; auto. unfold override_of in E. destruct (veh_override_kg v) as [y|]; [|discriminate]. destruct (Rlt_dec 0 y); [|discriminate]. congruence.
  - destruct (masses v) as (A & B & C & D). cbn [veh_kg ess_mass_kg mc_mass_kg fc_mass_kg fs_mass_kg veh_override_kg with_mass]. rewrite A, B, C, D. unR. repeat split; auto. unfold sum_of_parts. ring.
Qed.
Lemma traction_is (v : vehicle R) : let v' := set_veh_mass v in veh_kg v' <> 0 -> a_grav_mps2 (veh_props v) <> 0 ->
  max_trac_mps2 v' = wheel_coef_of_fric v * drive_axle_weight_frac v * a_grav_mps2 (veh_props v) / (1 + veh_cg_m v * wheel_coef_of_fric v / wheel_base_m v).
Proof.
  intros v' K G. assert (E : max_trac_mps2 v' = max_trac v (veh_kg v')) by (unfold v'; unmass). rewrite E. unfold max_trac. unR. change (@n1 R RNum) with 1.
  set (q := 1 + _). unfold Rdiv. rewrite Rinv_mult. set (iq := / q). field. auto.
Qed.
Lemma derived_mass (v v' : vehicle R) : set_derived v = Ok v' -> exists w, v' = set_veh_mass w /\ override_of w = override_of v /\
  sum_of_parts w = sum_of_parts v.
Proof.
  intros H. open_dv H OD. exists (before_mass v fce mcf mx arr map_ mce' mcf'). split; [apply OD|]. split; reflexivity.
Qed.

(** ** Peak efficiencies *)
Lemma fc_peak_set (v v' : vehicle R) p a : lmax (fc_eff_array v) = Ok a -> 0 < a -> 0 < p -> set_fcPeakEff v p = Ok v' ->
  get_fcPeakEff v' = Ok p /\ fc_eff_array v' = map (fun x => x * (p / a)) (fc_eff_array v) /\ v' = with_fc_eff v (fc_eff_array v') (fc_eff_map v).
Proof.
  intros A AP PP H. unfold set_fcPeakEff in H. rewrite A in H. cbn [bindR] in H.
  destruct (lmax (scale _ _)) as [b|] eqn:B; [|discriminate]. cbn [bindR] in H. injection H as <-.
  assert (MB : is_max (a * (p / a)) (scale (p / a) (fc_eff_array v))).
  { apply max_scale; [left; apply Rdiv_lt_0_compat; lra|now apply lmax_max]. }
  assert (BP : b = p). { unR. rewrite (max_unique _ _ _ (lmax_max _ _ B) MB). field. lra. }
  subst b. unfold get_fcPeakEff. cbn [fc_eff_array with_fc_eff]. split; [exact B|]. split; [reflexivity|]. f_equal. apply scale_one. unR. field. lra.
Qed.
Lemma fc_peak_ok (v : vehicle R) p : fc_eff_array v <> [] -> exists v', set_fcPeakEff v p = Ok v'.
Proof. intros N. unfold set_fcPeakEff. destruct (fc_eff_array v) as [|a l]; [congruence|]. cbn. eauto. Qed.
Lemma fc_peak_lost (v v1 v' : vehicle R) p a : set_derived v = Ok v1 -> fc_peak_eff_override v = None -> mc_peak_eff_override v = None ->
  lmax (fc_eff_array v1) = Ok a -> 0 < a -> 0 < p -> set_fcPeakEff v1 p = Ok v' -> set_derived v' = Ok v1.
Proof.
  intros H FN MN A AP PP S. destruct (fc_peak_set v1 v' p a A AP PP S) as (_ & _ & E).
  assert (T : set_derived v1 = Ok v1) by (eapply derive_twice; eauto; unR; rcase; [lra|reflexivity]).
  rewrite E. rewrite <- T. reflexivity.
Qed.
Lemma mc_peak_set (v v' : vehicle R) p a : get_mcPeakEff v = Ok a -> 0 < a -> 0 < p -> set_mcPeakEff v p = Ok v' ->
  get_mcPeakEff v' = Ok p /\ mc_full_eff_array v' = map (fun x => x * (p / a)) (mc_full_eff_array v) /\
  mc_eff_array v' = map (fun x => x * (p / a)) (mc_eff_array v) /\
  v' = with_mc_eff v (Some (mc_eff_array v')) (mc_eff_array v') (mc_full_eff_array v').
Proof.
  intros G AP PP H. unfold get_mcPeakEff in G. destruct (lmax (mc_full_eff_array v)) as [x|] eqn:X; [|discriminate]. cbn [bindR] in G.
  destruct (lmax (mc_eff_array v)) as [y|] eqn:Y; [|discriminate]. cbn [bindR] in G. destruct (assertR (neqb x y)) eqn:Q; [|discriminate]. cbn [bindR] in G.
  injection G as ->. apply assert_ok in Q. revert Q. unR. intros Q. apply Reqb_true in Q. subst y.
  unfold set_mcPeakEff in H. rewrite X, Y in H. cbn [bindR] in H.
  assert (HV : v' = with_mc_eff v (Some (scale (ndiv p a) (mc_eff_array v))) (scale (ndiv p a) (mc_eff_array v)) (scale (ndiv p a) (mc_full_eff_array v))) by congruence.
  clear H. subst v'. cbn [mc_full_eff_array mc_eff_array with_mc_eff].
  assert (K : 0 <= p / a) by (left; apply Rdiv_lt_0_compat; lra).
  assert (E : forall l, lmax l = Ok a -> lmax (scale (ndiv p a) l) = Ok p).
  { intros l L. apply lmax_some. replace p with (a * (p / a)) at 1 by (field; lra). now apply max_scale, lmax_max. }
  split; [|auto]. unfold get_mcPeakEff. cbn [mc_full_eff_array mc_eff_array with_mc_eff]. rewrite (E _ X), (E _ Y). cbn [bindR].
  unR. replace (Reqb p p) with true; [reflexivity|]. symmetry. now apply Reqb_true.
Qed.
Lemma mc_peak_ok (v : vehicle R) p a : get_mcPeakEff v = Ok a -> exists v', set_mcPeakEff v p = Ok v'.
Proof.
  intros G. unfold get_mcPeakEff in G. destruct (lmax (mc_full_eff_array v)) as [x|] eqn:X; [|discriminate]. cbn [bindR] in G.
  destruct (lmax (mc_eff_array v)) as [y|] eqn:Y; [|discriminate]. unfold set_mcPeakEff. rewrite X, Y. cbn [bindR]. eauto.
Qed.

(** A motor peak set by hand survives the next set_derived. *)
Lemma interp_from_scale k knots : forall x x0 y0, interp_from x x0 (y0 * k) (map (fun q : R * R => (fst q, snd q * k)) knots) = interp_from x x0 y0 knots * k.
Proof.
  induction knots as [|(x1, y1) r IH]; intros x x0 y0; cbn [map interp_from fst snd]; [reflexivity|]. unR. rcase; [|apply IH]. rcase; [reflexivity|]. unfold Rdiv. ring.
Qed.
Lemma combine_scale k xs : forall ys, combine xs (scale k ys) = map (fun q : R * R => (fst q, snd q * k)) (combine xs ys).
Proof. induction xs as [|x xs IH]; intros [|y ys]; cbn; auto. f_equal. apply IH. Qed.
Lemma interp_scale k xs xp fp : interp xs xp (scale k fp) = scale k (interp xs xp fp).
Proof.
  unfold interp, scale. rewrite map_map. apply map_ext. intros x. fold (scale k fp). rewrite combine_scale. destruct (combine xp fp) as [|(x0, y0) r]; cbn [map interp1 fst snd]; [unR; change (@n0 R RNum) with 0; ring|].
  unR. rcase; [reflexivity|]. apply interp_from_scale.
Qed.
Lemma set_nth_map {A B} (f : A -> B) l : forall i x, set_nth (map f l) i (f x) = map f (set_nth l i x).
Proof. induction l as [|a l IH]; intros [|i] x; cbn; auto. f_equal. apply IH. Qed.
Lemma fix_ends_scale (k : R) l eff r : fix_ends l eff = Ok r -> fix_ends (scale k l) (scale k eff) = Ok (scale k r).
Proof.
  unfold fix_ends. destruct eff as [|e0 eff]; [discriminate|]. rewrite pyget_last. cbn [bindR]. destruct l as [|a l]; [discriminate|].
  intros H. assert (HR : r = set_nth (n0 :: l) (length l) (last (e0 :: eff) e0)) by congruence. rewrite HR. clear H HR.
  change (scale k (e0 :: eff)) with (nmul e0 k :: scale k eff). rewrite pyget_last. cbn [bindR]. unfold scale. cbn [map]. f_equal. rewrite map_length.
  replace (@n0 R RNum) with (nmul (@n0 R RNum) k) at 1 by (unR; change (@n0 R RNum) with 0; ring).
  change (nmul n0 k :: map (fun x => nmul x k) l) with (map (fun x => nmul x k) (n0 :: l)).
  replace (last (nmul e0 k :: map (fun x => nmul x k) eff) (nmul e0 k)) with (nmul (last (e0 :: eff) e0) k); [apply (set_nth_map (fun x => nmul x k))|].
  clear. revert e0. induction eff as [|b eff IH]; intros e0; [reflexivity|]. cbn [map]. change (last (e0 :: b :: eff) e0) with (last (b :: eff) e0).
  change (last (nmul e0 k :: nmul b k :: map (fun x => nmul x k) eff) (nmul e0 k)) with (last (nmul b k :: map (fun x => nmul x k) eff) (nmul e0 k)).
  rewrite (last_default b eff e0 b), (last_default (nmul b k) _ (nmul e0 k) (nmul b k)). apply IH.
Qed.
Lemma lmin_some (l : list R) : l <> [] -> (forall x, In x l -> 0 <= x) -> exists m, lmin l = Ok m /\ 0 <= m.
Proof.
  destruct l as [|a l]; [congruence|]. intros _ P. cbn. eexists. split; [reflexivity|].
  assert (G : forall l a, (forall x, In x (a :: l) -> 0 <= x) -> 0 <= nminl a l).
  { clear. unfold nminl. induction l as [|b l IH]; intros a P; cbn [fold_left]; [apply P; now left|]. apply IH. intros x [<-|X]; [|apply P; now right; right].
    rewrite nmin_R. apply Rmin_glb; apply P; cbn; auto. }
  now apply G.
Qed.
Lemma mc_peak_survives (v v1 v' : vehicle R) p a : set_derived v = Ok v1 -> fc_peak_eff_override v = None -> mc_peak_eff_override v = None ->
  get_mcPeakEff v1 = Ok a -> 0 < a -> 0 < p < 1 -> set_mcPeakEff v1 p = Ok v' ->
  exists v2, set_derived v' = Ok v2 /\ get_mcPeakEff v2 = Ok p /\ mc_full_eff_array v2 = mc_full_eff_array v' /\
    mc_eff_map v2 = mc_eff_map v' /\ mc_kw_in_array v' = mc_kw_in_array v1.
Proof.
  intros H FN MN GA AP PP S. destruct (mc_peak_set v1 v' p a GA AP (proj1 PP) S) as (G' & M1 & M2 & E).
  open_dv H OD. set (k := p / a) in *. assert (K : 0 < k) by (apply Rdiv_lt_0_compat; lra).
  destruct (od_fc_none _ _ _ _ _ _ _ _ _ _ OD FN) as (F1 & F2). destruct (od_mc_none _ _ _ _ _ _ _ _ _ _ OD MN) as (D1 & D2).
  assert (V : v1 = set_veh_mass (before_mass v fce mcf mx arr map_ mce' mcf')) by apply OD.
  set (w := before_mass v fce mcf mx arr map_ mce' mcf') in V.
  assert (X2 : mc_full_eff_array v1 = mcf) by (rewrite V, <- D2; unmass). assert (X3 : mc_eff_array v1 = used_map v) by (rewrite V, <- D1; unmass).
  rewrite X2 in M1. rewrite X3 in M2. change (map (fun x => x * k) mcf) with (scale k mcf) in M1. change (map (fun x => x * k) (used_map v)) with (scale k (used_map v)) in M2.
  rewrite M1, M2 in E.
  assert (U : used_map v' = scale k (used_map v)) by (rewrite E; reflexivity).
  assert (G : grid_kw v' = grid_kw v). { unfold grid_kw. f_equal. rewrite E, V. unmass. }
  assert (MX : exists mx2, lmax (n0 :: zipw ndiv (tl (grid_kw v)) (tl (scale k mcf))) = Ok mx2) by (cbn [lmax]; eauto).
  destruct MX as (mx2 & MX).
  exists (set_veh_mass (before_mass v' fce (scale k mcf) mx2 arr map_ (scale k (used_map v)) (scale k mcf))).
  assert (MC : mc_peak_eff_override v' = None) by (rewrite <- MN, E, V; unmass).
  assert (FC : fc_peak_eff_override v' = None) by (rewrite <- FN, E, V; unmass).
  assert (FM : fc_eff_map v' = fc_eff_map v) by (rewrite <- F2, E, V; unmass).
  destruct (od_eff _ _ _ _ _ _ _ _ _ _ OD) as (x1 & x2 & x3 & e1 & e2 & K1 & K2 & K3 & K4 & K5 & K6 & K7 & K8 & K9 & K10).
  assert (GP : lmax (scale k mcf) = Ok p /\ lmax (scale k (used_map v)) = Ok p).
  { unfold get_mcPeakEff in G'. rewrite M1, M2 in G'. destruct (lmax (scale k mcf)) as [y1|]; [|discriminate]. cbn [bindR] in G'.
    destruct (lmax (scale k (used_map v))) as [y2|]; [|discriminate]. cbn [bindR] in G'. destruct (assertR (neqb y1 y2)) eqn:Q; [|discriminate]. cbn [bindR] in G'.
    apply assert_ok in Q. revert Q. unR. intros Q. apply Reqb_true in Q. subst y2. injection G' as ->. auto. }
  destruct GP as (GP1 & GP2).
  split; [|split; [|split; [|split]]].
  - apply (set_derived_close _ _ fce (scale k mcf0) (scale k mcf) mx2 arr map_ (scale k (used_map v)) (scale k mcf)). constructor.
    + replace (check_pt v') with (check_pt v); [apply OD|]. rewrite E, V. unmass.
    + replace (fc_pwr_out_perc v') with (fc_pwr_out_perc v) by (rewrite E, V; unmass). rewrite FM. apply OD.
    + replace (mc_pwr_out_perc v') with (mc_pwr_out_perc v) by (rewrite E, V; unmass). rewrite U.
      destruct (np_interp_ok _ _ _ _ (od_mc _ _ _ _ _ _ _ _ _ _ OD)) as (N1 & N2 & N3). unfold np_interp. destruct (mc_pwr_out_perc v) as [|q0 q] eqn:Q; [congruence|].
      replace (Nat.eqb _ _) with true by (symmetry; apply Nat.eqb_eq; unfold scale; now rewrite map_length). rewrite interp_scale, <- N3. reflexivity.
    + rewrite U. apply fix_ends_scale, OD.
    + now rewrite G.
    + intros _. rewrite FM. auto.
    + rewrite FC. discriminate.
    + intros _. rewrite U. auto.
    + rewrite MC. discriminate.
    + destruct (lmin_some (scale k mcf)) as (c' & C1 & C2).
      { intros Q. rewrite Q in GP1. discriminate. }
      { intros x X. unfold scale in X. apply in_map_iff in X as (y & <- & Y). rewrite <- D2 in Y. pose proof (lmin_le _ _ K5 y Y). revert K6. unR. intros K6. apply Rleb_true in K6. change (@n0 R RNum) with 0 in K6. nra. }
      exists x1, x2, c', p, p. split; [exact K1|]. split; [exact K2|]. split; [exact K3|]. split; [exact K4|]. split; [exact C1|].
      split; [unR; now apply Rleb_true|]. split; [exact GP1|]. split; [exact GP2|]. split; unR; [now apply Reqb_true|]. apply Rltb_true. apply PP.
    + reflexivity.
  - unfold get_mcPeakEff. set (z := before_mass _ _ _ _ _ _ _ _). replace (mc_full_eff_array (set_veh_mass z)) with (scale k mcf) by unmass.
    replace (mc_eff_array (set_veh_mass z)) with (scale k (used_map v)) by unmass. rewrite GP1, GP2. cbn [bindR]. unR. replace (Reqb p p) with true; [reflexivity|]. symmetry. now apply Reqb_true.
  - rewrite M1. set (z := before_mass _ _ _ _ _ _ _ _). unmass.
  - rewrite E. set (z := before_mass _ _ _ _ _ _ _ _). unmass.
  - rewrite E. reflexivity.
Qed.

(** With an override, set_derived leaves the peak at the override, whatever it was. *)
Lemma engine_override_peak (v v' : vehicle R) p : set_derived v = Ok v' -> fc_peak_eff_override v = Some p -> 0 < p ->
  increasing (fc_pwr_out_perc v) -> (forall x, In x (fc_eff_map v) -> 0 < x) -> get_fcPeakEff v' = Ok p.
Proof.
  intros H E PP I P. pose proof H as H0. open_dv H OD. unfold get_fcPeakEff.
  replace (fc_eff_array v') with arr by (rewrite (od_v' _ _ _ _ _ _ _ _ _ _ OD); set (w := before_mass _ _ _ _ _ _ _ _); unmass).
  destruct (od_fc_some _ _ _ _ _ _ _ _ _ _ OD p E) as (a & b & Q1 & Q2 & Q3 & _).
  pose proof (table_max v v' H0 I P fce (od_fc _ _ _ _ _ _ _ _ _ _ OD) a Q1) as AP.
  assert (MB : is_max (a * (p / a)) arr).
  { rewrite Q2. apply max_scale; [left; apply Rdiv_lt_0_compat; lra|now apply lmax_max]. }
  rewrite Q3. f_equal. rewrite (max_unique _ _ _ (lmax_max _ _ Q3) MB). field. lra.
Qed.
Lemma motor_override_peak (v v' : vehicle R) p : set_derived v = Ok v' -> mc_peak_eff_override v = Some p -> 0 < p ->
  (forall m, mc_eff_map v = Some m -> forall x, In x m -> 0 < x) -> get_mcPeakEff v' = Ok p.
Proof.
  intros H E PP P. destruct (efficiencies v v' H) as (_ & _ & _ & (q & Q & _ & QM)). rewrite Q. f_equal.
  open_dv H OD. replace (mc_eff_array v') with mce' in QM by (rewrite (od_v' _ _ _ _ _ _ _ _ _ _ OD); set (w := before_mass _ _ _ _ _ _ _ _); unmass).
  destruct (od_mc_some _ _ _ _ _ _ _ _ _ _ OD p E) as (a & b & Q1 & _ & Q3 & _).
  assert (AP : 0 < a).
  { pose proof (lmax_max _ _ Q1) as (A & _). pose proof (used_map_of v) as D. unfold motor_map_of in D. destruct (mc_eff_map v) as [l|] eqn:EM.
    - rewrite D in A. now apply (P l).
    - destruct D as (D1 & D2). apply (In_nth _ _ 0) in A as (k & L & A). rewrite D1 in L. rewrite D2 in A by exact L. rewrite <- A.
      unfold default_motor_eff. assert (LG : 0 <= largeness (mc_max_kw v) <= 1).
      { unfold largeness. split; [apply Rmax_l|]. apply Rmax_lub; [lra|apply Rmin_r]. }
      assert (XS : 0 < nth k small_motor 0 /\ 0 < nth k large_motor 0).
      { clear A D1. do 11 (destruct k as [|k]; [cbn; lra|]). lia. }
      destruct XS. nra. }
  assert (MB : is_max (a * (p / a)) mce').
  { rewrite Q3. apply max_scale; [left; apply Rdiv_lt_0_compat; lra|now apply lmax_max]. }
  rewrite (max_unique _ _ _ QM MB). field. lra.
Qed.
