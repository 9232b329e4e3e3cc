(** Proofs about set_derived, set_veh_mass and the peak-efficiency setters (C44-C46). *)
From Coq Require Import Lia.
From Verif Require Import Num Numpy ListFacts CycleModel CycleSpec VehModel SimModel SimState FrameProofs SimSpec SimProofs1 SimProofs3 ResampleProofs VehSpec.
Local Open Scope R_scope.

(** ** Lists *)
Lemma lmax_is (l : list R) m : lmax l = Ok m <-> (l <> [] /\ m = amax l).
Proof. destruct l; cbn; split; intros H; try discriminate; try tauto. - now injection H as <-. - f_equal. symmetry. apply H. Qed.
Lemma lmax_max (l : list R) m : lmax l = Ok m -> is_max m l.
Proof.
  destruct l as [|a l]; [discriminate|]. intros H. injection H as <-. split; [apply nmaxl_in|intros x; apply nmaxl_ge].
Qed.
Lemma max_unique m m' l : is_max m l -> is_max m' l -> m = m'.
Proof. intros [A B] [C D]. pose proof (B _ C). pose proof (D _ A). lra. Qed.
Lemma lmax_some (l : list R) m : is_max m l -> lmax l = Ok m.
Proof.
  intros H. destruct l as [|a l]; [destruct H as [[] _]|]. cbn. f_equal. eapply max_unique; [|exact H].
  now apply lmax_max.
Qed.
Lemma lmin_le (l : list R) m : lmin l = Ok m -> forall x, In x l -> m <= x.
Proof.
  destruct l as [|a l]; [discriminate|]. intros H. injection H as <-. revert a.
  unfold nminl. induction l as [|b l IH]; intros a x H; cbn [fold_left].
  - destruct H as [->|[]]. lra.
  - assert (A : fold_left nmin l (nmin a b) <= nmin a b) by (apply IH; now left).
    rewrite nmin_R in A at 2. destruct H as [->|[->|H]].
    + pose proof (Rmin_l x b). lra.
    + pose proof (Rmin_r a x). lra.
    + apply IH. now right.
Qed.
Lemma max_scale k m l : 0 <= k -> is_max m l -> is_max (m * k) (map (fun x => x * k) l).
Proof.
  intros K [A B]. split; [apply (in_map (fun x => x * k)), A|]. intros x I. apply in_map_iff in I as (y & <- & I). specialize (B _ I). nra.
Qed.

(** ** Opening set_derived *)
Definition used_map {F} {N : Num F} (v : vehicle F) : list F := match mc_eff_map v with None => default_mc_eff_map v | Some m => m end.
Definition grid_kw {F} {N : Num F} (v : vehicle F) : list F := map (fun x => nmul x (mc_max_kw v)) (linspace n0 n1 (length (@mc_perc_out_array F N))).
Definition before_mass {F} {N : Num F} (v : vehicle F) (fce mcf : list F) (mx : F) (arr map_ mce' mcf' : list F) : vehicle F :=
  with_mc_eff (with_fc_eff (with_derived v (Some (used_map v)) false (calc_no_elec_sys v) (calc_no_elec_aux v)
      (map (fun x => nmul x (fc_max_kw v)) (fc_pwr_out_perc v)) (map (fun x => nmul (fc_max_kw v) x) fc_perc_out_array)
      fce (used_map v) (n0 :: zipw ndiv (tl (grid_kw v)) (tl mcf)) (grid_kw v) mx mcf) arr map_) (Some mce') mce' mcf'.

Section Opened.
  Context {F : Type} {N : Num F}.
  (** The state after the tables are built and the overrides applied. *)
  Record opened (v v' : vehicle F) (fce mcf0 mcf : list F) (mx : F) (arr map_ mce' mcf' : list F) : Prop := {
    od_check : check_pt v = Ok tt;
    od_fc : np_interp fc_perc_out_array (fc_pwr_out_perc v) (fc_eff_map v) = Ok fce;
    od_mc : np_interp mc_perc_out_array (mc_pwr_out_perc v) (used_map v) = Ok mcf0;
    od_ends : fix_ends mcf0 (used_map v) = Ok mcf;
    od_mx : lmax (n0 :: zipw ndiv (tl (grid_kw v)) (tl mcf)) = Ok mx;
    od_fc_none : fc_peak_eff_override v = None -> arr = fce /\ map_ = fc_eff_map v;
    od_fc_some : forall p, fc_peak_eff_override v = Some p -> exists a b, lmax fce = Ok a /\ arr = scale (ndiv p a) fce /\
      lmax arr = Ok b /\ map_ = scale (ndiv p b) (fc_eff_map v);
    od_mc_none : mc_peak_eff_override v = None -> mce' = used_map v /\ mcf' = mcf;
    od_mc_some : forall p, mc_peak_eff_override v = Some p -> exists a b, lmax (used_map v) = Ok a /\ lmax mcf = Ok b /\
      mce' = scale (ndiv p a) (used_map v) /\ mcf' = scale (ndiv p b) mcf;
    od_eff : exists a b c e1 e2, lmin arr = Ok a /\ nleb n0 a = true /\ lmax arr = Ok b /\ nltb b n1 = true /\
      lmin mcf' = Ok c /\ nleb n0 c = true /\ lmax mcf' = Ok e1 /\ lmax mce' = Ok e2 /\ neqb e1 e2 = true /\ nltb e1 n1 = true;
    od_v' : v' = set_veh_mass (before_mass v fce mcf mx arr map_ mce' mcf') }.

  Lemma assert_ok b u : assertR b = Ok u -> b = true.
  Proof. destruct b; [reflexivity|discriminate]. Qed.
  Lemma with_fc_eff_id (v : vehicle F) : with_fc_eff v (fc_eff_array v) (fc_eff_map v) = v.
  Proof. now destruct v. Qed.
  Lemma with_mc_eff_id (v : vehicle F) : with_mc_eff v (mc_eff_map v) (mc_eff_array v) (mc_full_eff_array v) = v.
  Proof. now destruct v. Qed.
  Lemma set_derived_open (v v' : vehicle F) : set_derived v = Ok v' -> exists fce mcf0 mcf mx arr map_ mce' mcf', opened v v' fce mcf0 mcf mx arr map_ mce' mcf'.
  Proof.
    intros H. unfold set_derived, derive_maps in H. fold (used_map v) in H. fold (grid_kw v) in H.
    destruct (check_pt v) as [[]|] eqn:C; [|discriminate]. cbn [bindR] in H.
    destruct (np_interp fc_perc_out_array _ _) as [fce|] eqn:E1; [|discriminate]. cbn [bindR] in H.
    destruct (np_interp mc_perc_out_array _ _) as [mcf0|] eqn:E2; [|discriminate]. cbn [bindR] in H.
    destruct (fix_ends _ _) as [mcf|] eqn:E3; [|discriminate]. cbn [bindR] in H.
    destruct (lmax (n0 :: _)) as [mx|] eqn:E4; [|discriminate]. cbn [bindR] in H.
    match type of H with context [opt_set set_fcPeakEff _ ?w] => set (v1 := w) in H end.
    change (fc_peak_eff_override v1) with (fc_peak_eff_override v) in H.
    destruct (opt_set set_fcPeakEff _ v1) as [v2|] eqn:E5; [|discriminate]. cbn [bindR] in H.
    assert (A : exists arr map_, v2 = with_fc_eff v1 arr map_ /\ (fc_peak_eff_override v = None -> arr = fce /\ map_ = fc_eff_map v) /\
      (forall p, fc_peak_eff_override v = Some p -> exists a b, lmax fce = Ok a /\ arr = scale (ndiv p a) fce /\
        lmax arr = Ok b /\ map_ = scale (ndiv p b) (fc_eff_map v))).
    { unfold opt_set in E5. destruct (fc_peak_eff_override v) as [p|].
      - unfold set_fcPeakEff in E5. change (fc_eff_array v1) with fce in E5. change (fc_eff_map v1) with (fc_eff_map v) in E5.
        destruct (lmax fce) as [a|] eqn:Ea; [|discriminate]. cbn [bindR] in E5.
        destruct (lmax (scale _ fce)) as [b|] eqn:Eb; [|discriminate]. cbn [bindR] in E5. injection E5 as <-.
        do 2 eexists. split; [reflexivity|]. split; [discriminate|]. intros q Q. injection Q as <-. eauto 8.
      - injection E5 as <-. exists fce, (fc_eff_map v). split; [reflexivity|]. split; [auto|discriminate]. }
    destruct A as (arr & map_ & -> & A1 & A2). clear E5.
    change (mc_peak_eff_override (with_fc_eff v1 arr map_)) with (mc_peak_eff_override v) in H.
    destruct (opt_set set_mcPeakEff _ _) as [v3|] eqn:E6; [|discriminate]. cbn [bindR] in H.
    assert (B : exists mce' mcf', v3 = with_mc_eff (with_fc_eff v1 arr map_) (Some mce') mce' mcf' /\
      (mc_peak_eff_override v = None -> mce' = used_map v /\ mcf' = mcf) /\
      (forall p, mc_peak_eff_override v = Some p -> exists a b, lmax (used_map v) = Ok a /\ lmax mcf = Ok b /\
        mce' = scale (ndiv p a) (used_map v) /\ mcf' = scale (ndiv p b) mcf)).
    { unfold opt_set in E6. destruct (mc_peak_eff_override v) as [p|].
      - unfold set_mcPeakEff in E6. change (mc_eff_array _) with (used_map v) in E6. change (mc_full_eff_array _) with mcf in E6.
        destruct (lmax (used_map v)) as [a|] eqn:Ea; [|discriminate]. cbn [bindR] in E6.
        destruct (lmax mcf) as [b|] eqn:Eb; [|discriminate]. cbn [bindR] in E6. injection E6 as <-.
        do 2 eexists. split; [reflexivity|]. split; [discriminate|]. intros q Q. injection Q as <-. eauto 8.
      - injection E6 as <-. exists (used_map v), mcf. split; [reflexivity|]. split; [auto|discriminate]. }
    destruct B as (mce' & mcf' & -> & B1 & B2). clear E6.
    destruct (check_eff _) as [[]|] eqn:K; [|discriminate]. cbn [bindR] in H. injection H as <-.
    exists fce, mcf0, mcf, mx, arr, map_, mce', mcf'. constructor; auto.
    unfold check_eff, get_fcPeakEff, get_mcPeakEff in K. change (fc_eff_array _) with arr in K. change (mc_full_eff_array _) with mcf' in K.
    change (mc_eff_array _) with mce' in K.
    destruct (lmin arr) as [a|] eqn:Ka; [|discriminate]. cbn [bindR] in K.
    destruct (assertR (nleb n0 a)) eqn:K1; [|discriminate]. cbn [bindR] in K.
    destruct (lmax arr) as [b|] eqn:Kb; [|discriminate]. cbn [bindR] in K.
    destruct (assertR (nltb b n1)) eqn:K2; [|discriminate]. cbn [bindR] in K.
    destruct (lmin mcf') as [c|] eqn:Kc; [|discriminate]. cbn [bindR] in K.
    destruct (assertR (nleb n0 c)) eqn:K3; [|discriminate]. cbn [bindR] in K.
    destruct (lmax mcf') as [e1|] eqn:Kd; [|discriminate]. cbn [bindR] in K.
    destruct (lmax mce') as [e2|] eqn:Ke; [|discriminate]. cbn [bindR] in K.
    destruct (assertR (neqb e1 e2)) eqn:K4; [|discriminate]. cbn [bindR] in K.
    apply assert_ok in K1, K2, K3, K4, K. exists a, b, c, e1, e2. auto 12.
  Qed.
  (** Conversely. *)
  Lemma set_derived_close (v v' : vehicle F) fce mcf0 mcf mx arr map_ mce' mcf' :
    opened v v' fce mcf0 mcf mx arr map_ mce' mcf' -> set_derived v = Ok v'.
  Proof.
    intros O. unfold set_derived, derive_maps. fold (used_map v). fold (grid_kw v).
    rewrite (od_check _ _ _ _ _ _ _ _ _ _ O), (od_fc _ _ _ _ _ _ _ _ _ _ O). cbn [bindR].
    rewrite (od_mc _ _ _ _ _ _ _ _ _ _ O). cbn [bindR]. rewrite (od_ends _ _ _ _ _ _ _ _ _ _ O). cbn [bindR].
    rewrite (od_mx _ _ _ _ _ _ _ _ _ _ O). cbn [bindR].
    match goal with |- context [opt_set set_fcPeakEff _ ?w] => set (v1 := w) end.
    change (fc_peak_eff_override v1) with (fc_peak_eff_override v).
    assert (A : opt_set set_fcPeakEff (fc_peak_eff_override v) v1 = Ok (with_fc_eff v1 arr map_)).
    { pose proof (od_fc_none _ _ _ _ _ _ _ _ _ _ O) as A1. pose proof (od_fc_some _ _ _ _ _ _ _ _ _ _ O) as A2.
      destruct (fc_peak_eff_override v) as [p|]; cbn [opt_set].
      - destruct (A2 p eq_refl) as (a & b & Q1 & Q2 & Q3 & Q4). unfold set_fcPeakEff. change (fc_eff_array v1) with fce.
        rewrite Q1. cbn [bindR]. rewrite <- Q2, Q3. cbn [bindR]. now rewrite Q4.
      - destruct (A1 eq_refl) as (-> & ->). f_equal. }
    rewrite A. cbn [bindR]. change (mc_peak_eff_override (with_fc_eff v1 arr map_)) with (mc_peak_eff_override v).
    assert (B : opt_set set_mcPeakEff (mc_peak_eff_override v) (with_fc_eff v1 arr map_) = Ok (with_mc_eff (with_fc_eff v1 arr map_) (Some mce') mce' mcf')).
    { pose proof (od_mc_none _ _ _ _ _ _ _ _ _ _ O) as A1. pose proof (od_mc_some _ _ _ _ _ _ _ _ _ _ O) as A2.
      destruct (mc_peak_eff_override v) as [p|]; cbn [opt_set].
      - destruct (A2 p eq_refl) as (a & b & Q1 & Q2 & Q3 & Q4). unfold set_mcPeakEff. change (mc_eff_array _) with (used_map v). change (mc_full_eff_array _) with mcf.
        rewrite Q1. cbn [bindR]. rewrite Q2. cbn [bindR]. now rewrite Q3, Q4.
      - destruct (A1 eq_refl) as (-> & ->). f_equal. }
    rewrite B. cbn [bindR]. destruct (od_eff _ _ _ _ _ _ _ _ _ _ O) as (a & b & c & e1 & e2 & K1 & K2 & K3 & K4 & K5 & K6 & K7 & K8 & K9 & K10).
    unfold check_eff, get_fcPeakEff, get_mcPeakEff. change (fc_eff_array _) with arr. change (mc_full_eff_array _) with mcf'.
    change (mc_eff_array _) with mce'. rewrite K1. cbn [bindR]. rewrite K2. cbn [assertR bindR]. rewrite K3. cbn [bindR]. rewrite K4. cbn [assertR bindR].
    rewrite K5. cbn [bindR]. rewrite K6. cbn [assertR bindR]. rewrite K7. cbn [bindR]. rewrite K8. cbn [bindR]. rewrite K9. cbn [assertR bindR]. rewrite K10. cbn [assertR bindR].
    now rewrite (od_v' _ _ _ _ _ _ _ _ _ _ O).
  Qed.
End Opened.

Ltac unmass := unfold set_veh_mass; destruct (use_override _); reflexivity.
Ltac open_dv H O := destruct (set_derived_open _ _ H) as (fce & mcf0 & mcf & mx & arr & map_ & mce' & mcf' & O).

(** ** The powertrain checks *)
Lemma check_pt_spec (v : vehicle R) : is_template v = false ->
  (check_pt v = Ok tt <->
   (veh_pt_type v = BEV -> fs_max_kw v = 0 /\ fs_kwh v = 0 /\ fc_max_kw v = 0) /\
   (veh_pt_type v = CONV -> stop_start v = false -> mc_max_kw v = 0 /\ ess_max_kw v = 0 /\ ess_max_kwh v = 0)) /\
  (check_pt v = Ok tt \/ check_pt v = Err AssertionError).
Proof.
  intros T. unfold check_pt. rewrite T. unR. destruct (veh_pt_type v); try (destruct (stop_start v));
  repeat match goal with |- context [Reqb ?a ?b] => destruct (Reqb_spec a b) end; cbn [assertR bindR];
  (split; [split; [intros Q; try discriminate Q; split; intros; try discriminate; auto|intros (A & B); try reflexivity; exfalso]|auto]); try discriminate.
  all: try (destruct (B eq_refl eq_refl) as (? & ? & ?); congruence).
  all: try (destruct (A eq_refl) as (? & ? & ?); congruence).
Qed.
Lemma rejects (v : vehicle R) : is_template v = false ->
  (veh_pt_type v = BEV /\ (fs_max_kw v <> 0 \/ fs_kwh v <> 0 \/ fc_max_kw v <> 0)) \/
  (veh_pt_type v = CONV /\ stop_start v = false /\ (mc_max_kw v <> 0 \/ ess_max_kw v <> 0 \/ ess_max_kwh v <> 0)) ->
  set_derived v = Err AssertionError.
Proof.
  intros T B. destruct (check_pt_spec v T) as (I & [C|C]).
  - exfalso. apply I in C as (C1 & C2). destruct B as [(E & B)|(E & S & B)].
    + destruct (C1 E) as (? & ? & ?). intuition.
    + destruct (C2 E S) as (? & ? & ?). intuition.
  - unfold set_derived, derive_maps. now rewrite C.
Qed.
Lemma accepted (v v' : vehicle R) : set_derived v = Ok v' -> is_template v = false ->
   (veh_pt_type v = BEV -> fs_max_kw v = 0 /\ fs_kwh v = 0 /\ fc_max_kw v = 0) /\
   (veh_pt_type v = CONV -> stop_start v = false -> mc_max_kw v = 0 /\ ess_max_kw v = 0 /\ ess_max_kwh v = 0).
Proof. intros H T. open_dv H OD. apply (check_pt_spec v T), (od_check _ _ _ _ _ _ _ _ _ _ OD). Qed.

Lemma flags (v v' : vehicle R) : set_derived v = Ok v' ->
  (no_elec_sys v' = true <-> ess_max_kwh v = 0 \/ ess_max_kw v = 0 \/ mc_max_kw v = 0) /\
  (no_elec_aux v' = true <-> no_elec_sys v' = true \/ mc_max_kw v <= aux_kw v \/ force_aux_on_fc v = true) /\
  charging_on v' = false.
Proof.
  intros H. open_dv H OD. rewrite (od_v' _ _ _ _ _ _ _ _ _ _ OD).
  set (w := before_mass _ _ _ _ _ _ _ _).
  replace (no_elec_sys (set_veh_mass w)) with (calc_no_elec_sys v) by unmass.
  replace (no_elec_aux (set_veh_mass w)) with (calc_no_elec_aux v) by unmass.
  replace (charging_on (set_veh_mass w)) with false by unmass.
  unfold calc_no_elec_aux. set (s := calc_no_elec_sys v).
  split; [|split; [|reflexivity]].
  - unfold s, calc_no_elec_sys. unR. repeat rcase; split; intros; auto; try discriminate; lra.
  - unR. destruct s; [tauto|]. destruct (force_aux_on_fc v); rcase; cbn [orb]; split; intros; auto; try discriminate.
    destruct H0 as [?|[?|?]]; try discriminate; lra.
Qed.

(** ** Tables *)
Lemma np_interp_ok (xs xp fp l : list R) : np_interp xs xp fp = Ok l -> xp <> [] /\ length fp = length xp /\ l = interp xs xp fp.
Proof.
  unfold np_interp. destruct xp as [|a xp]; [discriminate|]. destruct (Nat.eqb_spec (length (a :: xp)) (length fp)); [|discriminate].
  intros E. injection E as <-. repeat split; auto. discriminate.
Qed.
Lemma nth_map_seq (f : nat -> R) a n k : (k < n)%nat -> nth k (map f (seq a n)) 0 = f (a + k)%nat.
Proof. intros K. rewrite (nth_indep _ 0 (f 0%nat)) by (now rewrite map_length, seq_length). now rewrite map_nth, seq_nth. Qed.
Lemma engine_grid k : (k < engine_points)%nat -> nth k (@fc_perc_out_array R RNum) 0 = engine_percent k / 100.
Proof.
  unfold engine_points. intros K. unfold fc_perc_out_array, engine_percent.
  destruct (Nat.ltb_spec k 30).
  { rewrite app_nth1 by (now rewrite map_length, seq_length). rewrite nth_map_seq by lia.
    rewrite nofN_R, lit_R. unR. change (@nofZ R RNum 100) with 100. cbn [Nat.add]. lra. }
  rewrite app_nth2 by (now rewrite map_length, seq_length). rewrite map_length, seq_length.
  destruct (Nat.ltb_spec k 38).
  { rewrite app_nth1 by (rewrite map_length, seq_length; lia). rewrite nth_map_seq by lia.
    rewrite nofN_R, lit_R. unR. change (@nofZ R RNum 100) with 100. change (@nofZ R RNum 3) with 3. cbn [Nat.add]. lra. }
  rewrite app_nth2 by (rewrite map_length, seq_length; lia). rewrite map_length, seq_length.
  destruct (Nat.ltb_spec k 91).
  { rewrite app_nth1 by (rewrite map_length, seq_length; lia). rewrite nth_map_seq by lia.
    rewrite nofN_R. unR. change (@nofZ R RNum 100) with 100.
    replace (7 + (k - 30 - 8))%nat with (k - 31)%nat by lia. reflexivity. }
  rewrite app_nth2 by (rewrite map_length, seq_length; lia). rewrite map_length, seq_length. rewrite nth_map_seq by lia.
  rewrite nofN_R. unR. change (@nofZ R RNum 100) with 100. change (@nofZ R RNum 60) with 60. change (@nofZ R RNum 5) with 5.
  cbn [Nat.add]. replace (k - 30 - 8 - 53)%nat with (k - 91)%nat by lia. lra.
Qed.
Lemma engine_grid_len : length (@fc_perc_out_array R RNum) = engine_points.
Proof. unfold fc_perc_out_array. now rewrite !app_length, !map_length, !seq_length. Qed.
Lemma motor_grid_len : length (@mc_perc_out_array R RNum) = motor_points.
Proof. unfold mc_perc_out_array, linspace. now rewrite map_length, seq_length. Qed.
Lemma linspace_percent k : (k <= 100)%nat -> nth k (linspace (@n0 R RNum) n1 101) 0 = INR k / 100.
Proof.
  intros K. unfold linspace. match goal with |- nth _ (map ?g _) _ = _ => set (f := g) end.
  rewrite (nth_indep _ 0 (f 0%nat)) by (rewrite map_length, seq_length; lia). rewrite map_nth, seq_nth by lia. unfold f. cbn [Nat.add].
  change (101 - 1)%nat with 100%nat. destruct (Nat.eqb_spec k 100).
  - subst k. rewrite INR_IZR_INZ. cbn [Z.of_nat Pos.of_succ_nat]. change (@n1 R RNum) with 1. cbn. lra.
  - rewrite !nofN_R. unR. change (@n0 R RNum) with 0. change (@n1 R RNum) with 1. rewrite (INR_IZR_INZ 100). change (IZR (Z.of_nat 100)) with 100. lra.
Qed.
Lemma kw_out_entry (v : vehicle R) k : (k < motor_points)%nat -> nth k (grid_kw v) 0 = INR k / 100 * mc_max_kw v.
Proof.
  unfold motor_points. intros K. unfold grid_kw. rewrite motor_grid_len. unfold motor_points.
  set (g := fun x : R => nmul x (mc_max_kw v)).
  assert (L : length (linspace (@n0 R RNum) n1 101) = 101%nat) by (unfold linspace; now rewrite map_length, seq_length).
  rewrite (nth_indep _ 0 (g 0)) by (rewrite map_length, L; lia). rewrite map_nth, linspace_percent by lia. reflexivity.
Qed.
Lemma grid_kw_len (v : vehicle R) : length (grid_kw v) = motor_points.
Proof. unfold grid_kw. rewrite map_length, motor_grid_len. unfold linspace. now rewrite map_length, seq_length. Qed.
Lemma interp_nth (xs xp fp : list R) k : (k < length xs)%nat -> nth k (interp xs xp fp) 0 = interp1 (nth k xs 0) (combine xp fp).
Proof.
  intros K. unfold interp. set (g := fun x : R => interp1 x (combine xp fp)). rewrite (nth_indep _ 0 (g 0)) by (now rewrite map_length). now rewrite map_nth.
Qed.
Lemma interp_len (xs xp fp : list R) : length (interp xs xp fp) = length xs.
Proof. unfold interp. now rewrite map_length. Qed.
Lemma fix_ends_ok (l eff r : list R) : fix_ends l eff = Ok r -> (2 <= length l)%nat -> length r = length l /\ eff <> [] /\
  nth 0 r 0 = 0 /\ nth (length l - 1) r 0 = last eff 0 /\ (forall k, (1 <= k < length l - 1)%nat -> nth k r 0 = nth k l 0).
Proof.
  unfold fix_ends. destruct (pyget eff (-1)) as [e|] eqn:E; [|discriminate]. cbn [bindR].
  destruct l as [|a l]; [discriminate|]. intros H. assert (HR : r = set_nth (n0 :: l) (length l) e) by congruence. rewrite HR. clear H HR. cbn [length]. intros L.
  assert (NE : eff <> []) by (intros ->; discriminate).
  assert (EL : e = last eff 0).
  { destruct eff as [|b eff]; [congruence|]. rewrite pyget_last in E. injection E as <-. apply last_default. }
  rewrite set_nth_length. cbn [length]. split; [reflexivity|]. split; [exact NE|].
  replace (S (length l) - 1)%nat with (length l) by lia. split; [|split].
  - rewrite nth_set_other by lia. reflexivity.
  - rewrite <- EL. apply nth_error_nth. apply set_nth_same. cbn [length]. lia.
  - intros k K. rewrite nth_set_other by lia. destruct k; [lia|]. reflexivity.
Qed.

Lemma motor_grid k : (k < motor_points)%nat -> nth k (@mc_perc_out_array R RNum) 0 = INR k / 100.
Proof. unfold motor_points. intros K. apply linspace_percent. lia. Qed.

(** Engine tables. *)
Lemma engine_tables (v v' : vehicle R) : set_derived v = Ok v' -> increasing (fc_pwr_out_perc v) ->
  length (fc_kw_out_array v') = engine_points /\ length (fc_eff_array v') = engine_points /\
  (forall k, (k < engine_points)%nat -> nth k (fc_kw_out_array v') 0 = engine_percent k / 100 * fc_max_kw v) /\
  input_kw_out_array v' = map (fun x => x * fc_max_kw v) (fc_pwr_out_perc v) /\
  exists table, length table = engine_points /\
    (forall k, (k < engine_points)%nat -> on_polyline (fc_pwr_out_perc v) (fc_eff_map v) (engine_percent k / 100) (nth k table 0)) /\
    rescaled (fc_peak_eff_override v) table (fc_eff_array v').
Proof.
  intros H I. open_dv H OD. rewrite (od_v' _ _ _ _ _ _ _ _ _ _ OD).
  set (w := before_mass _ _ _ _ _ _ _ _).
  replace (fc_kw_out_array (set_veh_mass w)) with (map (fun x => nmul (fc_max_kw v) x) fc_perc_out_array) by unmass.
  replace (fc_eff_array (set_veh_mass w)) with arr by unmass.
  replace (input_kw_out_array (set_veh_mass w)) with (map (fun x => nmul x (fc_max_kw v)) (fc_pwr_out_perc v)) by unmass.
  destruct (np_interp_ok _ _ _ _ (od_fc _ _ _ _ _ _ _ _ _ _ OD)) as (NE & LE & E).
  assert (LF : length fce = engine_points) by (rewrite E, interp_len; apply engine_grid_len).
  assert (RS : rescaled (fc_peak_eff_override v) fce arr).
  { pose proof (od_fc_none _ _ _ _ _ _ _ _ _ _ OD) as A1. pose proof (od_fc_some _ _ _ _ _ _ _ _ _ _ OD) as A2.
    destruct (fc_peak_eff_override v) as [p|]; cbn.
    - destruct (A2 p eq_refl) as (a & b & Q1 & Q2 & _). exists a. split; [now apply lmax_max|]. rewrite Q2. reflexivity.
    - now destruct (A1 eq_refl). }
  split; [rewrite map_length; apply engine_grid_len|]. split.
  { destruct (fc_peak_eff_override v) as [p|]; cbn in RS; [destruct RS as (m & _ & ->); now rewrite map_length|now rewrite RS]. }
  split.
  { intros k K. set (g := fun x : R => nmul (fc_max_kw v) x).
    rewrite (nth_indep _ 0 (g 0)) by (rewrite map_length, engine_grid_len; exact K). rewrite map_nth, engine_grid by exact K. unfold g. unR. lra. }
  split; [reflexivity|]. exists fce. split; [exact LF|]. split; [|exact RS].
  intros k K. rewrite E, interp_nth by (rewrite engine_grid_len; exact K). rewrite engine_grid by exact K. now apply interp1_polyline.
Qed.

(** Motor tables. *)
Lemma used_map_of (v : vehicle R) : motor_map_of v (used_map v).
Proof.
  unfold motor_map_of, used_map. destruct (mc_eff_map v); [reflexivity|]. split.
  - unfold default_mc_eff_map. rewrite zipw_length, map_length. reflexivity.
  - intros k K. unfold default_mc_eff_map, default_motor_eff.
    assert (MX : nmaxl (hd n0 large_baseline_eff) (tl (@large_baseline_eff R RNum)) = 94/100).
    { assert (Q : lmax (@large_baseline_eff R RNum) = Ok (94/100)).
      { apply lmax_some. unfold large_baseline_eff, percents. cbn [map]. rewrite !lit_R. split.
        - do 7 right. left. lra. - intros x X. cbn in X. repeat (destruct X as [<-|X]; [lra|]). destruct X. }
      unfold lmax in Q. change (@large_baseline_eff R RNum) with (hd n0 (@large_baseline_eff R RNum) :: tl (@large_baseline_eff R RNum)) in Q at 1.
      cbn iota in Q. congruence. }
    rewrite MX. set (p := nmax _ _).
    assert (P : p = largeness (mc_max_kw v)).
    { unfold p, largeness. rewrite nmax_R, nmin_R. rewrite lit_R. unR. change (@nofZ R RNum 75) with 75. change (@n0 R RNum) with 0. change (@n1 R RNum) with 1.
      f_equal. f_equal. lra. }
    rewrite P. generalize (largeness (mc_max_kw v)). intros q. unfold modern_max, large_baseline_eff, small_baseline_eff, large_motor, small_motor, percents.
    do 11 (destruct k as [|k]; [cbn [map zipw nth]; rewrite ?lit_R; unR; change (@n1 R RNum) with 1; lra|]). lia.
Qed.
Lemma zipw_div : forall (a b : list R) j, (j < length a)%nat -> (j < length b)%nat -> nth j (zipw ndiv a b) 0 = nth j a 0 / nth j b 0.
Proof. induction a as [|x a IH]; intros [|y b] [|j] J1 J2; cbn in J1, J2 |- *; try lia; auto. apply IH; lia. Qed.
Lemma tl_len {A} (l : list A) : length (tl l) = (length l - 1)%nat.
Proof. destruct l; cbn; lia. Qed.
Lemma motor_tables (v v' : vehicle R) : set_derived v = Ok v' -> increasing (mc_pwr_out_perc v) ->
  length (mc_kw_out_array v') = motor_points /\ length (mc_kw_in_array v') = motor_points /\ length (mc_full_eff_array v') = motor_points /\
  (forall k, (k < motor_points)%nat -> nth k (mc_kw_out_array v') 0 = INR k / 100 * mc_max_kw v) /\
  exists m table, motor_map_of v m /\ length table = motor_points /\
    nth 0 table 0 = 0 /\ nth 100 table 0 = last m 0 /\
    (forall k, (1 <= k < 100)%nat -> on_polyline (mc_pwr_out_perc v) m (INR k / 100) (nth k table 0)) /\
    nth 0 (mc_kw_in_array v') 0 = 0 /\
    (forall k, (1 <= k < motor_points)%nat -> nth k (mc_kw_in_array v') 0 = nth k (mc_kw_out_array v') 0 / nth k table 0) /\
    is_max (mc_max_elec_in_kw v') (mc_kw_in_array v') /\
    rescaled (mc_peak_eff_override v) table (mc_full_eff_array v') /\
    rescaled (mc_peak_eff_override v) m (mc_eff_array v') /\ mc_eff_map v' = Some (mc_eff_array v').
Proof.
  intros H I. open_dv H OD. rewrite (od_v' _ _ _ _ _ _ _ _ _ _ OD).
  set (w := before_mass _ _ _ _ _ _ _ _).
  replace (mc_kw_out_array (set_veh_mass w)) with (grid_kw v) by unmass.
  replace (mc_kw_in_array (set_veh_mass w)) with (n0 :: zipw ndiv (tl (grid_kw v)) (tl mcf)) by unmass.
  replace (mc_full_eff_array (set_veh_mass w)) with mcf' by unmass.
  replace (mc_max_elec_in_kw (set_veh_mass w)) with mx by unmass.
  replace (mc_eff_array (set_veh_mass w)) with mce' by unmass.
  replace (mc_eff_map (set_veh_mass w)) with (Some mce') by unmass.
  destruct (np_interp_ok _ _ _ _ (od_mc _ _ _ _ _ _ _ _ _ _ OD)) as (NE & LE & E).
  assert (L0 : length mcf0 = motor_points) by (rewrite E, interp_len; apply motor_grid_len).
  destruct (fix_ends_ok _ _ _ (od_ends _ _ _ _ _ _ _ _ _ _ OD)) as (L1 & NE2 & T0 & T1 & TM); [rewrite L0; unfold motor_points; lia|].
  rewrite L0 in *. change (motor_points - 1)%nat with 100%nat in *.
  assert (LZ : length (zipw ndiv (tl (grid_kw v)) (tl mcf)) = 100%nat).
  { rewrite zipw_length. pose proof (grid_kw_len v) as G. destruct (grid_kw v), mcf; cbn [length tl] in *; try discriminate. unfold motor_points in *. lia. }
  assert (RS : rescaled (mc_peak_eff_override v) mcf mcf' /\ rescaled (mc_peak_eff_override v) (used_map v) mce').
  { pose proof (od_mc_none _ _ _ _ _ _ _ _ _ _ OD) as A1. pose proof (od_mc_some _ _ _ _ _ _ _ _ _ _ OD) as A2.
    destruct (mc_peak_eff_override v) as [p|]; cbn.
    - destruct (A2 p eq_refl) as (a & b & Q1 & Q2 & Q3 & Q4). split; [exists b|exists a]; (split; [now apply lmax_max|]); [rewrite Q4|rewrite Q3]; reflexivity.
    - now destruct (A1 eq_refl). }
  destruct RS as (RS1 & RS2).
  split; [apply grid_kw_len|]. split; [cbn [length]; now rewrite LZ|]. split.
  { destruct (mc_peak_eff_override v) as [p|]; cbn in RS1; [destruct RS1 as (m & _ & ->); now rewrite map_length|now rewrite RS1]. }
  split; [apply kw_out_entry|].
  exists (used_map v), mcf. split; [apply used_map_of|]. split; [exact L1|]. split; [exact T0|]. split; [exact T1|]. split.
  { intros k K. rewrite TM by exact K. rewrite E, interp_nth by (rewrite motor_grid_len; unfold motor_points; lia).
    rewrite motor_grid by (unfold motor_points; lia). now apply interp1_polyline. }
  split; [reflexivity|]. split.
  { intros k K. destruct k as [|k]; [lia|]. unfold motor_points in K. cbn [nth].
    pose proof (grid_kw_len v) as G. unfold motor_points in G, L1.
    rewrite zipw_div; [|rewrite tl_len, G; lia|rewrite tl_len, L1; lia]. now rewrite !nth_tl. }
  split; [apply lmax_max, (od_mx _ _ _ _ _ _ _ _ _ _ OD)|]. auto.
Qed.

(** Efficiencies are in [0, 1). *)
Lemma efficiencies (v v' : vehicle R) : set_derived v = Ok v' ->
  (forall x, In x (fc_eff_array v') -> 0 <= x < 1) /\ (forall x, In x (mc_full_eff_array v') -> 0 <= x < 1) /\
  (exists m, get_fcPeakEff v' = Ok m /\ is_max m (fc_eff_array v')) /\
  (exists m, get_mcPeakEff v' = Ok m /\ is_max m (mc_full_eff_array v') /\ is_max m (mc_eff_array v')).
Proof.
  intros H. open_dv H OD. rewrite (od_v' _ _ _ _ _ _ _ _ _ _ OD). destruct (od_eff _ _ _ _ _ _ _ _ _ _ OD) as (a & b & c & e1 & e2 & K1 & K2 & K3 & K4 & K5 & K6 & K7 & K8 & K9 & K10).
  set (w := before_mass _ _ _ _ _ _ _ _).
  assert (X1 : fc_eff_array (set_veh_mass w) = arr) by unmass. assert (X2 : mc_full_eff_array (set_veh_mass w) = mcf') by unmass.
  assert (X3 : mc_eff_array (set_veh_mass w) = mce') by unmass.
  unfold get_fcPeakEff, get_mcPeakEff. rewrite X1, X2, X3, K7, K8. cbn [bindR]. rewrite K9. cbn [assertR bindR].
  revert K2 K4 K6 K9 K10. unR. intros K2 K4 K6 K9 K10. apply Rleb_true in K2, K6. apply Rltb_true in K4, K10. apply Reqb_true in K9. subst e2.
  split; [|split; [|split]].
  - intros x J. pose proof (lmin_le _ _ K1 x J). pose proof (proj2 (lmax_max _ _ K3) x J). lra.
  - intros x J. pose proof (lmin_le _ _ K5 x J). pose proof (proj2 (lmax_max _ _ K7) x J). lra.
  - exists b. split; [exact K3|now apply lmax_max].
  - exists e1. split; [reflexivity|]. split; now apply lmax_max.
Qed.
