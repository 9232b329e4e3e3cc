(** Lemmas about the compiled vehicle class: input ranges, deriving again. *)
From Verif Require Import Num Numpy CycleModel CycleSpec VehModel VehSpec VehProofs RustVehModel RustVehSpec RustVehProofs.
Local Open Scope R_scope.

Lemma valid_only (v : vehicle R) : r_validate (to_rust_input v) = true -> inputs_valid v.
Proof.
  intros H. unfold r_validate in H. apply Bool.andb_true_iff in H as [H _]. apply Bool.andb_true_iff in H as [A B].
  assert (A' : forall x, In x (r_at_least_0 (to_rust_input v)) -> 0 <= x).
  { intros x I. rewrite forallb_forall in A. specialize (A x I). revert A. change (@n0 R RNum) with 0. unR. destruct (Rleb_spec 0 x); [auto|discriminate]. }
  assert (B' : forall x, In x (r_within_0_1 (to_rust_input v)) -> 0 <= x <= 1).
  { intros x I. rewrite forallb_forall in B. specialize (B x I). revert B. change (@n0 R RNum) with 0. change (@n1 R RNum) with 1. unR. destruct (Rleb_spec 0 x); [|discriminate]. destruct (Rleb_spec x 1); [auto|discriminate]. }
  clear A B. unfold r_at_least_0 in A'. unfold r_within_0_1 in B'. cbn in A', B'.
  assert (A2 : forall x, In x (r_at_least_0 (to_rust_input v)) -> 0 <= x) by exact A'. assert (B2 : forall x, In x (r_within_0_1 (to_rust_input v)) -> 0 <= x <= 1) by exact B'.
  constructor; try (repeat (match goal with |- ?a <= ?b /\ ?b <= ?c => apply B' | |- _ /\ _ => split | |- _ <= _ => apply A' end); repeat (first [left; reflexivity|right]); fail).
  - intros x E. rewrite E in A'. destruct (Req_dec x 0) as [->|N]; [lra|]. apply A'. change (@n0 R RNum) with 0. unR. destruct (Reqb_spec x 0); [contradiction|]. do 36 right. cbn. auto.
  - intros x E. rewrite E in B'. apply B'. do 11 right. cbn. auto.
Qed.

(** ** Opening set_derived *)
Section Opened.
  Context {F : Type} {N : Num F}.
  Definition r_grid_kw (v : vehicle F) : list F := map (fun x => nmul x (mc_max_kw v)) (linspace n0 n1 (length (@r_mc_perc_out_array F N))).
  Definition r_before_mass (v : vehicle F) (fce mcf : list F) (mx : F) (arr map_ mce' mcf' : list F) : vehicle F :=
    with_mc_eff (r_with_peaks (with_fc_eff (with_derived v (Some (r_mc_eff_map v)) (charging_on v) (calc_no_elec_sys v) (calc_no_elec_aux v)
      (map (fun x => nmul x (fc_max_kw v)) (fc_pwr_out_perc v)) (map (fun x => nmul x (fc_max_kw v)) r_fc_perc_out_array)
      fce (r_mc_eff_map v) (n0 :: zipw ndiv (tl (r_grid_kw v)) mcf) (r_grid_kw v) mx (n0 :: mcf)) arr map_) None (mc_peak_eff_override v))
      (Some (r_mc_eff_map v)) mce' mcf'.
  Record r_opened (v v' : vehicle F) (fce mcf : list F) (mx : F) (arr map_ mce' mcf' : list F) : Prop := {
    ro_valid : r_validate v = true;
    ro_check : check_pt v = Ok tt;
    ro_fc_new : fc_eff_array v = [] -> r_table r_fc_perc_out_array (fc_pwr_out_perc v) (fc_eff_map v) = Ok fce;
    ro_fc_old : fc_eff_array v <> [] -> fce = fc_eff_array v;
    ro_mc : r_table (tl r_mc_perc_out_array) (mc_pwr_out_perc v) (r_mc_eff_map v) = Ok mcf;
    ro_mx : lmax (n0 :: zipw ndiv (tl (r_grid_kw v)) mcf) = Ok mx;
    ro_fc_none : fc_peak_eff_override v = None -> arr = fce /\ map_ = fc_eff_map v;
    ro_fc_some : forall p, fc_peak_eff_override v = Some p -> exists a b, lmax fce = Ok a /\ arr = scale (ndiv p a) fce /\
      lmax arr = Ok b /\ map_ = scale (ndiv p b) (fc_eff_map v);
    ro_mc_none : mc_peak_eff_override v = None -> mce' = r_mc_eff_map v /\ mcf' = n0 :: mcf;
    ro_mc_some : forall p, mc_peak_eff_override v = Some p -> exists a b, lmax (r_mc_eff_map v) = Ok a /\ lmax (n0 :: mcf) = Ok b /\
      mce' = scale (ndiv p a) (r_mc_eff_map v) /\ mcf' = scale (ndiv p b) (n0 :: mcf);
    ro_eff : r_check_eff (r_before_mass v fce mcf mx arr map_ mce' mcf') = Ok tt;
    ro_v' : v' = r_set_veh_mass (r_with_peaks (r_before_mass v fce mcf mx arr map_ mce' mcf') None None) }.
  Lemma r_open (v v' : vehicle F) : r_set_derived v = Ok v' -> exists fce mcf mx arr map_ mce' mcf', r_opened v v' fce mcf mx arr map_ mce' mcf'.
  Proof.
    intros H. unfold r_set_derived in H. destruct (r_validate v) eqn:V; [|discriminate]. cbn [negb] in H.
    unfold r_derive_maps in H. fold (r_grid_kw v) in H. destruct (check_pt v) as [[]|] eqn:C; [|discriminate]. cbn [bindR] in H.
    match type of H with context [bindR (match fc_eff_array v with _ => _ end) _] => destruct (match fc_eff_array v with [] => r_table r_fc_perc_out_array (fc_pwr_out_perc v) (fc_eff_map v) | _ :: _ => Ok (fc_eff_array v) end) as [fce|] eqn:E1 end.
    2: { destruct (fc_eff_array v); [rewrite E1 in H|]; discriminate. }
    assert (E1' : (fc_eff_array v = [] -> r_table r_fc_perc_out_array (fc_pwr_out_perc v) (fc_eff_map v) = Ok fce) /\ (fc_eff_array v <> [] -> fce = fc_eff_array v)).
    { destruct (fc_eff_array v); split; intros; try congruence. }
    assert (H' : (do v1 <- (do mcf <- r_table (tl r_mc_perc_out_array) (mc_pwr_out_perc v) (r_mc_eff_map v); do mx <- lmax (n0 :: zipw ndiv (tl (r_grid_kw v)) mcf);
      Ok (with_derived v (Some (r_mc_eff_map v)) (charging_on v) (calc_no_elec_sys v) (calc_no_elec_aux v)
      (map (fun x => nmul x (fc_max_kw v)) (fc_pwr_out_perc v)) (map (fun x => nmul x (fc_max_kw v)) r_fc_perc_out_array)
      fce (r_mc_eff_map v) (n0 :: zipw ndiv (tl (r_grid_kw v)) mcf) (r_grid_kw v) mx (n0 :: mcf)));
      do v2 <- opt_set r_set_fc_peak_eff (fc_peak_eff_override v1) v1;
      do v3 <- opt_set r_set_mc_peak_eff (mc_peak_eff_override v2) (r_with_peaks v2 None (mc_peak_eff_override v2));
      do _ <- r_check_eff v3; Ok (r_set_veh_mass (r_with_peaks v3 None None))) = Ok v').
    { destruct (fc_eff_array v); [rewrite E1 in H; exact H|]. injection E1 as <-. exact H. }
    clear H E1. destruct (r_table (tl _) _ _) as [mcf|] eqn:E2; [|discriminate]. cbn [bindR] in H'.
    destruct (lmax (n0 :: _)) as [mx|] eqn:E3; [|discriminate]. cbn [bindR] in H'.
    match type of H' with context [opt_set r_set_fc_peak_eff _ ?w] => set (v1 := w) in H' end.
    change (fc_peak_eff_override v1) with (fc_peak_eff_override v) in H'.
    destruct (opt_set r_set_fc_peak_eff _ v1) as [v2|] eqn:E5; [|discriminate]. cbn [bindR] in H'.
    assert (A : exists arr map_, v2 = with_fc_eff v1 arr map_ /\ (fc_peak_eff_override v = None -> arr = fce /\ map_ = fc_eff_map v) /\
      (forall p, fc_peak_eff_override v = Some p -> exists a b, lmax fce = Ok a /\ arr = scale (ndiv p a) fce /\
        lmax arr = Ok b /\ map_ = scale (ndiv p b) (fc_eff_map v))).
    { unfold opt_set in E5. destruct (fc_peak_eff_override v) as [p|].
      - unfold r_set_fc_peak_eff, r_fc_peak_eff in E5. change (fc_eff_array v1) with fce in E5. change (fc_eff_map v1) with (fc_eff_map v) in E5.
        destruct (lmax fce) as [a|] eqn:Ea; [|discriminate]. cbn [bindR] in E5.
        destruct (lmax (scale _ fce)) as [b|] eqn:Eb; [|discriminate]. cbn [bindR] in E5. injection E5 as <-.
        do 2 eexists. split; [reflexivity|]. split; [discriminate|]. intros q Q. injection Q as <-. eauto 8.
      - injection E5 as <-. exists fce, (fc_eff_map v). split; [reflexivity|]. split; [auto|discriminate]. }
    destruct A as (arr & map_ & -> & A1 & A2). clear E5.
    change (mc_peak_eff_override (with_fc_eff v1 arr map_)) with (mc_peak_eff_override v) in H'.
    destruct (opt_set r_set_mc_peak_eff _ _) as [v3|] eqn:E6; [|discriminate]. cbn [bindR] in H'.
    assert (B : exists mce' mcf', v3 = with_mc_eff (r_with_peaks (with_fc_eff v1 arr map_) None (mc_peak_eff_override v)) (Some (r_mc_eff_map v)) mce' mcf' /\
      (mc_peak_eff_override v = None -> mce' = r_mc_eff_map v /\ mcf' = n0 :: mcf) /\
      (forall p, mc_peak_eff_override v = Some p -> exists a b, lmax (r_mc_eff_map v) = Ok a /\ lmax (n0 :: mcf) = Ok b /\
        mce' = scale (ndiv p a) (r_mc_eff_map v) /\ mcf' = scale (ndiv p b) (n0 :: mcf))).
    { unfold opt_set in E6. destruct (mc_peak_eff_override v) as [p|].
      - unfold r_set_mc_peak_eff in E6. change (mc_eff_array _) with (r_mc_eff_map v) in E6. change (mc_full_eff_array _) with (n0 :: mcf) in E6.
        destruct (lmax (r_mc_eff_map v)) as [a|] eqn:Ea; [|discriminate]. cbn [bindR] in E6.
        destruct (lmax (n0 :: mcf)) as [b|] eqn:Eb; [|discriminate]. cbn [bindR] in E6. injection E6 as <-.
        do 2 eexists. split; [reflexivity|]. split; [discriminate|]. intros q Q. injection Q as <-. eauto 8.
      - injection E6 as <-. exists (r_mc_eff_map v), (n0 :: mcf). split; [reflexivity|]. split; [auto|discriminate]. }
    destruct B as (mce' & mcf' & -> & B1 & B2). clear E6.
    destruct (r_check_eff _) as [[]|] eqn:K; [|discriminate]. cbn [bindR] in H'. injection H' as <-.
    exists fce, mcf, mx, arr, map_, mce', mcf'. constructor; [exact V|exact C|apply E1'|apply E1'|exact E2|exact E3|exact A1|exact A2|exact B1|exact B2|exact K|reflexivity].
  Qed.

  Lemma derive_fix (r : vehicle F) mcf : check_pt r = Ok tt -> fc_eff_array r <> [] ->
    r_table (tl r_mc_perc_out_array) (mc_pwr_out_perc r) (r_mc_eff_map r) = Ok mcf ->
    lmax (n0 :: zipw ndiv (tl (r_grid_kw r)) mcf) = Ok (mc_max_elec_in_kw r) ->
    mc_eff_map r = Some (r_mc_eff_map r) -> no_elec_sys r = calc_no_elec_sys r -> no_elec_aux r = calc_no_elec_aux r ->
    input_kw_out_array r = map (fun x => nmul x (fc_max_kw r)) (fc_pwr_out_perc r) ->
    fc_kw_out_array r = map (fun x => nmul x (fc_max_kw r)) r_fc_perc_out_array -> mc_eff_array r = r_mc_eff_map r ->
    mc_kw_in_array r = n0 :: zipw ndiv (tl (r_grid_kw r)) mcf -> mc_kw_out_array r = r_grid_kw r -> mc_full_eff_array r = n0 :: mcf ->
    r_derive_maps r = Ok r.
  Proof.
    intros C NE T M H1 H2 H3 H4 H5 H6 H7 H8 H9. unfold r_derive_maps. rewrite C. cbn [bindR].
    assert (Q : match fc_eff_array r with [] => r_table r_fc_perc_out_array (fc_pwr_out_perc r) (fc_eff_map r) | x :: l => Ok (x :: l) end = Ok (fc_eff_array r)) by (destruct (fc_eff_array r); congruence).
    rewrite Q. cbn [bindR]. rewrite T. cbn [bindR]. fold (r_grid_kw r). rewrite M. cbn [bindR].
    rewrite <- H1, <- H2, <- H3, <- H4, <- H5, <- H7, <- H8, <- H9, <- H6. f_equal. now destruct r.
  Qed.
  Lemma peaks_id (r : vehicle F) : fc_peak_eff_override r = None -> mc_peak_eff_override r = None -> r_with_peaks r None None = r.
  Proof. intros A B. destruct r. cbn in *. subst. reflexivity. Qed.
  Lemma mass_again (w : vehicle F) : r_set_veh_mass (r_set_veh_mass w) = r_set_veh_mass w.
  Proof. unfold r_set_veh_mass at 2 3. destruct (veh_override_kg w) as [x|] eqn:E; unfold r_set_veh_mass; cbn [veh_override_kg with_mass]; reflexivity. Qed.
  Lemma map_again (v r : vehicle F) : mc_eff_map r = Some (r_mc_eff_map v) -> mc_max_kw r = mc_max_kw v -> r_mc_eff_map r = r_mc_eff_map v.
  Proof.
    intros A B. unfold r_mc_eff_map at 1. rewrite A, B. destruct (_ && _)%bool eqn:Q; [|reflexivity]. unfold r_mc_eff_map in Q |- *.
    destruct (Nat.eqb (length match mc_eff_map v with Some m => m | None => [] end) _ && _)%bool eqn:Q'; [reflexivity|]. rewrite Q' in Q. discriminate.
  Qed.
  Lemma proj_mass {A} (f : vehicle F -> A) (w : vehicle F) : (forall w o a b c d e g, f (with_mass w o a b c d e g) = f w) -> f (r_set_veh_mass w) = f w.
  Proof. intros H. unfold r_set_veh_mass. destruct (veh_override_kg w); apply H. Qed.
  Lemma valid_again (v w : vehicle F) : r_validate v = true ->
    r_at_least_0 w = r_at_least_0 v -> firstn 11 (r_within_0_1 w) = firstn 11 (r_within_0_1 v) -> fc_eff_type w = fc_eff_type v ->
    fc_peak_eff_override w = None -> mc_peak_eff_override w = None -> r_validate w = true.
  Proof.
    intros H A B C D E. unfold r_validate in *. rewrite A, C. apply Bool.andb_true_iff in H as [H ->]. apply Bool.andb_true_iff in H as [-> H]. cbn [andb].
    rewrite Bool.andb_true_r. unfold r_within_0_1 in *. rewrite D, E in *. rewrite !app_nil_r in *. cbn [firstn app] in B. rewrite B.
    rewrite forallb_app in H. apply Bool.andb_true_iff in H as [H _]. exact H.
  Qed.
  Lemma mass_kept (w : vehicle F) : veh_override_kg (r_set_veh_mass w) = veh_override_kg w.
  Proof. unfold r_set_veh_mass. destruct (veh_override_kg w) eqn:E; [reflexivity|reflexivity]. Qed.
  Lemma check_eff_ext (a b : vehicle F) : fc_eff_array a = fc_eff_array b -> no_elec_sys a = no_elec_sys b -> mc_full_eff_array a = mc_full_eff_array b -> r_check_eff a = r_check_eff b.
  Proof. intros A B C. unfold r_check_eff, r_fc_peak_eff, r_mc_peak_eff. now rewrite A, B, C. Qed.
  Lemma at_least_ext (v w : vehicle F) : veh_override_kg w = veh_override_kg v -> firstn 36 (r_at_least_0 w) = firstn 36 (r_at_least_0 v) -> r_at_least_0 w = r_at_least_0 v.
  Proof. intros A B. unfold r_at_least_0 in *. rewrite A. cbn [firstn app] in B. now rewrite B. Qed.

  (** What a derivation leaves behind. *)
  Record settled (r : vehicle F) : Prop := {
    st_valid : r_validate r = true; st_derive : r_derive_maps r = Ok r; st_fc : fc_peak_eff_override r = None; st_mc : mc_peak_eff_override r = None;
    st_eff : r_check_eff r = Ok tt; st_mass : r_set_veh_mass r = r; st_some : fc_eff_array r <> [] }.
  Lemma settled_again (r : vehicle F) : settled r -> r_set_derived r = Ok r.
  Proof.
    intros [VR D N1 N2 K MA _]. unfold r_set_derived. rewrite VR. cbn [negb]. rewrite D. cbn [bindR]. rewrite N1. cbn [opt_set bindR]. rewrite N2. cbn [opt_set bindR].
    rewrite (peaks_id r N1 N2), K. cbn [bindR]. now rewrite (peaks_id r N1 N2), MA.
  Qed.
  Lemma r_settled (v r : vehicle F) : r_set_derived v = Ok r -> mc_peak_eff_override v = None -> settled r.
  Proof.
    intros H NM. destruct (r_open v r H) as (fce & mcf & mx & arr & map_ & mce' & mcf' & [V C FN FO MC MX _ _ MN _ EF ->]). clear H.
    destruct (MN NM) as [-> ->]. clear MN.
    set (B := r_before_mass v fce mcf mx arr map_ (r_mc_eff_map v) (n0 :: mcf)) in *.
    set (w := r_with_peaks B None None). set (r := r_set_veh_mass w).
    assert (P : forall A (f : vehicle F -> A), (forall w o a b c d e g, f (with_mass w o a b c d e g) = f w) -> f r = f w) by (intros A f Q; now apply proj_mass).
    assert (MM : r_mc_eff_map r = r_mc_eff_map v) by (apply map_again; [rewrite (P _ mc_eff_map)|rewrite (P _ mc_max_kw)]; reflexivity).
    assert (NE : arr <> []).
    { intros ->. discriminate EF. }
    assert (D : r_derive_maps r = Ok r).
    { apply (derive_fix r mcf).
      - rewrite (P _ check_pt) by reflexivity. exact C.
      - rewrite (P _ fc_eff_array) by reflexivity. exact NE.
      - rewrite MM, (P _ mc_pwr_out_perc) by reflexivity. exact MC.
      - rewrite (P _ mc_max_elec_in_kw) by reflexivity. unfold r_grid_kw. rewrite (P _ mc_max_kw) by reflexivity. exact MX.
      - rewrite MM, (P _ mc_eff_map) by reflexivity. reflexivity.
      - rewrite (P _ no_elec_sys), (P _ calc_no_elec_sys) by reflexivity. reflexivity.
      - rewrite (P _ no_elec_aux), (P _ calc_no_elec_aux) by reflexivity. reflexivity.
      - rewrite (P _ input_kw_out_array), (P _ fc_max_kw), (P _ fc_pwr_out_perc) by reflexivity. reflexivity.
      - rewrite (P _ fc_kw_out_array), (P _ fc_max_kw) by reflexivity. reflexivity.
      - rewrite MM, (P _ mc_eff_array) by reflexivity. reflexivity.
      - rewrite (P _ mc_kw_in_array) by reflexivity. unfold r_grid_kw. rewrite (P _ mc_max_kw) by reflexivity. reflexivity.
      - rewrite (P _ mc_kw_out_array) by reflexivity. unfold r_grid_kw. rewrite (P _ mc_max_kw) by reflexivity. reflexivity.
      - rewrite (P _ mc_full_eff_array) by reflexivity. reflexivity. }
    assert (N1 : fc_peak_eff_override r = None) by (rewrite (P _ fc_peak_eff_override) by reflexivity; reflexivity).
    assert (N2 : mc_peak_eff_override r = None) by (rewrite (P _ mc_peak_eff_override) by reflexivity; reflexivity).
    assert (VR : r_validate r = true).
    { apply (valid_again v); auto.
      - apply at_least_ext; [unfold r; rewrite mass_kept; reflexivity|]. rewrite (P _ (fun w => firstn 36 (r_at_least_0 w))) by reflexivity. reflexivity.
      - rewrite (P _ (fun w => firstn 11 (r_within_0_1 w))) by reflexivity. reflexivity.
      - rewrite (P _ fc_eff_type) by reflexivity. reflexivity. }
    assert (K : r_check_eff r = Ok tt).
    { assert (Q1 : fc_eff_array r = fc_eff_array B).
      { rewrite (P _ fc_eff_array) by reflexivity. change (fc_eff_array B) with arr. reflexivity. }
      assert (Q2 : no_elec_sys r = no_elec_sys B).
      { rewrite (P _ no_elec_sys) by reflexivity. change (no_elec_sys B) with (calc_no_elec_sys v). reflexivity. }
      assert (Q3 : mc_full_eff_array r = mc_full_eff_array B).
      { rewrite (P _ mc_full_eff_array) by reflexivity. change (mc_full_eff_array B) with (n0 :: mcf). reflexivity. }
      clear - EF Q1 Q2 Q3. clearbody B. clearbody r.
      rewrite (check_eff_ext r B Q1 Q2 Q3). exact EF. }
    assert (MA : r_set_veh_mass r = r) by apply mass_again.
    assert (SM : fc_eff_array r <> []) by (rewrite (P _ fc_eff_array) by reflexivity; exact NE).
    clear - D N1 N2 VR K MA SM. clearbody r. constructor; assumption.
  Qed.
  Lemma r_again (v r : vehicle F) : r_set_derived v = Ok r -> mc_peak_eff_override v = None -> r_set_derived r = Ok r.
  Proof. intros H Q. apply settled_again. now apply (r_settled v). Qed.

  Lemma derive_mc (r : vehicle F) a b : r_derive_maps (with_mc_eff r (mc_eff_map r) a b) = r_derive_maps r.
  Proof. destruct r. reflexivity. Qed.
  Lemma motor_lost (r r' : vehicle F) p : settled r -> r_set_mc_peak_eff r p = Ok r' -> r_set_derived r' = Ok r.
  Proof.
    intros S H. unfold r_set_mc_peak_eff in H. destruct (lmax (mc_eff_array r)) as [a|]; [|discriminate]. cbn [bindR] in H.
    destruct (lmax (mc_full_eff_array r)) as [b|]; [|discriminate]. cbn [bindR] in H. injection H as <-.
    rewrite <- (settled_again r S). unfold r_set_derived. rewrite derive_mc.
    change (r_validate (with_mc_eff r (mc_eff_map r) ?x ?y)) with (r_validate r). reflexivity.
  Qed.
  Lemma derive_fc (r : vehicle F) arr m : r_derive_maps r = Ok r -> fc_eff_array r <> [] -> arr <> [] ->
    r_derive_maps (with_fc_eff r arr m) = Ok (with_fc_eff r arr m).
  Proof.
    intros D N1 N2. unfold r_derive_maps in *.
    change (check_pt (with_fc_eff r arr m)) with (check_pt r). destruct (check_pt r) as [[]|]; [|discriminate]. cbn [bindR] in *.
    change (fc_eff_array (with_fc_eff r arr m)) with arr. change (r_mc_eff_map (with_fc_eff r arr m)) with (r_mc_eff_map r).
    change (mc_pwr_out_perc (with_fc_eff r arr m)) with (mc_pwr_out_perc r). change (mc_max_kw (with_fc_eff r arr m)) with (mc_max_kw r).
    destruct (fc_eff_array r) as [|x l] eqn:E; [congruence|]. destruct arr as [|y k]; [congruence|]. cbn [bindR] in *. clear N1 N2.
    destruct (r_table _ _ (r_mc_eff_map r)) as [mcf|]; [|discriminate]. cbn [bindR] in *.
    destruct (lmax _) as [mx|]; [|discriminate]. cbn [bindR] in *.
    match type of D with Ok ?w = _ => assert (D' : with_fc_eff w (y :: k) m = with_fc_eff r (y :: k) m) by (apply (f_equal (fun q => with_fc_eff q (y :: k) m)); congruence) end.
    clear D. rewrite <- D'. reflexivity.
  Qed.
  Lemma fc_kept (r : vehicle F) arr m : settled r -> arr <> [] -> r_check_eff (with_fc_eff r arr m) = Ok tt -> r_set_derived (with_fc_eff r arr m) = Ok (with_fc_eff r arr m).
  Proof.
    intros [VR D N1 N2 K MA SM] NA C. apply settled_again. constructor; try assumption; [now apply derive_fc|].
    unfold r_set_veh_mass in *. cbn [veh_override_kg with_fc_eff]. destruct (veh_override_kg r) as [x|];
      apply (f_equal (fun q => with_fc_eff q arr m)) in MA; exact MA.
  Qed.
  Lemma fc_stale (r r' : vehicle F) m : settled r -> r_set_derived (with_fc_eff r (fc_eff_array r) m) = Ok r' -> r' = with_fc_eff r (fc_eff_array r) m.
  Proof.
    intros S H. assert (C : r_check_eff (with_fc_eff r (fc_eff_array r) m) = Ok tt) by apply (st_eff _ S).
    rewrite (fc_kept r _ m S (st_some _ S) C) in H. congruence.
  Qed.
End Opened.
