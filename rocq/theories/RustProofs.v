(** The Rust step against the Python step: lemmas. *)
From Verif Require Import Num Numpy ListFacts CycleModel VehModel SimModel SimState WalkModel SimSpec RustModel RustSpec FrameProofs SimProofs3 SimProofs4 SimProofs7.
Local Open Scope R_scope.

(** ** Look-ups *)
Lemma r_position_eq (p : R -> bool) l : r_position p l = first_true (map p l).
Proof. induction l as [|x l IH]; [reflexivity|]. cbn. destruct (p x); [reflexivity|]. rewrite IH. reflexivity. Qed.

Lemma r_get_nth (l : list R) k x : nth_error l k = Some x -> r_get l k = Ok x.
Proof. unfold r_get. now intros ->. Qed.

Lemma r_last_eq (l : list R) : l <> [] -> r_last l = Ok (getZ l (-1)).
Proof.
  intros H. unfold r_last. destruct l as [|a l]; [easy|]. apply r_get_nth. apply getZ_last. discriminate.
Qed.

(** Some entry exceeds the cut and the first does not: both find the same cell. *)
Lemma cell_found (grid : list R) c g0 b : nth_error grid 0 = Some g0 -> g0 <= c -> In b grid -> c < b ->
  exists k, r_cell grid c = Ok k /\ below grid c = Z.of_nat k /\ (S k < length grid)%nat.
Proof.
  intros G0 G1 IB B. unfold r_cell, r_first_grtr. destruct grid as [|a grid]; [easy|].
  rewrite r_position_eq. unfold below, argmax_b. unR.
  destruct (first_above (a :: grid) c) as [(k & x & E & A1 & A2 & A3)|(E & A)].
  - change (@nltb R RNum) with Rltb in E. rewrite E. destruct k as [|k]. { rewrite G0 in A1. injection A1 as <-. lra. }
    exists k. cbn [r_pred]. split; [reflexivity|]. split; [lia|]. apply nth_error_Some. congruence.
  - exfalso. apply In_nth_error in IB. destruct IB as [j Hj]. specialize (A _ _ Hj). lra.
Qed.
Lemma cell_or0_found (grid : list R) c g0 b : nth_error grid 0 = Some g0 -> g0 <= c -> In b grid -> c < b ->
  exists k, r_cell_or0 grid c = Ok k /\ below grid c = Z.of_nat k /\ (S k < length grid)%nat.
Proof.
  intros G0 G1 IB B. destruct (cell_found grid c g0 b G0 G1 IB B) as (k & K & K'). exists k. split; [|exact K'].
  rewrite <- K. unfold r_cell, r_cell_or0, r_first_grtr. destruct grid; [easy|reflexivity].
Qed.

(** The two cuts select the same entries. *)
Lemma cuts_below (grid : list R) top x : cuts_agree grid top ->
  below grid (Rmin (top - 1/100) x) = below grid (Rmin (top * (9999/10000)) x).
Proof.
  intros C. unfold below. do 2 f_equal. apply f_equal. apply map_ext_in. intros a Ha. unR.
  specialize (C a Ha). unfold Rmin. destruct (Rle_dec (top - 1/100) x), (Rle_dec (top * (9999/10000)) x);
    repeat match goal with |- context [Rltb ?p ?q] => destruct (Rltb_spec p q) end; auto; exfalso; destruct C as [C1 C2];
    repeat match goal with H : ~ _ |- _ => apply Rnot_lt_le in H || apply Rnot_le_lt in H end;
    repeat match goal with H : ?a < ?b -> _ |- _ => destruct (Rlt_le_dec a b); [specialize (H ltac:(assumption))|clear H] end; lra.
Qed.
Lemma almost1_R : @r_almost1 R RNum = 9999/10000.
Proof. unfold r_almost1. rewrite lit_R. reflexivity. Qed.

Lemma cut_between top x : 0 < top -> 0 <= x -> 0 <= Rmin (top * (9999/10000)) x < top.
Proof. intros H Hx. unfold Rmin. destruct (Rle_dec _ _); lra. Qed.

Lemma eff_at_ok (v : vehicle R) grid top x : (2 <= length (mc_full_eff_array v))%nat ->
  length grid = length (mc_full_eff_array v) -> nth_error grid 0 = Some 0 -> In top grid -> 0 < top ->
  cuts_agree grid top -> 0 <= x -> r_eff_at v grid top x = Ok (mc_eff_at v grid top x).
Proof.
  intros L2 L G0 T P C Hx. unfold r_eff_at, mc_eff_at. rewrite !nmin_R, almost1_R, lit_R. unR.
  rewrite (cuts_below grid top x C). destruct (cut_between top x P Hx) as [B1 B2].
  destruct (cell_found grid _ 0 top G0 B1 T B2) as (k & -> & -> & K). cbn [bindR].
  apply r_get_nth. replace (Z.max 1 (Z.of_nat k)) with (Z.of_nat (Nat.max 1 k)) by lia.
  rewrite (nth_error_nth' _ 0) by lia. f_equal. symmetry. apply getZ_nat. apply nth_error_nth'. lia.
Qed.

(** ** The motor's maps *)
Section Motor.
  Variable v : vehicle R.
  Hypothesis M : has_motor v.
  Notation eff := (mc_full_eff_array v).
  Lemma elec_top : amax (mc_kw_in_array v) = mc_max_elec_in_kw v.
  Proof.
    destruct (hm_elec v M) as [E1 E2]. pose proof (hm_in0 v M) as I0.
    assert (N : mc_kw_in_array v <> []) by (intros Q; rewrite Q in I0; discriminate I0).
    apply Rle_antisym; [apply E2, amax_in, N|apply amax_ge, E1].
  Qed.
  Lemma eff_last : r_last eff = Ok (mc_eff_last v).
  Proof. apply r_last_eq. intros Q. pose proof (hm_two v M) as H. rewrite Q in H. cbn in H. lia. Qed.
  Lemma eff_out x : 0 <= x -> r_eff_at v (mc_kw_out_array v) (mc_max_kw v) x = Ok (mc_eff_at v (mc_kw_out_array v) (mc_max_kw v) x).
  Proof. apply eff_at_ok; apply M. Qed.
  Lemma eff_in x : 0 <= x -> r_eff_at v (mc_kw_in_array v) (mc_max_elec_in_kw v) x = Ok (mc_eff_at v (mc_kw_in_array v) (mc_max_elec_in_kw v) x).
  Proof. apply eff_at_ok; try apply M. Qed.
  (** The cell of the output grid, used for a power. *)
  Lemma cell_out x : 0 <= x -> exists k, r_cell_or0 (mc_kw_out_array v) (Rmin (mc_max_kw v * (9999/10000)) x) = Ok k /\
    below (mc_kw_out_array v) (Rmin (mc_max_kw v - 1/100) x) = Z.of_nat k /\ (S k < length eff)%nat.
  Proof.
    intros Hx. destruct (cut_between (mc_max_kw v) x (hm_kw v M) Hx) as [B1 B2]. rewrite cuts_below by apply M.
    destruct (cell_or0_found _ _ 0 _ (hm_out0 v M) B1 (hm_top v M) B2) as (k & K & K' & K''). exists k. rewrite K, K'. split; auto. split; auto. rewrite <- (hm_out v M). exact K''.
  Qed.

  Lemma elec_in_lim elec : r_mc_elec_in_lim v elec (Rmin elec (mc_max_elec_in_kw v)) = Ok (calc_mc_elec_in_lim v elec (Rmin elec (mc_max_elec_in_kw v))).
  Proof.
    unfold r_mc_elec_in_lim, calc_mc_elec_in_lim. rewrite !nmin_R, almost1_R, lit_R, elec_top. unR.
    destruct (Rltb_spec 0 elec) as [P|P]; [|reflexivity].
    destruct (Reqb_spec (Rmin elec (mc_max_elec_in_kw v)) (mc_max_elec_in_kw v)) as [E|E].
    - rewrite r_last_eq; [cbn [bindR]; rewrite ?nmin_R; reflexivity|]. intros Q. pose proof (hm_out v M) as H. rewrite Q in H. pose proof (hm_two v M). cbn in H. lia.
    - set (x := Rmin elec _) in *. assert (Hx : 0 <= x). { unfold x, Rmin. pose proof (hm_elec_pos v M). destruct (Rle_dec _ _); lra. }
      rewrite cuts_below by apply M. destruct (cut_between _ x (hm_elec_pos v M) Hx) as [B1 B2].
      destruct (cell_found _ _ 0 _ (hm_in0 v M) B1 (proj1 (hm_elec v M)) B2) as (k & -> & -> & K). cbn [bindR].
      rewrite (hm_in v M) in K. assert (KO : (k < length (mc_kw_out_array v))%nat) by (rewrite (hm_out v M); lia).
      pose proof (nth_error_nth' _ 0 KO) as E1. rewrite (r_get_nth _ _ _ E1), (getZ_nat _ _ _ E1). cbn [bindR]. rewrite ?nmin_R. reflexivity.
  Qed.
  Lemma elec_kw_in x : 0 <= x -> r_mc_elec_kw_in v x = Ok (calc_mc_elec_kw_in v x).
  Proof.
    intros Hx. unfold r_mc_elec_kw_in, calc_mc_elec_kw_in. unR. rewrite eff_last, eff_out by assumption.
    destruct (Reqb_spec x 0); [reflexivity|]. destruct (Reqb_spec x (mc_max_kw v)); reflexivity.
  Qed.
  Lemma mech_mc_in chg road : road <= chg -> r_mech_mc_in v chg road = Ok (calc_mech_mc_in v chg road).
  Proof.
    intros Hx. unfold r_mech_mc_in, calc_mech_mc_in. rewrite eff_last. unR. destruct (Reqb_spec chg 0); [reflexivity|].
    destruct (Reqb_spec (mc_max_kw v) (chg - road)); [reflexivity|]. rewrite !nmin_R, almost1_R.
    assert (Hx' : 0 <= chg - road) by lra. destruct (cell_out _ Hx') as (k & K1 & K2 & K3). unR. rewrite K1. cbn [bindR].
    unfold mc_eff_at. rewrite !nmin_R, lit_R. unR. rewrite K2.
    replace (Z.max 1 (Z.of_nat k)) with (Z.of_nat (Nat.max 1 k)) by lia.
    assert (KO : (Nat.max 1 k < length eff)%nat) by (pose proof (hm_two v M); lia).
    pose proof (nth_error_nth' _ 0 KO) as E1. rewrite (r_get_nth _ _ _ E1), (getZ_nat _ _ _ E1). cbn [bindR]. rewrite ?nmin_R. reflexivity.
  Qed.
  Lemma for_max_fc_eff out x (peak : R) : 0 <= x -> peak = max_fc_eff_kw v ->
    r_mc_for_max_fc_eff v out x peak = Ok (calc_mc_for_max_fc_eff v out x).
  Proof.
    intros Hx ->. unfold r_mc_for_max_fc_eff, calc_mc_for_max_fc_eff, mc_div_eff. rewrite eff_last, eff_out by assumption. unR.
    destruct (no_elec_sys v); [reflexivity|]. destruct (Rltb_spec out (max_fc_eff_kw v)).
    - destruct (Reqb_spec x (mc_max_kw v)); reflexivity.
    - destruct (Reqb_spec x (mc_max_kw v)).
      + assert (N : mc_kw_in_array v <> []). { intros Q. pose proof (hm_in v M) as H. rewrite Q in H. pose proof (hm_two v M). cbn in H. lia. }
        unfold r_last. destruct (mc_kw_in_array v) eqn:Q; [easy|]. rewrite <- Q in *.
        assert (KO : (length (mc_kw_in_array v) - 1 < length (mc_kw_in_array v))%nat) by (rewrite Q; cbn; lia).
        pose proof (nth_error_nth' _ 0 KO) as E1. rewrite (r_get_nth _ _ _ E1). f_equal. symmetry. rewrite <- (getZ_nat _ _ _ E1). f_equal. lia.
      + rewrite !nmin_R, almost1_R, lit_R. unR. destruct (cell_out _ Hx) as (k & K1 & K2 & K3). rewrite K1, K2. cbn [bindR].
        assert (KO : (k < length (mc_kw_in_array v))%nat) by (rewrite (hm_in v M); lia).
        pose proof (nth_error_nth' _ 0 KO) as E1. rewrite (r_get_nth _ _ _ E1), (getZ_nat _ _ _ E1). reflexivity.
  Qed.
  Lemma req_4ae inp aux : r_elec_req_4ae v inp aux = Ok (calc_elec_req_4ae v inp aux).
  Proof.
    unfold r_elec_req_4ae, calc_elec_req_4ae, mc_div_eff. rewrite eff_last. unR. destruct (no_elec_sys v); [reflexivity|].
    destruct (Rltb_spec 0 inp); [|reflexivity]. rewrite eff_out by lra. destruct (Reqb_spec inp (mc_max_kw v)); reflexivity.
  Qed.
  Lemma if_fc_req el : r_mc_if_fc_req v el = Ok (calc_mc_if_fc_req v el).
  Proof.
    unfold r_mc_if_fc_req, calc_mc_if_fc_req. rewrite elec_top, eff_last. unR. destruct (no_elec_sys v); [reflexivity|]. cbn [orb].
    destruct (Reqb_spec el 0); [reflexivity|]. replace (el * (- (1))) with (- el) by ring.
    destruct (Rltb_spec 0 el).
    - rewrite eff_in by lra. destruct (Reqb_spec el (mc_max_elec_in_kw v)); reflexivity.
    - rewrite eff_in by lra. destruct (Reqb_spec (- el) (mc_max_elec_in_kw v)); reflexivity.
  Qed.
  Lemma elec_in mech : r_mc_elec_in v mech = Ok (calc_mc_elec_in v mech).
  Proof.
    unfold r_mc_elec_in, calc_mc_elec_in. rewrite elec_top, eff_last. unR.
    destruct (Reqb_spec mech 0); [reflexivity|]. replace (mech * (- (1))) with (- mech) by ring.
    destruct (Rltb_spec mech 0).
    - rewrite eff_in by lra. destruct (Reqb_spec (- mech) (mc_max_elec_in_kw v)); reflexivity.
    - rewrite eff_out by lra. destruct (Reqb_spec (mc_max_kw v) mech); reflexivity.
  Qed.
End Motor.

(** ** The engine's most efficient power *)
Lemma position_eq (l : list R) k m : nth_error l k = Some m ->
  (forall j x, (j < k)%nat -> nth_error l j = Some x -> x <> m) -> r_position (fun x => Reqb x m) l = Some k.
Proof.
  intros K J. rewrite r_position_eq. apply first_true_Some. rewrite nth_error_map, K. split.
  - cbn. f_equal. destruct (Reqb_spec m m); congruence.
  - intros j Hj. rewrite nth_error_map. assert (L : (k < length l)%nat) by (apply nth_error_Some; congruence).
    assert (E := nth_error_nth' l 0 (Nat.lt_trans _ _ _ Hj L)). rewrite E. cbn. f_equal. specialize (J j _ Hj E).
    destruct (Reqb_spec (nth j l 0) m); congruence.
Qed.
Lemma peak_ok (v : vehicle R) : engine_tables_ok v -> r_max_fc_eff_kw v = Ok (max_fc_eff_kw v).
Proof.
  intros E. unfold r_max_fc_eff_kw, max_fc_eff_kw, r_first_eq. pose proof (et_two v E) as L2.
  assert (N : fc_eff_array v <> []) by (intros Q; rewrite Q in L2; cbn in L2; lia).
  destruct (argmax_spec _ N) as (m & A1 & A2 & A3).
  assert (AM : amax (fc_eff_array v) = m).
  { apply Rle_antisym; [|apply amax_ge, nth_error_In with (1 := A1)]. destruct (In_nth_error _ _ (amax_in _ N)) as [j Hj]. eauto. }
  rewrite AM. unR. rewrite (position_eq _ _ m A1); [|intros j x J X; specialize (A3 j x J X); lra].
  destruct (fc_eff_array v) eqn:Q; [easy|]. rewrite <- Q in *. apply r_get_nth. apply nth_error_nth'.
  rewrite (et_len v E). apply nth_error_Some. congruence.
Qed.

(** ** The search for the end speed *)
Section Speed.
  Variables (v : vehicle R) (pr : physprops R) (sp : simparams R).
  Definition quad (q : cubic) : R * R * R * R := (t3 q, t2 q, t1 q, t0 q).
  Lemma cubic_same e v1 l g : r_cubic v pr e v1 l g = quad (speed_cubic v pr e v1 l g).
  Proof. reflexivity. Qed.
  Lemma newton_same (q : cubic) n : forall x xs, r_newton sp (quad q) n x xs = rev (newton_rest sp q n x) ++ x :: xs.
  Proof.
    induction n as [|n IH]; intros x xs; cbn [r_newton newton_rest]; [reflexivity|].
    change (r_pwr_err (quad q) x) with (cub_y q x). change (r_pwr_err_slope (quad q) x) with (cub_m q x).
    fold (cub_b q x). destruct (nltb _ _); [reflexivity|]. rewrite IH. cbn [rev]. rewrite <- app_assoc. reflexivity.
  Qed.
  Lemma least_spec : forall l y, In (r_least y l) (y :: l) /\ (forall x, In x (y :: l) -> r_least y l <= x).
  Proof.
    induction l as [|a l IH]; intros y; cbn [r_least].
    - split; [now left|]. intros x [<-|[]]. lra.
    - unR. destruct (Rltb_spec a y) as [C|C].
      + destruct (IH a) as [I1 I2]. split; [right; exact I1|]. intros x [<-|[<-|X]]; [specialize (I2 a (or_introl eq_refl)); lra|apply I2; now left|apply I2; now right].
      + destruct (IH y) as [I1 I2]. split; [destruct I1 as [I1|I1]; [left; exact I1|right; right; exact I1]|].
        intros x [<-|[<-|X]]; [apply I2; now left|specialize (I2 y (or_introl eq_refl)); lra|apply I2; now right].
  Qed.
  Lemma best_same (q : cubic) x xs : r_best (quad q) (x :: xs) = Ok (best_iterate q x xs).
  Proof.
    assert (B : best_of (cub_y q) ([x] ++ xs) (best_iterate q x xs)).
    { apply best_iterate_best. exists 0%nat. split; auto. split; [intros y [<-|[]]; lra|intros; lia]. }
    destruct B as (k & B1 & B2 & B3). cbn [app] in *. set (b := best_iterate q x xs) in *.
    unfold r_best. cbn [map]. change (r_pwr_err (quad q)) with (cub_y q).
    destruct (least_spec (map (fun z => Rabs (cub_y q z)) xs) (Rabs (cub_y q x))) as [L1 L2]. unR. set (m := r_least _ _) in *.
    change (Rabs (cub_y q x) :: map (fun z => Rabs (cub_y q z)) xs) with (map (fun z => Rabs (cub_y q z)) (x :: xs)) in *.
    assert (E : m = Rabs (cub_y q b)).
    { apply Rle_antisym.
      - apply L2. apply (in_map (fun z => Rabs (cub_y q z))). eapply nth_error_In; eauto.
      - apply in_map_iff in L1. destruct L1 as (z & <- & Z). now apply B2. }
    change ((fun x0 : R => Reqb x0 m)) with (fun x0 : R => Reqb x0 m).
    rewrite (position_eq _ k m).
    - now apply r_get_nth.
    - rewrite nth_error_map, B1. cbn. now rewrite E.
    - intros j z J Z. rewrite nth_error_map in Z. destruct (nth_error (x :: xs) j) as [w|] eqn:W; [|discriminate Z].
      cbn in Z. injection Z as <-. specialize (B3 j w J W). intros Q. change (Rabs (cub_y q w) = m) in Q. lra.
  Qed.
  Lemma solve_speed_same (q : cubic) v1 : r_solve_speed sp (quad q) v1 = Ok (newton_mps_estimate sp q v1).
  Proof.
    unfold r_solve_speed, newton_mps_estimate. rewrite newton_same, rev_app_distr, rev_involutive. cbn [rev app].
    rewrite best_same. reflexivity.
  Qed.
  Lemma grade_loop_same e v1 l : (forall x, Rabs (e_grade_est e - e_grade e x) <= 1/1000000) ->
    r_grade_loop v pr sp e v1 l (e_grade_est e) 2 = Ok (grade_loop v pr sp e v1 l (e_grade_est e) 2).
  Proof.
    intros H. cbn [r_grade_loop grade_loop]. rewrite cubic_same, solve_speed_same. cbn [bindR].
    destruct (newton_mps_estimate _ _ _) as [x n]. cbn [fst]. specialize (H x). rewrite !lit_R. unR.
    destruct (Rltb_spec (1/10000) (Rabs (e_grade_est e - e_grade e x))); [lra|].
    destruct (Rltb_spec (1/1000000) (Rabs (e_grade_est e - e_grade e x))); [lra|]. reflexivity.
  Qed.
End Speed.

(** ** set_misc_calcs *)
Lemma misc_same (v : vehicle R) e p aux : r_set_misc_calcs v e p aux = set_misc_calcs v e p aux.
Proof.
  unfold r_set_misc_calcs, set_misc_calcs. unR.
  assert (E : forall a b, Rleb a b = negb (Rltb b a)).
  { intros a b. destruct (Rleb_spec a b), (Rltb_spec b a); auto; exfalso; lra. }
  rewrite E. reflexivity.
Qed.

(** ** set_comp_lims *)
Lemma elec_in_lim_pos v elec avail : has_motor v -> 0 <= calc_mc_elec_in_lim v elec avail.
Proof.
  intros M. unfold calc_mc_elec_in_lim. rewrite !nmin_R. unR.
  assert (P : forall z, 0 <= getZ (mc_kw_out_array v) z).
  { intros z. unfold getZ, pyget. destruct (_ && _)%bool; [|unR; lra]. destruct (nth_error _ _) eqn:Q; [|unR; lra].
    apply (hm_pos v M). eapply nth_error_In; eauto. }
  pose proof (hm_kw v M). destruct (Rltb_spec 0 elec); [|lra].
  destruct (Reqb _ _); apply Rmin_glb; try lra; apply P.
Qed.
Lemma chg_pos (v : vehicle R) pr e p m c : 0 <= ess_max_kw v -> 0 <= cur_max_ess_chg_kw (set_comp_lims v pr e p m c).
Proof.
  intros H. unfold set_comp_lims. cbn [cur_max_ess_chg_kw]. rewrite nmin_R. apply Rmin_glb; [|exact H].
  destruct (_ || _)%bool; [unR; lra|]. rewrite nmax_R. unR. apply Rmax_r.
Qed.
Lemma lims_same (v : vehicle R) pr e p m c : comparable v -> 0 < e_dt e ->
  (no_motor v -> 0 <= aux_in_kw m) -> cur_max_roadway_chg_kw c <= cur_max_ess_chg_kw (set_comp_lims v pr e p m c) ->
  r_set_comp_lims v pr e p m c = Ok (set_comp_lims v pr e p m c).
Proof.
  intros V D A RD. unfold r_set_comp_lims. unfold set_comp_lims in *. cbn [cur_max_ess_chg_kw] in RD.
  set (fcmax := nmin (fc_max_kw v) _) in *. set (dis := if (_ || (nltb _ _))%bool then _ else _) in *.
  set (ess := nmin (ess_max_kw v) dis) in *.
  set (chgcap := if ((ess_max_kwh v =? n0)%num || _)%bool then _ else nmax _ _) in *.
  assert (CC : (if ((ess_max_kwh v =? n0)%num || (ess_max_kw v =? n0)%num)%bool then n0 else nmax (ndiv (ndiv (nmul (nsub (max_soc v) (soc (dec p))) (ess_max_kwh v)) (nsqrt (ess_round_trip_eff v))) (ndiv (e_dt e) k3600)) n0) = chgcap).
  { unfold chgcap. destruct (_ || _)%bool; [reflexivity|]. unR. f_equal. rewrite !Rmult_1_r. reflexivity. }
  rewrite !CC. clear CC. set (chg := nmin chgcap _) in *.
  set (elec := if is_h2fc (fc_eff_type v) then nsub _ _ else _) in *.
  set (mctr := nadd (nabs _) _) in *.
  assert (CP : 0 <= chg).
  { unfold chg. rewrite nmin_R. apply Rmin_glb; [|apply V]. unfold chgcap.
    destruct (_ || _)%bool; [unR; lra|]. rewrite nmax_R. unR. apply Rmax_r. }
  assert (F : r_mc_elec_in_lim v elec (nmin elec (mc_max_elec_in_kw v)) = Ok (calc_mc_elec_in_lim v elec (nmin elec (mc_max_elec_in_kw v))) /\
    (forall mcel, mcel = calc_mc_elec_in_lim v elec (nmin elec (mc_max_elec_in_kw v)) ->
       let mcout := nmax (nmin (nmin mcel mctr) (nmul (if stop_start v then n0 else n1) (mc_max_kw v))) (nopp (mc_max_kw v)) in
       r_mc_elec_kw_in v mcout = Ok (calc_mc_elec_kw_in v mcout)) /\
    r_mech_mc_in v chg (cur_max_roadway_chg_kw c) = Ok (calc_mech_mc_in v chg (cur_max_roadway_chg_kw c))).
  { destruct (cp_motor v V) as [M|NM].
    - split; [rewrite nmin_R; apply elec_in_lim, M|]. split; [|apply mech_mc_in; assumption].
      intros mcel ->. cbv zeta. apply elec_kw_in; [assumption|]. pose proof (elec_in_lim_pos v elec (nmin elec (mc_max_elec_in_kw v)) M) as P.
      set (mcel := calc_mc_elec_in_lim _ _ _) in *. clearbody mcel.
      assert (PT : 0 <= mctr).
      { unfold mctr. unR. pose proof (Rabs_pos (mc_mech_kw_out_ach (dec p))). pose proof (hm_kw v M). pose proof (hm_sec v M).
        assert (0 < mc_max_kw v / mc_sec_to_peak_pwr v * e_dt e); [|lra]. apply Rmult_lt_0_compat; [|lra].
        apply Rdiv_lt_0_compat; lra. }
      clearbody mctr. rewrite nmax_R, !nmin_R. pose proof (hm_kw v M).
      apply Rle_trans with (2 := Rmax_l _ _). repeat apply Rmin_glb; auto. unR. destruct (stop_start v); lra.
    - destruct NM as (M0 & NE & NH & NB). specialize (A (conj M0 (conj NE (conj NH NB)))).
      assert (C0 : chg = 0).
      { unfold chg, chgcap. rewrite nmin_R. unR.
        destruct NB as [NB|NB]; rewrite NB; destruct (Reqb_spec 0 0) as [_|Q]; try congruence; rewrite ?Bool.orb_true_r, ?Bool.orb_true_l;
          unfold Rmin; destruct (Rle_dec _ _); pose proof (cp_ess v V); lra. }
      assert (EN : elec <= 0).
      { unfold elec. destruct (fc_eff_type v) eqn:Q; try congruence; cbn [is_h2fc]; unR.
        all: assert (EP : ess <= 0) by
          (unfold ess; rewrite nmin_R; destruct NB as [NB|NB]; [rewrite NB; apply Rmin_l|];
           apply Rle_trans with (1 := Rmin_r _ _); unfold dis; unR; rewrite NB; destruct (Reqb_spec 0 0); [cbn; lra|congruence]); lra. }
      split; [|split].
      + unfold r_mc_elec_in_lim, calc_mc_elec_in_lim. unR. destruct (Rltb_spec 0 elec); [lra|reflexivity].
      + intros mcel ->. cbv zeta. unfold calc_mc_elec_in_lim. unR. destruct (Rltb_spec 0 elec); [lra|]. rewrite M0, nmax_R, !nmin_R. unR.
        replace (Rmax _ _) with 0; [unfold r_mc_elec_kw_in, calc_mc_elec_kw_in; unR; destruct (Reqb_spec 0 0); [reflexivity|congruence]|].
        rewrite Rmult_0_r, Ropp_0. rewrite Rmax_right; [reflexivity|apply Rmin_r].
      + rewrite C0. unfold r_mech_mc_in, calc_mech_mc_in. unR. destruct (Reqb_spec 0 0); [reflexivity|congruence]. }
  destruct F as (F1 & F2 & F3). rewrite F1. cbn [bindR]. rewrite (F2 _ eq_refl). cbn [bindR]. rewrite F3. cbn [bindR].
  f_equal. f_equal. unfold r_trans_kw_out. destruct (impose_coast c); [reflexivity|]. destruct (is_h2fc _); reflexivity.
Qed.

(** ** set_power_calcs and set_ach_speed *)
Lemma power_same (v : vehicle R) pr e p l x : r_set_power_calcs v pr e p l x = set_power_calcs v pr e p l x.
Proof.
  unfold r_set_power_calcs, set_power_calcs. cbv zeta.
  assert (E1 : forall s k w y : R, nmul (nmul (nmul s k) w) (ndiv y n2) = ndiv (nmul (nmul (nmul s k) w) y) n2) by (intros; unR; unfold Rdiv; ring).
  assert (E2 : forall s a b : R, ndiv (nmul s (nsub a b)) (e_dt e) = nsub (ndiv (nmul s a) (e_dt e)) (ndiv (nmul s b) (e_dt e))) by (intros; unR; unfold Rdiv; ring).
  rewrite E1, E2. reflexivity.
Qed.
Lemma ach_same (v : vehicle R) pr sp e p l q old : (forall x, Rabs (e_grade_est e - e_grade e x) <= 1/1000000) ->
  r_set_ach_speed v pr sp e p l q old = Ok (set_ach_speed v pr sp e p l q old).
Proof.
  intros H. unfold r_set_ach_speed, set_ach_speed.
  assert (E : forall n x, r_mkspd e n x = mkspd_of e n x).
  { intros n x. unfold r_mkspd, mkspd_of. f_equal. unR. unfold Rdiv. ring. }
  destruct (cyc_met q); [rewrite E; reflexivity|].
  rewrite grade_loop_same by assumption. cbn [bindR]. destruct (grade_loop _ _ _ _ _ _ _) as [x n]. cbn [fst snd].
  rewrite power_same, E. reflexivity.
Qed.

(** ** set_hybrid_cont_calcs *)
Lemma max3 a b c : Rmax a (Rmax b c) = Rmax (Rmax a b) c.
Proof. unfold Rmax. repeat destruct (Rle_dec _ _); lra. Qed.
Lemma min3 a b c : Rmin a (Rmin b c) = Rmin (Rmin a b) c.
Proof. unfold Rmin. repeat destruct (Rle_dec _ _); lra. Qed.
Lemma hyb_same (v : vehicle R) e p m l q c old : comparable v ->
  r_set_hybrid_cont_calcs v e p m l q c old = Ok (set_hybrid_cont_calcs v e p m l q c old).
Proof.
  intros V. unfold r_set_hybrid_cont_calcs, set_hybrid_cont_calcs.
  change (r_regen_buff v e p l old) with (calc_regen_buff v e p l old).
  assert (AB : r_accel_buff v e p l old = calc_accel_buff v e p l old).
  { unfold r_accel_buff, calc_accel_buff. destruct (no_elec_sys v) eqn:N; [reflexivity|]. pose proof (cp_kwh v V N) as K.
    assert (E : forall x : R, ndiv (nmul x (ess_max_kwh v)) (ess_max_kwh v) = x) by (intros x; unR; field; exact K).
    rewrite E. reflexivity. }
  rewrite AB. destruct (calc_regen_buff v e p l old) as [[rb rbd] rbc]. destruct (calc_accel_buff v e p l old) as [[ab abc] abd].
  change (r_accel_regen_dischg v e p l rb rbd ab abc) with (calc_accel_regen_dischg v e p l rb rbd ab abc).
  set (ard := calc_accel_regen_dischg _ _ _ _ _ _ _ _). rewrite (peak_ok v (cp_engine v V)). cbn [bindR].
  set (gap := nabs _).
  assert (F : r_mc_for_max_fc_eff v (trans_kw_out_ach q) gap (max_fc_eff_kw v) = Ok (calc_mc_for_max_fc_eff v (trans_kw_out_ach q) gap) /\
              r_elec_req_4ae v (trans_kw_in_ach q) (aux_in_kw m) = Ok (calc_elec_req_4ae v (trans_kw_in_ach q) (aux_in_kw m))).
  { destruct (cp_motor v V) as [M|(_ & N & _)].
    - split; [apply for_max_fc_eff; auto|apply req_4ae, M]. unfold gap. unR. apply Rabs_pos.
    - unfold r_mc_for_max_fc_eff, calc_mc_for_max_fc_eff, r_elec_req_4ae, calc_elec_req_4ae. rewrite N. split; reflexivity. }
  destruct F as [-> ->]. cbn [bindR]. f_equal.
  assert (CE : forall r, r_can_pwr_all_elec v e p l ab (trans_kw_in_ach q) r = calc_can_pwr_all_elec v e p l ab (trans_kw_in_ach q) r) by reflexivity.
  rewrite CE. set (can := calc_can_pwr_all_elec _ _ _ _ _ _ _). set (des := if can then _ else _).
  assert (EE : forall a b c d : R, nmax a (nmax b (nmax c d)) = nmax (nmax (nmax a b) c) d) by (intros; rewrite !nmax_R, !max3; reflexivity).
  rewrite EE. reflexivity.
Qed.

(** ** set_fc_forced_state *)
Lemma forced_same (v : vehicle R) e q h : comparable v -> r_set_fc_forced_state v e q h = Ok (set_fc_forced_state v e q h).
Proof.
  intros V. unfold r_set_fc_forced_state, set_fc_forced_state. rewrite (peak_ok v (cp_engine v V)). cbn [bindR].
  repeat match goal with |- context [if ?b then _ else _] => destruct b end; reflexivity.
Qed.

(** ** set_hybrid_cont_decisions *)
Lemma dec_same (v : vehicle R) e p m l q h f c old : comparable v ->
  r_set_hybrid_cont_decisions v e p m l q h f c old = Ok (set_hybrid_cont_decisions v e p m l q h f c old).
Proof.
  intros V. unfold r_set_hybrid_cont_decisions, set_hybrid_cont_decisions. set (d0 := nsub (nopp _) _). set (des := if nltb _ _ then _ else _).
  assert (E1 : r_ess_if_fc_req v m l h des = calc_ess_if_fc_req v m l h des).
  { unfold r_ess_if_fc_req, calc_ess_if_fc_req. cbv zeta. rewrite !nmin_R, !nmax_R. rewrite !min3. unR.
    replace (- (1) * max_ess_regen_buff_chg_kw h) with (- max_ess_regen_buff_chg_kw h) by ring. reflexivity. }
  rewrite E1. set (essreq := calc_ess_if_fc_req _ _ _ _ _).
  assert (E2 : forall a b c : R, nmin a (nmin b c) = nmin (nmin a b) c) by (intros; rewrite !nmin_R; apply min3).
  rewrite E2. set (erreq := nmax n0 _).
  assert (E3 : forall el, r_mc_if_fc_req v el = Ok (calc_mc_if_fc_req v el)).
  { intros el. destruct (cp_motor v V) as [M|(_ & N & _)]; [apply if_fc_req, M|]. unfold r_mc_if_fc_req, calc_mc_if_fc_req. rewrite N. reflexivity. }
  rewrite E3. cbn [bindR]. change r_mc_mech_out with (@calc_mc_mech_out R RNum). set (mech := calc_mc_mech_out _ _ _ _ _ _).
  assert (E4 : r_mc_elec_in v mech = Ok (calc_mc_elec_in v mech)).
  { destruct (cp_motor v V) as [M|(M0 & _)]; [apply elec_in, M|].
    assert (MZ : mech = 0). { unfold mech, calc_mc_mech_out. unR. rewrite M0. destruct (Reqb_spec 0 0); congruence. }
    rewrite MZ. unfold r_mc_elec_in, calc_mc_elec_in. unR. destruct (Reqb_spec 0 0); [reflexivity|congruence]. }
  rewrite E4. cbn [bindR]. set (elin := calc_mc_elec_in v mech).
  assert (E5 : r_roadway v h c elin erreq = calc_roadway v h c elin erreq).
  { unfold r_roadway, calc_roadway. rewrite !nmax_R, !max3. reflexivity. }
  rewrite E5. set (rd := calc_roadway _ _ _ _ _). set (help := nsub (nsub (nadd elin _) _) rd).
  assert (E6 : r_ess_out v m l q h elin rd help des = calc_ess_out v m l q h elin rd help des).
  { unfold r_ess_out, calc_ess_out. cbv zeta. rewrite !nmax_R, !nmin_R, !max3.
    assert (MM : forall a b c, Rmin a (Rmin b c) = Rmin (Rmin c a) b).
    { intros. unfold Rmin. repeat destruct (Rle_dec _ _); lra. }
    rewrite MM. reflexivity. }
  rewrite E6. reflexivity.
Qed.
