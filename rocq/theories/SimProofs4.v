(** The search for the achievable speed. *)
From Verif Require Import Num Numpy ListFacts CycleModel CycleSpec VehModel SimModel SimState WalkModel
  FrameProofs WalkProofs StepEqs StepProofs SimSpec SimProofs1 SimProofs2 SimProofs3.
Local Open Scope R_scope.

(** ** The cubic is the wheel power balance *)
Lemma cubic_is_balance v pr (e : step_env R) l g v1 x : e_dt e <> 0 -> wheel_radius_m v <> 0 ->
  cub_y (speed_cubic v pr e v1 l g) x = wheel_kw v pr g v1 (e_dt e) x - cur_max_trans_kw_out l.
Proof.
  intros T W. unfold cub_y, speed_cubic, wheel_kw, drag_power, climb_power, roll_power, mean_kw, kinetic_J, wheels_J.
  cbn [t3 t2 t1 t0]. cbv zeta. toR. field. auto.
Qed.
Lemma cubic_slope (q : cubic (F := R)) x : derivable_pt_lim (cub_y q) x (cub_m q x).
Proof.
  apply (derivable_pt_lim_ext (fun y => t3 q * y ^ 3 + t2 q * y ^ 2 + t1 q * y + t0 q)).
  { intros y. unfold cub_y. toR. ring. }
  replace (cub_m q x) with (t3 q * (INR 3 * x ^ 2) + t2 q * (INR 2 * x ^ 1) + t1 q * 1 + 0)
    by (unfold cub_m; toR; cbn [INR]; ring).
  repeat apply derivable_pt_lim_plus.
  - apply derivable_pt_lim_scal, derivable_pt_lim_pow.
  - apply derivable_pt_lim_scal, derivable_pt_lim_pow.
  - apply derivable_pt_lim_scal, derivable_pt_lim_id.
  - apply derivable_pt_lim_const.
Qed.

(** ** The iterates *)
Section Newton.
  Variables (sp : simparams R) (q : cubic (F := R)).
  Let g := newton_gain sp.
  Let tol := newton_xtol sp.

  Lemma newton_rest_search fuel : forall x,
    newton_search (cub_y q) (cub_m q) g tol (S fuel) x (x :: newton_rest sp q fuel x).
  Proof.
    induction fuel as [|n IH]; intros x; cbn [newton_rest].
    - constructor; cbn [length nth_error]; auto; try lia.
      intros [|[|k]]; cbn; discriminate.
    - cbv zeta. toR. fold g tol.
      set (x' := x * (1 - g) - g * cub_b q x / cub_m q x).
      assert (NX : cub_m q x <> 0 -> x' = x - g * cub_y q x / cub_m q x).
      { intros Z. unfold x', cub_b. toR. field. exact Z. }
      destruct (Rltb_spec (Rabs ((x' - x) / x)) tol) as [L|L].
      + constructor; cbn [length]; auto; try lia.
        * intros [|[|k]] a b; cbn; try discriminate. intros [= <-] [= <-]. exact NX.
        * right. exists 0%nat, x, x'. cbn. auto.
      + specialize (IH x'). destruct IH as [I1 I2 I3 I4 I5].
        set (r := newton_rest sp q n x') in *.
        constructor; auto.
        * intros [|k] a b.
          -- cbn. intros [= <-] [= <-]. exact NX.
          -- cbn [nth_error]. apply I2.
        * cbn [length] in *. lia.
        * intros [|k] a b.
          -- cbn. intros [= <-] [= <-] _. lra.
          -- cbn [nth_error length]. intros A B C. apply (I4 k); auto. cbn [length]. lia.
        * destruct I5 as [I5|(k & a & b & K1 & K2 & K3 & K4)].
          -- left. cbn [length] in *. lia.
          -- right. exists (S k), a, b. cbn [length nth_error] in *. repeat split; auto.
  Qed.

  Lemma best_iterate_best xs : forall seen b, best_of (cub_y q) seen b ->
    best_of (cub_y q) (seen ++ xs) (best_iterate q b xs).
  Proof.
    induction xs as [|x xs IH]; intros seen b B; cbn [best_iterate]; [now rewrite app_nil_r|].
    replace (seen ++ x :: xs) with ((seen ++ [x]) ++ xs) by now rewrite <- app_assoc.
    apply IH. destruct B as (k & B1 & B2 & B3).
    assert (LK : (k < length seen)%nat) by (apply nth_error_Some; congruence).
    toR. destruct (Rltb_spec (Rabs (cub_y q x)) (Rabs (cub_y q b))) as [L|L].
    - exists (length seen). split; [now rewrite nth_error_app2, Nat.sub_diag by lia|]. split.
      + intros y Y. apply in_app_or in Y. destruct Y as [Y|[<-|[]]]; [|lra]. specialize (B2 _ Y). lra.
      + intros j y J Y. rewrite nth_error_app1 in Y by lia. specialize (B2 _ (nth_error_In _ _ Y)). lra.
    - exists k. split; [now rewrite nth_error_app1|]. split.
      + intros y Y. apply in_app_or in Y. destruct Y as [Y|[<-|[]]]; [|lra]. exact (B2 _ Y).
      + intros j y J Y. rewrite nth_error_app1 in Y by lia. eauto.
  Qed.

  Lemma newton_result v1 v n : (1 <= newton_max_iter sp)%nat -> newton_mps_estimate sp q v1 = (v, n) ->
    exists xs b, newton_search (cub_y q) (cub_m q) g tol (newton_max_iter sp) (Rmax 1 v1) xs /\
      best_of (cub_y q) xs b /\ v = Rmax b 0 /\ n = length xs.
  Proof.
    intros M H. unfold newton_mps_estimate in H. toR. injection H as <- <-.
    set (x0 := Rmax 1 v1). set (r := newton_rest sp q _ x0).
    exists (x0 :: r), (best_iterate q x0 r). split; [|split; [|split; reflexivity]].
    - replace (newton_max_iter sp) with (S (newton_max_iter sp - 1)) by lia. apply newton_rest_search.
    - change (x0 :: r) with ([x0] ++ r). apply best_iterate_best.
      exists 0%nat. split; auto. split; [intros y [<-|[]]; lra|intros; lia].
  Qed.
End Newton.

(** A search for a function equal to the cubic. *)
Lemma search_ext (f f2 f' : R -> R) g t m x0 xs : (forall x, f x = f2 x) ->
  newton_search f f' g t m x0 xs -> newton_search f2 f' g t m x0 xs.
Proof. intros E [A B C D G]. constructor; auto. intros k x x' K1 K2 K3. rewrite <- E. eauto. Qed.
Lemma best_ext (f f2 : R -> R) xs b : (forall x, f x = f2 x) -> best_of f xs b -> best_of f2 xs b.
Proof.
  intros E (k & A & B & C). exists k. split; auto. split.
  - intros x X. rewrite <- !E. auto.
  - intros j x J X. rewrite <- !E. eauto.
Qed.

(** The grades with which the search may be run: the estimate at the step's start, or the average
    grade over the distance covered at the speed found by an earlier round. *)
Lemma grade_loop_result v pr sp (e : step_env R) v1 l fuel : forall g r n,
  grade_loop v pr sp e v1 l g fuel = (r, n) ->
  exists g', (g' = g \/ exists x, 0 <= x /\ g' = e_grade e x) /\
    newton_mps_estimate sp (speed_cubic v pr e v1 l g') v1 = (r, n).
Proof.
  induction fuel as [|k IH]; intros g r n H; cbn [grade_loop] in H;
    destruct (newton_mps_estimate _ _ _) as [x m] eqn:E.
  - injection H as <- <-. exists g. auto.
  - destruct (nltb _ _).
    + destruct (IH _ _ _ H) as (g' & [->|(y & Y0 & Y)] & Q).
      * exists (e_grade e x). split; auto. right. exists x. split; auto.
        unfold newton_mps_estimate in E. injection E as <- _. rewrite nmax_R. apply Rmax_r.
      * exists g'. split; eauto.
    + injection H as <- <-. exists g. auto.
Qed.

(** The outcome of set_ach_speed at a step that is solved once. *)
Lemma est_on_trace d0 ovr d i : is_step d0 ovr d i -> follows_trace d0 -> d_cyc d0 = d_cyc0 d0 ->
  estimate_grade d i = nth i (grade (d_cyc0 d0)) 0.
Proof.
  intros H T C. rewrite <- (grade_on_trace d0 ovr d i 0 H T C). unfold estimate_grade, lookup_grade.
  destruct H as (W & R & Hi). destruct (run_starts _ _ _ W R) as (s & K). destruct T as (T1 & T2).
  rewrite (rs_sp _ _ _ K), T1, T2. reflexivity.
Qed.
(** The prescribed speed and grade of a followed trace. *)
Lemma mps_on_trace d0 ovr d i : is_step d0 ovr d i -> follows_trace d0 -> d_cyc d0 = d_cyc0 d0 ->
  nth i (mps (d_cyc d)) 0 = nth i (mps (d_cyc0 d0)) 0.
Proof.
  intros (W & R & Hi) T C. destruct (run_starts _ _ _ W R) as (s & K).
  rewrite (rs_cycmps _ _ _ K) by now apply replans_off. rewrite C. now destruct (changes_cycle _).
Qed.
Lemma achieved d0 ovr d i : is_step d0 ovr d i -> follows_trace d0 -> no_dilation d0 -> d_cyc d0 = d_cyc0 d0 ->
  increasing (time_s (d_cyc d0)) -> wheel_radius_m (d_veh d0) <> 0 ->
  let v := d_veh d0 in let pr := d_props d0 in let l := lims (row_at d i) in
  let want := nth i (mps (d_cyc0 d0)) 0 in let g := nth i (grade (d_cyc0 d0)) 0 in
  let v1 := speed d (i - 1) in let dt := step_dt d i in
  let need := gear_request (cur_max_mech_mc_kw_in l * trans_eff v)
                (regen_share v ((want * 2.2369 + v1 * 2.2369) / 2)) (wheel_kw v pr g v1 dt want) in
  (need <= cur_max_trans_kw_out l -> speed d i = want /\ newton_iters (spd (row_at d i)) = 0%nat) /\
  (cur_max_trans_kw_out l < need -> (1 <= newton_max_iter (d_sp d0))%nat ->
    exists f' xs b, 
      let f := fun x => wheel_kw v pr g v1 dt x - cur_max_trans_kw_out l in
      (forall x, derivable_pt_lim f x (f' x)) /\
      newton_search f f' (newton_gain (d_sp d0)) (newton_xtol (d_sp d0)) (newton_max_iter (d_sp d0)) (Rmax 1 v1) xs /\
      best_of f xs b /\ speed d i = Rmax b 0 /\ newton_iters (spd (row_at d i)) = length xs).
Proof.
  intros H T M C I RD v pr l want g v1 dt need.
  assert (DT : 0 < step_dt d i).
  { apply (run_dt_pos _ _ _ _ H). destruct H as (W & R & Hi). destruct (run_starts _ _ _ W R) as (s & K).
    rewrite (rs_times _ _ _ K M), <- C. now destruct (changes_cycle _). }
  open_step H. pose proof (op_step _ _ _ _ _ _ _ O) as S.
  pose proof (pt_speed _ _ _ _ _ _ _ _ (sr_parts _ _ _ _ _ _ _ S)) as P.
  destruct (sr_fresh _ _ _ _ _ _ _ S M) as (Z & _).
  assert (EM : e_mps e = want).
  { rewrite (sr_mps _ _ _ _ _ _ _ S (replans_off _ T)). exact (mps_on_trace _ _ _ _ H T C). }
  assert (EG : forall x, e_grade e x = g).
  { intros y. rewrite (sr_grade _ _ _ _ _ _ _ S). exact (grade_on_trace _ _ _ _ y H T C). }
  assert (EE : e_grade_est e = g).
  { rewrite (sr_est _ _ _ _ _ _ _ S). exact (est_on_trace _ _ _ _ H T C). }
  pose proof (op_dt _ _ _ _ _ _ _ O) as ED. fold dt in ED.
  unfold start_speed_of in P. rewrite Z in P. cbn [Nat.ltb Nat.leb] in P. rewrite EM in P.
  set (p0 := set_power_calcs _ _ _ _ _ want) in P. fold l in p0, P.
  assert (Q : pwr_eqs v pr e (row_at d (i - 1)) l want p0) by apply pwr_are.
  assert (WK : cyc_whl_kw_req p0 = wheel_kw v pr g v1 dt want).
  { rewrite (pw_whl _ _ _ _ _ _ _ Q), (pw_drag _ _ _ _ _ _ _ Q), (pw_accel _ _ _ _ _ _ _ Q),
      (pw_climb _ _ _ _ _ _ _ Q), (pw_roll _ _ _ _ _ _ _ Q), (pw_tire _ _ _ _ _ _ _ Q), EG, ED. reflexivity. }
  assert (NE : cyc_trans_kw_out_req p0 = need).
  { rewrite (pw_req _ _ _ _ _ _ _ Q), (pw_fric _ _ _ _ _ _ _ Q), (pw_regen _ _ _ _ _ _ _ Q), (pw_share _ _ _ _ _ _ _ Q), WK, EM.
    reflexivity. }
  pose proof (pw_met _ _ _ _ _ _ _ Q) as ME. rewrite NE in ME.
  unfold set_ach_speed in P. destruct (cyc_met p0).
  - injection P as _ P. split.
    + intros _. unfold speed. rewrite <- P. unfold mkspd_of. cbn. rewrite EM, Z. auto.
    + intros L. destruct ME as [ME _]. specialize (ME eq_refl). unfold l in *. lra.
  - split. { intros L. destruct ME as [_ ME]. discriminate (ME L). }
    intros _ MI. destruct (grade_loop _ _ _ _ _ _ _ _) as [x1 n1] eqn:G. injection P as _ P.
    destruct (grade_loop_result _ _ _ _ _ _ _ _ _ _ G) as (g' & G1 & G2).
    assert (EG' : g' = g). { destruct G1 as [->|(y & _ & ->)]; auto. } subst g'.
    fold (speed d (i - 1)) in G2. fold v1 in G2.
    set (c := speed_cubic _ _ _ _ _ _) in G2.
    destruct (newton_result _ _ _ _ _ MI G2) as (xs & b & N1 & N2 & N3 & N4).
    assert (EQ : forall y, cub_y c y = wheel_kw v pr g v1 dt y - cur_max_trans_kw_out l).
    { intros y. unfold c. rewrite cubic_is_balance, ED; auto. rewrite ED. apply Rgt_not_eq. exact DT. }
    exists (cub_m c), xs, b. cbv zeta. split.
    + intros y. apply (derivable_pt_lim_ext (cub_y c)); auto. apply cubic_slope.
    + split; [exact (search_ext _ _ _ _ _ _ _ _ EQ N1)|]. split; [exact (best_ext _ _ _ _ EQ N2)|].
      unfold speed. rewrite <- P. unfold mkspd_of. cbn. auto.
Qed.

(** The grade the search ends with when the speeds are replanned is not fixed in advance; the outcome
    is the same kind of search with some grade. *)
Lemma achieved_any d0 ovr d i : is_step d0 ovr d i -> increasing (time_s (d_cyc d)) ->
  wheel_radius_m (d_veh d0) <> 0 -> (1 <= newton_max_iter (d_sp d0))%nat -> no_dilation d0 ->
  newton_iters (spd (row_at d i)) <> 0%nat ->
  let v := d_veh d0 in let pr := d_props d0 in let l := lims (row_at d i) in
  let v1 := speed d (i - 1) in let dt := step_dt d i in
  exists g f' xs b,
      let f := fun x => wheel_kw v pr g v1 dt x - cur_max_trans_kw_out l in
      (g = estimate_grade d i \/ exists x, 0 <= x /\ g = lookup_grade d i (Some x)) /\
      (forall x, derivable_pt_lim f x (f' x)) /\
      newton_search f f' (newton_gain (d_sp d0)) (newton_xtol (d_sp d0)) (newton_max_iter (d_sp d0)) (Rmax 1 v1) xs /\
      best_of f xs b /\ speed d i = Rmax b 0 /\ newton_iters (spd (row_at d i)) = length xs.
Proof.
  intros H I RD MI M NI v pr l v1 dt. pose proof (run_dt_pos _ _ _ _ H I) as DT.
  open_step H. pose proof (op_step _ _ _ _ _ _ _ O) as S.
  pose proof (pt_speed _ _ _ _ _ _ _ _ (sr_parts _ _ _ _ _ _ _ S)) as P.
  destruct (sr_fresh _ _ _ _ _ _ _ S M) as (Z & _).
  pose proof (op_dt _ _ _ _ _ _ _ O) as ED. fold dt in ED.
  unfold set_ach_speed in P. destruct (cyc_met _).
  - injection P as _ P. exfalso. apply NI. rewrite <- P. exact Z.
  - destruct (grade_loop _ _ _ _ _ _ _ _) as [x1 n1] eqn:G. injection P as _ P.
    destruct (grade_loop_result _ _ _ _ _ _ _ _ _ _ G) as (g' & G1 & G2).
    fold (speed d (i - 1)) in G2. fold v1 l in G2.
    set (c := speed_cubic _ _ _ _ _ _) in G2.
    destruct (newton_result _ _ _ _ _ MI G2) as (xs & b & N1 & N2 & N3 & N4).
    assert (EQ : forall y, cub_y c y = wheel_kw v pr g' v1 dt y - cur_max_trans_kw_out l).
    { intros y. unfold c. rewrite cubic_is_balance, ED; auto. rewrite ED. apply Rgt_not_eq. exact DT. }
    exists g', (cub_m c), xs, b. cbv zeta. split; [|split].
    + rewrite (sr_est _ _ _ _ _ _ _ S) in G1. destruct G1 as [G1|(y & Y & G1)]; auto.
      right. exists y. split; auto. now rewrite <- (sr_grade _ _ _ _ _ _ _ S).
    + intros y. apply (derivable_pt_lim_ext (cub_y c)); auto. apply cubic_slope.
    + split; [exact (search_ext _ _ _ _ _ _ _ _ EQ N1)|]. split; [exact (best_ext _ _ _ _ EQ N2)|].
      unfold speed. rewrite <- P. unfold mkspd_of. cbn. auto.
Qed.

(** Speeds are nonnegative if the prescribed ones are. *)
Lemma speed_nonneg d0 ovr d : wf_sd d0 -> run d0 ovr d -> follows_trace d0 -> d_cyc d0 = d_cyc0 d0 ->
  (forall x, In x (mps (d_cyc0 d0)) -> 0 <= x) -> forall i, (i < length (d_rows d))%nat -> 0 <= speed d i.
Proof.
  intros W R T C NN.
  assert (NTH : forall i, 0 <= nth i (mps (d_cyc0 d0)) 0).
  { intros i. destruct (Nat.lt_ge_cases i (length (mps (d_cyc0 d0)))) as [L|L]; [apply NN, nth_In; lia|].
    rewrite nth_overflow by lia. lra. }
  intros [|i] L.
  - destruct (run_starts _ _ _ W R) as (s & K). change (speed d 0) with (mps_ach_at d 0).
    rewrite (rs_mps _ _ _ K). apply NTH.
  - assert (H : is_step d0 ovr d (S i)) by (split; [exact W|split; [exact R|lia]]).
    open_step H. pose proof (op_step _ _ _ _ _ _ _ O) as S.
    pose proof (pt_speed _ _ _ _ _ _ _ _ (sr_parts _ _ _ _ _ _ _ S)) as P.
    unfold set_ach_speed in P. unfold speed. destruct (cyc_met _).
    + injection P as _ <-. cbn. rewrite (sr_mps _ _ _ _ _ _ _ S (replans_off _ T)).
      change (cmps (d_cyc d) (Datatypes.S i)) with (nth (Datatypes.S i) (mps (d_cyc d)) 0).
      rewrite (mps_on_trace _ _ _ _ H T C). apply NTH.
    + destruct (grade_loop _ _ _ _ _ _ _ _) as [x1 n1] eqn:G. injection P as _ <-.
      destruct (grade_loop_result _ _ _ _ _ _ _ _ _ _ G) as (g' & _ & G2).
      unfold newton_mps_estimate in G2. injection G2 as <- _. cbn. rewrite nmax_R. apply Rmax_r.
Qed.
(** Speed in mph, distance. *)
Lemma speed_units d0 ovr d i : is_step d0 ovr d i ->
  mph_ach (spd (row_at d i)) = speed d i * 2.2369 /\
  dist_m_ach (spd (row_at d i)) = speed d i * step_dt d i /\
  dist_mi_ach (spd (row_at d i)) = speed d i * step_dt d i / 1609.
Proof.
  intros H. open_step H. pose proof (op_step _ _ _ _ _ _ _ O) as S.
  pose proof (pt_speed _ _ _ _ _ _ _ _ (sr_parts _ _ _ _ _ _ _ S)) as P.
  assert (Q : exists n x, spd (row_at d i) = mkspd_of e n x).
  { unfold set_ach_speed in P. destruct (cyc_met _).
    - injection P as _ P. rewrite <- P. eauto.
    - destruct (grade_loop _ _ _ _ _ _ _ _) as [x1 n1]. injection P as _ P. rewrite <- P. eauto. }
  destruct Q as (n & y & Q). unfold speed. rewrite Q. unfold mkspd_of.
  cbn [mph_ach dist_m_ach dist_mi_ach mps_ach]. rewrite (op_dt _ _ _ _ _ _ _ O). unfold MPH_PER_MPS, M_PER_MI. toR.
  split; [lra|]. split; [reflexivity|]. field.
Qed.
