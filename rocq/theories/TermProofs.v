(** Termination (C38): the bounds on loops and recursions in the model are never reached, so the loops of
    the code end. *)
From Coq Require Import Lia.
From Verif Require Import Num Numpy ListFacts CycleModel CycleSpec VehModel SimModel SimState WalkModel
  FrameProofs WalkProofs StepProofs SimSpec SimProofs1 WalkSpec WalkProofs2 WalkProofs3.
Local Open Scope R_scope.

Definition nf {A} (r : Res A) : Prop := r <> Err OutOfFuel.
Lemma nf_ok {A} (x : A) : nf (Ok x).
Proof. discriminate. Qed.
Lemma nf_bind {A B} (r : Res A) (k : A -> Res B) : nf r -> (forall x, r = Ok x -> nf (k x)) -> nf (bindR r k).
Proof. intros H K. destruct r as [x|e]; cbn; [now apply K|]. intros Q. apply H. congruence. Qed.
Lemma nf_assert b : nf (assertR b).
Proof. destruct b; discriminate. Qed.
Create HintDb nf.
Global Hint Resolve nf_ok nf_assert : nf.
Ltac nf1 :=
  match goal with
  | |- nf (bindR _ _) => apply nf_bind; [|intros ? ?]
  | |- nf (let '(_, _) := ?x in _) => destruct x
  | |- nf (if ?b then _ else _) => destruct b eqn:?
  | |- nf (match ?x with _ => _ end) => destruct x eqn:?
  | |- nf (Err _) => discriminate
  | |- nf (Ok _) => discriminate
  | |- nf _ => solve [auto with nf]
  end.
Ltac nfs := cbv zeta; repeat (nf1; cbv zeta).

Section NF.
  Context {F : Type} {N : Num F}.
  Lemma pyget_nf {A} (l : list A) z : nf (pyget l z).
  Proof. unfold pyget. nfs. Qed.
  Hint Resolve pyget_nf : nf.
  Lemma dt_nf (c : cyc F) i : nf (dt_s_at_i c i).
  Proof. unfold dt_s_at_i. nfs. Qed.
  Lemma start_nf (c : cyc F) i : nf (trapz_step_start_distance c i).
  Proof. unfold trapz_step_start_distance. nfs. Qed.
  Hint Resolve dt_nf start_nf : nf.
  Lemma avg_nf (c : cyc F) i : nf (average_step_speed_at c i).
  Proof. unfold average_step_speed_at. nfs. Qed.
  Hint Resolve avg_nf : nf.
  Lemma interp_grade_nf k (x : F) : nf (interp_grade k x).
  Proof. unfold interp_grade. nfs. Qed.
  Hint Resolve interp_grade_nf : nf.
  Lemma avg_grade_nf (c : cyc F) x y k : nf (average_grade_over_range c x y k).
  Proof. unfold average_grade_over_range. nfs. Qed.
  Lemma next_stop_nf (c : cyc F) x k : nf (calc_distance_to_next_stop_from c x k).
  Proof. unfold calc_distance_to_next_stop_from. nfs. Qed.
  Lemma jerk_nf n (a b c d e : F) : nf (calc_constant_jerk_trajectory n a b c d e).
  Proof. unfold calc_constant_jerk_trajectory. nfs. Qed.
  Hint Resolve avg_grade_nf next_stop_nf jerk_nf : nf.
  Lemma mod_jerk_nf (c : cyc F) i n a b : nf (modify_by_const_jerk_trajectory c i n a b).
  Proof. unfold modify_by_const_jerk_trajectory. nfs. Qed.
  Hint Resolve mod_jerk_nf : nf.
  Lemma mod_brake_nf (c : cyc F) b i o : nf (modify_with_braking_trajectory c b i o).
  Proof. unfold modify_with_braking_trajectory. nfs. Qed.
  Lemma passing_loop_nf (c c0 : cyc F) i tol : forall fuel di a b x y, nf (passing_loop c c0 i di fuel a b x y tol).
  Proof. induction fuel as [|f IH]; intros; cbn [passing_loop]; nfs; apply IH. Qed.
  Hint Resolve mod_brake_nf passing_loop_nf : nf.
  Lemma detect_nf (c c0 : cyc F) i tol : nf (detect_passing c c0 i tol).
  Proof. unfold detect_passing. nfs. Qed.
  Hint Resolve detect_nf : nf.
  Lemma next_idm_nf (d : sdrive F) i a b c e f g : nf (next_speed_by_idm d i a b c e f g).
  Proof. unfold next_speed_by_idm. nfs. Qed.
  Hint Resolve next_idm_nf : nf.
  Lemma gap_nf (d : sdrive F) i : nf (set_speed_for_target_gap d i).
  Proof. unfold set_speed_for_target_gap. nfs. Qed.
  Lemma target_nf (d : sdrive F) i : nf (idm_target d i).
  Proof. unfold idm_target. nfs. Qed.
  Lemma inner_nf (d : sdrive F) ug : forall n a b c e f g h, nf (coast_inner d ug n a b c e f g h).
  Proof. induction n as [|n IH]; intros; cbn [coast_inner]; nfs; apply IH. Qed.
  Hint Resolve gap_nf target_nf inner_nf : nf.
  Lemma coast_loop_nf (d : sdrive F) ug p q r s t : forall fuel v x acc it ix,
    nf (coast_loop fuel d ug p q r s t v x acc it ix).
  Proof. induction fuel as [|f IH]; intros; cbn [coast_loop]; nfs; apply IH. Qed.
  Hint Resolve coast_loop_nf : nf.
  Lemma generate_nf (d : sdrive F) i m : nf (generate_coast_trajectory d i m).
  Proof. unfold generate_coast_trajectory. nfs. Qed.
  Hint Resolve generate_nf : nf.
  Lemma stop_coast_nf (d : sdrive F) i : nf (calc_distance_to_stop_coast_v2 d i).
  Proof. unfold calc_distance_to_stop_coast_v2. nfs. Qed.
  Hint Resolve stop_coast_nf : nf.
  Lemma should_nf (d : sdrive F) i : nf (should_impose_coast d i).
  Proof. unfold should_impose_coast. nfs. Qed.
  Hint Resolve should_nf : nf.
  Lemma rdv_loop_nf (d : sdrive F) i h a b c e f g : forall fuel ix pl best,
    nf (rdv_loop fuel d i ix pl h a b c e f g best).
  Proof. induction fuel as [|k IH]; intros; cbn [rdv_loop]; nfs; apply IH. Qed.
  Hint Resolve rdv_loop_nf : nf.
  Lemma rdv_nf (d : sdrive F) i a b : nf (calc_next_rendezvous_trajectory d i a b).
  Proof. unfold calc_next_rendezvous_trajectory. nfs. Qed.
  Lemma delay_nf (d : sdrive F) i : nf (set_coast_delay d i).
  Proof. unfold set_coast_delay. nfs. Qed.
  Lemma cand_nf (d : sdrive F) p f i n : nf (collision_candidate d p f i n).
  Proof. unfold collision_candidate. nfs. Qed.
  Hint Resolve rdv_nf delay_nf cand_nf : nf.
  Lemma scan_nf (d : sdrive F) p fb i : forall fuel ix best, nf (collision_scan fuel d p fb i ix best).
  Proof. induction fuel as [|k IH]; intros; cbn [collision_scan]; nfs; apply IH. Qed.
  Hint Resolve scan_nf : nf.
  Lemma search_nf (d : sdrive F) p i : forall l, nf (collision_search l d p i).
  Proof. induction l as [|a l IH]; cbn [collision_search]; nfs; apply IH. Qed.
  Lemma apply_nf (d : sdrive F) q : nf (apply_collision d q).
  Proof. unfold apply_collision. nfs. Qed.
  Lemma adjust_nf (d : sdrive F) i a : nf (adjust_coast d i a).
  Proof. unfold adjust_coast. nfs. Qed.
  Hint Resolve search_nf apply_nf adjust_nf : nf.
  Lemma init_nf (d : sdrive F) s o : nf (init_for_step d s o).
  Proof. unfold init_for_step. nfs. Qed.
End NF.
Global Hint Resolve pyget_nf dt_nf start_nf avg_nf interp_grade_nf avg_grade_nf next_stop_nf jerk_nf mod_jerk_nf mod_brake_nf
  passing_loop_nf detect_nf next_idm_nf gap_nf target_nf inner_nf coast_loop_nf generate_nf stop_coast_nf should_nf
  rdv_loop_nf rdv_nf delay_nf cand_nf scan_nf search_nf apply_nf adjust_nf init_nf : nf.

(** ** Collision prevention *)
Definition next_tol (tol : R) : R := if Rlt_dec tol 10 then 10 else tol + 5.
Lemma prevent_step f (d : sdrive R) i tol : (next_tol tol <= 60 -> nf (prevent_collisions_f f d i (next_tol tol))) ->
  nf (prevent_collisions_f (S f) d i tol).
Proof.
  intros H. cbn [prevent_collisions_f]. unR.
  apply nf_bind; [auto with nf|intros p _]. destruct (negb (has_collision p)); [discriminate|].
  apply nf_bind; [auto with nf|intros _ _]. apply nf_bind; [auto with nf|intros b _].
  destruct b as [q|]; [apply nf_bind; [auto with nf|discriminate]|]. cbv zeta.
  assert (E : (if Rltb tol 10 then 10 else tol + 5) = next_tol tol).
  { unfold next_tol. destruct (Rltb_spec tol 10), (Rlt_dec tol 10); auto; lra. }
  rewrite E. destruct (Rltb_spec 60 (next_tol tol)); [discriminate|]. apply H. lra.
Qed.
Lemma prevent_f_nf : forall f (d : sdrive R) i tol, 10 <= tol -> 60 < tol + 5 * (INR f + 1) ->
  nf (prevent_collisions_f (S f) d i tol).
Proof.
  induction f as [|f IH]; intros d i tol T H; apply prevent_step; intros Q; unfold next_tol in *;
    destruct (Rlt_dec tol 10); try lra.
  - cbn [INR] in H. lra.
  - rewrite S_INR in H. apply IH; lra.
Qed.
Lemma prevent_12 (d : sdrive R) i tol : nf (prevent_collisions_f 12 d i tol).
Proof.
  destruct (Rlt_le_dec tol 10) as [L|L].
  - apply prevent_step. intros _. unfold next_tol. destruct (Rlt_dec tol 10); [|lra]. apply prevent_f_nf; cbn [INR]; lra.
  - apply prevent_f_nf; cbn [INR]; lra.
Qed.
Lemma prevent_nf (d : sdrive R) i tol : nf (prevent_collisions d i tol).
Proof. apply prevent_12. Qed.
(** A larger bound on the recursion changes nothing. *)
Lemma prevent_more {F} {N : Num F} : forall f (d : sdrive F) i tol, nf (prevent_collisions_f f d i tol) ->
  forall g, (f <= g)%nat -> prevent_collisions_f g d i tol = prevent_collisions_f f d i tol.
Proof.
  induction f as [|f IH]; intros d i tol H g L; [now destruct H|].
  destruct g as [|g]; [lia|]. cbn [prevent_collisions_f] in *.
  destruct (detect_passing _ _ _ _) as [p|]; cbn [bindR] in *; auto. destruct (negb (has_collision p)); auto.
  destruct (assertR _); cbn [bindR] in *; auto. destruct (collision_search _ _ _ _) as [[q|]|]; cbn [bindR] in *; auto.
  cbv zeta in *. destruct (_ >? _)%num in *; auto. apply IH; auto. lia.
Qed.
Lemma prevent_false {F} {N : Num F} : forall f (d : sdrive F) i tol d', prevent_collisions_f f d i tol = Ok (d', false) -> d' = d.
Proof.
  induction f as [|f IH]; intros d i tol d' H; [discriminate|]. cbn [prevent_collisions_f] in H.
  inv_ok H. if_in H; [congruence|]. inv_ok H. inv_ok H. destruct x1 as [q|].
  - inv_ok H. discriminate.
  - cbv zeta in H. if_in H; [congruence|]. eauto.
Qed.

(** ** Whole runs *)
Lemma start_coast_nf (d : sdrive R) i : nf (start_coast d i).
Proof. unfold start_coast. nfs. apply prevent_nf. Qed.
Lemma coast_speed_nf (d : sdrive R) i : nf (set_coast_speed d i).
Proof. unfold set_coast_speed. nfs; first [apply start_coast_nf|apply prevent_nf]. Qed.
Lemma plan_nf (d : sdrive R) : nf (plan d).
Proof. unfold plan. nfs. apply coast_speed_nf. Qed.
Lemma step_nf (d : sdrive R) : (1 <= d_i d < length (d_rows d))%nat -> length (d_rows d) = length (time_s (d_cyc d)) ->
  nf (sim_drive_step d).
Proof.
  intros HI HR. rewrite step_is_plan. apply nf_bind; [apply plan_nf|]. intros d2 E. cbv zeta.
  pose proof (plan_frame d d2 (proj2 HI) E) as FR.
  apply nf_bind; [|intros; discriminate]. destruct (_ && _)%bool; [|discriminate].
  assert (HL2 : (d_i d < length (d_rows d2))%nat) by (rewrite (fr_len _ _ _ FR); lia).
  pose proof (solve_step_solved (d_i d) d2 HL2) as SV.
  destruct (dilation_total (d_i d) (solve_step d2 (d_i d))) as (d' & ts & Q & _).
  - rewrite (sv_len _ _ _ SV). lia.
  - rewrite (sv_cyc _ _ _ SV), (fr_time _ _ _ FR). lia.
  - rewrite Q. discriminate.
Qed.
Lemma loop_nf : forall n (d : sdrive R), (1 <= d_i d)%nat -> length (d_rows d) = length (time_s (d_cyc d)) ->
  (length (time_s (d_cyc d)) <= d_i d + n)%nat -> nf (walk_loop n d).
Proof.
  induction n as [|n IH]; intros d H1 HR HN; cbn [walk_loop]; destruct (Nat.ltb_spec (d_i d) (length (time_s (d_cyc d)))) as [L|L];
    try discriminate; [lia|].
  apply nf_bind; [apply step_nf; lia|]. intros d1 E. pose proof (step_stepped d d1 ltac:(lia) E) as ST.
  apply IH; rewrite ?(st_i _ _ _ ST), ?(st_len _ _ _ ST), ?(st_tlen _ _ _ ST); lia.
Qed.
Lemma walk_nf (d : sdrive R) s ovr : wf_sd d -> nf (sim_drive_walk d s ovr).
Proof.
  intros W. unfold sim_drive_walk. apply nf_bind; [auto with nf|]. intros d1 E.
  destruct (init_shape _ _ _ _ W E) as (A & B & C & D).
  apply nf_bind; [apply loop_nf; lia|discriminate].
Qed.
Lemma drive_nf (d : sdrive R) s ovr : wf_sd d -> nf (sim_drive d s ovr).
Proof.
  intros W. destruct s as [s|]; [apply walk_nf; exact W|].
  destruct (veh_pt_type (d_veh d)) eqn:T; try (unfold sim_drive; rewrite T; apply walk_nf; exact W).
  intros H. destruct (hev_error _ _ _ W T H) as (k & dk & sk & n & B & Q).
  apply (walk_nf (with_count dk n) sk ovr); auto. apply (balancing_facts _ _ W _ _ _ B).
Qed.
Lemma prevent_retry f (d : sdrive R) (i : nat) (tol : R) p :
  detect_passing (d_cyc d) (d_cyc0 d) i tol = Ok p -> has_collision p = true ->
  coast_brake_accel_m_per_s2 (d_sp d) < 0 -> collision_search [0; 1; 2; 3]%nat d p i = Ok None ->
  prevent_collisions_f (S f) d i tol =
  if Rlt_dec 60 (Rmax 10 (tol + 5)) then Ok (d, false) else prevent_collisions_f f d i (if Rlt_dec tol 10 then 10 else tol + 5).
Proof.
  intros P C B S. cbn [prevent_collisions_f]. rewrite P. cbn [bindR]. rewrite C. cbn [negb].
  assert (A : (coast_brake_accel_m_per_s2 (d_sp d) <? n0)%num = true) by (unR; now apply Rltb_true).
  rewrite A. cbn [assertR bindR]. rewrite S. cbn [bindR]. cbv zeta. unR.
  destruct (Rltb_spec tol 10), (Rlt_dec tol 10); try lra.
  - destruct (Rltb_spec 60 10), (Rlt_dec 60 (Rmax 10 (tol + 5))) as [Q|Q]; auto; try lra.
    unfold Rmax in Q. destruct (Rle_dec _ _); lra.
  - destruct (Rltb_spec 60 (tol + 5)) as [L|L], (Rlt_dec 60 (Rmax 10 (tol + 5))) as [Q|Q]; auto; unfold Rmax in Q; destruct (Rle_dec _ _); lra.
Qed.
