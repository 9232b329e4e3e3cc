(** Proofs for C37, C38 and C40: time dilation, collision prevention, car following. *)
From Coq Require Import Lia Sorting.Sorted.
From Verif Require Import Num Numpy ListFacts CycleModel CycleSpec ConcatProofs DistProofs VehModel SimModel SimState WalkModel
  FrameProofs WalkProofs StepProofs SimSpec SimProofs1 SimProofs2 SimProofs3 WalkSpec WalkProofs2.
Local Open Scope R_scope.

(** ** Time dilation *)
Lemma growth_app a b : growth (a ++ b) = growth a * growth b.
Proof. unfold growth. induction a as [|x a IH]; cbn; [lra|]. rewrite IH. lra. Qed.
Lemma growth_one t : growth [t] = 1 + t.
Proof. unfold growth; cbn; lra. Qed.
Lemma stretched_nil i d : stretched i [] d d.
Proof.
  constructor; auto.
  - intros j _. unfold growth; cbn. lra.
  - repeat split.
Qed.
Lemma dilate_time (d : sdrive R) i t j : (j < length (time_s (d_cyc d)))%nat ->
  nth j (time_s (d_cyc (dilate d i t))) 0 =
  nth j (time_s (d_cyc d)) 0 + (if Nat.ltb j i then 0 else cdt (d_cyc d) i * t).
Proof.
  intros L. unfold dilate; cbn [with_cyc d_cyc time_s]. rewrite (mapi_from_nth _ _ 0 j 0) by auto.
  rewrite Nat.add_0_l. destruct (Nat.ltb j i); unR; lra.
Qed.
Lemma stretch_more i ts t d d1 d2 : (1 <= i < length (d_rows d))%nat -> (i < length (time_s (d_cyc d)))%nat ->
  stretched i ts d d1 -> tpre i (dilate d1 i t) d2 -> time_s (d_cyc d2) = time_s (d_cyc (dilate d1 i t)) ->
  trace_miss_iters (ctl (row_at d2 i)) = S (trace_miss_iters (ctl (row_at d1 i))) ->
  stretched i (ts ++ [t]) d d2.
Proof.
  intros [H1 HR] HT [B A L RS [RL RW] IT] T TT MI.
  assert (DT : cdt (d_cyc d1) i = step_dt d i * growth ts).
  { rewrite cdt_step by auto. unfold step_dt at 1. rewrite (B (i - 1)%nat), (A i) by lia. unfold step_dt. lra. }
  assert (LD : length (time_s (d_cyc (dilate d1 i t))) = length (time_s (d_cyc d))).
  { cbn. now rewrite mapi_from_length. }
  constructor.
  - intros j Hj. rewrite TT, dilate_time by (rewrite L; lia). apply Nat.ltb_lt in Hj as Hj'. rewrite Hj', B by auto. lra.
  - intros j Hj. rewrite TT, dilate_time by (rewrite L; lia). destruct (Nat.ltb_spec j i); [lia|].
    rewrite A by auto. rewrite DT, growth_app, growth_one. lra.
  - now rewrite TT.
  - destruct RS as (r1 & r2 & r3 & r4 & r5 & r6 & r7 & r8). destruct (tp_fixed _ _ _ T) as (f1 & f2 & f3 & f4 & f5 & f6 & f7).
    pose proof (tp_mps _ _ _ T) as M. pose proof (tp_grade _ _ _ T) as G. pose proof (tp_rt _ _ _ T) as Q.
    cbn in f1, f2, f3, f4, f5, f6, M, G, Q.
    split; [congruence|]. split; [congruence|]. split; [congruence|]. split; [congruence|]. split; [congruence|].
    split; [congruence|]. split; congruence.
  - split; [rewrite (tp_len _ _ _ T); exact RL|]. intros j Hj. rewrite (tp_rows _ _ _ T) by auto.
    rewrite <- RW by auto. reflexivity.
  - rewrite MI, IT, app_length. cbn. lia.
Qed.
Lemma firstn_seq {A B} (f : A -> B) (l : list A) (z : A) n : (n <= length l)%nat ->
  firstn n (map f l) = map (fun j => f (nth j l z)) (seq 0 n).
Proof.
  intros H. rewrite firstn_map. revert n H. induction l as [|a l IH]; intros [|n] H; cbn in *; auto; try lia.
  f_equal. rewrite IH by lia. rewrite <- seq_shift, map_map. reflexivity.
Qed.
Lemma short_spec (d : sdrive R) i : (i < length (d_rows d))%nat -> short_of d i = trace_dist d i - driven_dist d i.
Proof.
  intros H. unfold short_of, cyc0_dist_to, ach_dist_to, ach_dists, trace_dist, driven_dist. rewrite !nsum_Rsum.
  rewrite (firstn_seq _ _ zero_row) by lia. reflexivity.
Qed.
Lemma close_spec (d : sdrive R) i : (i < length (d_rows d))%nat -> dist_close d i = true <-> on_place d i.
Proof.
  intros H. unfold dist_close, on_place. rewrite short_spec by auto. unfold cyc0_dist_to. rewrite nsum_Rsum.
  unR. fold (trace_dist d i). apply Rltb_true.
Qed.
Lemma edge_spec (d : sdrive R) t : dilation_edge d t = true <->
  max_time_dilation (d_sp d) <= t \/ t <= min_time_dilation (d_sp d).
Proof. unfold dilation_edge. unR. rewrite Bool.orb_true_iff, !Rleb_true. tauto. Qed.
Lemma clamp_R (s : simparams R) x : clamp_dilation s x = Rmin (Rmax x (min_time_dilation s)) (max_time_dilation s).
Proof. unfold clamp_dilation. now rewrite nmin_R, nmax_R. Qed.
Lemma clamp_within (s : simparams R) x : within s (clamp_dilation s x).
Proof.
  rewrite clamp_R. unfold within. split; [|apply Rmin_r].
  unfold Rmin, Rmax. repeat destruct (Rle_dec _ _); lra.
Qed.
(** One more round on the object [d]. *)
Lemma solve_bump_more i t (d : sdrive R) : (1 <= i < length (d_rows d))%nat ->
  let d2 := bump_iters (solve_step (dilate d i t) i) i in
  tpre i (dilate d i t) d2 /\ time_s (d_cyc d2) = time_s (d_cyc (dilate d i t)) /\
  trace_miss_iters (ctl (row_at d2 i)) = S (trace_miss_iters (ctl (row_at d i))).
Proof.
  intros [H1 H2] d2. assert (HD : (i < length (d_rows (dilate d i t)))%nat) by auto.
  pose proof (solve_step_solved i _ HD) as SV.
  assert (HS : (i < length (d_rows (solve_step (dilate d i t) i)))%nat) by (rewrite (sv_len _ _ _ SV); auto).
  split; [|split].
  - eapply tpre_trans; [apply solved_tpre; eauto|apply bump_tpre; auto].
  - reflexivity.
  - unfold d2, bump_iters. rewrite upd_row_same by auto. cbn [row_ctl ctl ctl_iters trace_miss_iters].
    unfold solve_step. rewrite upd_row_same by auto. rewrite solve_row_ctl. reflexivity.
Qed.
Lemma bump_solve_more i t (d : sdrive R) : (1 <= i < length (d_rows d))%nat ->
  let d2 := solve_step (dilate (bump_iters d i) i t) i in
  tpre i (dilate d i t) d2 /\ time_s (d_cyc d2) = time_s (d_cyc (dilate d i t)) /\
  trace_miss_iters (ctl (row_at d2 i)) = S (trace_miss_iters (ctl (row_at d i))).
Proof.
  intros [H1 H2] d2. assert (HB : (i < length (d_rows (bump_iters d i)))%nat) by (unfold bump_iters; now rewrite upd_row_length).
  assert (HD : (i < length (d_rows (dilate (bump_iters d i) i t)))%nat) by auto.
  pose proof (solve_step_solved i _ HD) as SV.
  split; [|split].
  - eapply tpre_trans; [|apply solved_tpre; eauto]. exact (bump_tpre i (dilate d i t) H2).
  - reflexivity.
  - unfold d2, solve_step. rewrite upd_row_same by auto. rewrite solve_row_ctl.
    change (row_at (dilate (bump_iters d i) i t) i) with (row_at (bump_iters d i) i).
    unfold bump_iters. rewrite upd_row_same by auto. reflexivity.
Qed.
Lemma loop_stretch i d0 : (1 <= i < length (d_rows d0))%nat -> (i < length (time_s (d_cyc d0)))%nat ->
  forall fuel d ts t2 t1 s1 r, stretched i ts d0 d -> Forall (within (d_sp d0)) ts ->
  (max_trace_miss_iters (d_sp d0) - trace_miss_iters (ctl (row_at d i)) < fuel)%nat ->
  dilation_loop fuel d i t2 t1 s1 = r ->
  exists d' us t, r = Ok d' /\ stretched i (ts ++ us ++ [t]) d0 d' /\ Forall (within (d_sp d0)) (ts ++ us ++ [t]) /\
    (length (us ++ [t]) <= Nat.max 1 (max_trace_miss_iters (d_sp d0) - trace_miss_iters (ctl (row_at d i))))%nat /\
    (stops (d_sp d0) d' i t \/ (max_trace_miss_iters (d_sp d0) <= trace_miss_iters (ctl (row_at d' i)))%nat).
Proof.
  intros HI HT. induction fuel as [|f IH]; intros d ts t2 t1 s1 r S W HF H; [lia|].
  cbn [dilation_loop] in H. cbv zeta in H.
  destruct (sx_rest _ _ _ _ S) as (_ & _ & _ & _ & _ & SP & _). destruct (sx_rows _ _ _ _ S) as (RL & _).
  set (t := clamp_dilation _ _) in H.
  assert (HI' : (1 <= i < length (d_rows d))%nat) by lia.
  destruct (solve_bump_more i t d HI') as (T & TT & MI). set (d1 := bump_iters _ i) in *.
  assert (S1 : stretched i (ts ++ [t]) d0 d1) by (eapply stretch_more; eauto).
  assert (WT : within (d_sp d0) t) by (rewrite <- SP; apply clamp_within).
  assert (W1 : Forall (within (d_sp d0)) (ts ++ [t])) by (apply Forall_app; auto).
  destruct (sx_rest _ _ _ _ S1) as (_ & _ & _ & _ & _ & SP1 & _). destruct (sx_rows _ _ _ _ S1) as (RL1 & _).
  destruct (dist_close d1 i || _ || _)%bool eqn:C.
  - exists d1, [], t. cbn [app]. split; [congruence|]. split; [exact S1|]. split; [exact W1|]. split; [cbn [length]; lia|].
    apply Bool.orb_true_iff in C. destruct C as [C|C]; [apply Bool.orb_true_iff in C; destruct C as [C|C]|].
    + left. left. apply close_spec; auto. lia.
    + right. apply Nat.leb_le in C. rewrite SP in C. exact C.
    + left. right. apply edge_spec in C. rewrite SP1 in C. exact C.
  - apply Bool.orb_false_iff in C. destruct C as [C _]. apply Bool.orb_false_iff in C. destruct C as [_ C].
    apply Nat.leb_gt in C. rewrite SP in C.
    destruct (IH d1 (ts ++ [t]) _ _ _ _ S1 W1 ltac:(lia) H) as (d' & us & u & E & S' & W' & L' & K).
    exists d', (t :: us), u. rewrite <- !app_assoc in *. cbn [app] in *. split; [exact E|]. split; [exact S'|].
    split; [exact W'|]. split; [|exact K]. cbn [length]. lia.
Qed.
Lemma dilation_total i d : (1 <= i < length (d_rows d))%nat -> (i < length (time_s (d_cyc d)))%nat ->
  exists d' ts, set_time_dilation d i = Ok d' /\ stretched i ts d d' /\ Forall (within (d_sp d)) ts /\
    (ts = [] <-> on_place d i \/ nth i (mps (d_cyc d)) 0 = 0) /\
    (ts = [] -> d' = d) /\
    (length ts <= Nat.max 2 (max_trace_miss_iters (d_sp d) - trace_miss_iters (ctl (row_at d i))))%nat /\
    (forall t, hd_error ts = Some t -> t = clamp_dilation (d_sp d)
        ((trace_dist d i - driven_dist d i) / step_dt (with_cyc d (d_cyc0 d)) i / speed d i)) /\
    (ts <> [] -> stops (d_sp d) d' i (last ts 0) \/
      (max_trace_miss_iters (d_sp d) <= trace_miss_iters (ctl (row_at d' i)) /\ 2 <= length ts)%nat).
Proof.
  intros HI HT. unfold set_time_dilation. unR. change (cmps (d_cyc d) i) with (nth i (mps (d_cyc d)) 0).
  destruct (dist_close d i) eqn:C1; cbn [orb].
  { exists d, []. split; [reflexivity|]. split; [apply stretched_nil|]. split; [constructor|].
    apply close_spec in C1; [|lia]. split; [tauto|]. split; [auto|]. split; [cbn [length]; lia|]. split; [discriminate|]. congruence. }
  destruct (Reqb_spec (nth i (mps (d_cyc d)) 0) 0) as [C2|C2].
  { exists d, []. split; [reflexivity|]. split; [apply stretched_nil|]. split; [constructor|].
    split; [tauto|]. split; [auto|]. split; [cbn [length]; lia|]. split; [discriminate|]. congruence. }
  assert (NP : ~ on_place d i) by (rewrite <- close_spec by lia; congruence).
  cbv zeta. set (t := clamp_dilation _ _).
  destruct (bump_solve_more i t d HI) as (T & TT & MI). set (d1 := solve_step _ i) in *.
  assert (S1 : stretched i [t] d d1) by (apply (stretch_more i [] t d d); auto using stretched_nil).
  assert (W1 : Forall (within (d_sp d)) [t]) by (constructor; [apply clamp_within|constructor]).
  destruct (sx_rest _ _ _ _ S1) as (_ & _ & _ & _ & _ & SP1 & _). destruct (sx_rows _ _ _ _ S1) as (RL1 & _).
  assert (HD : t = clamp_dilation (d_sp d)
        ((trace_dist d i - driven_dist d i) / step_dt (with_cyc d (d_cyc0 d)) i / speed d i)).
  { unfold t. f_equal. rewrite short_spec by lia. change (cdt (d_cyc0 d) i) with (cdt (d_cyc (with_cyc d (d_cyc0 d))) i).
    rewrite cdt_step by lia. reflexivity. }
  destruct (dist_close d1 i || dilation_edge d1 t)%bool eqn:C.
  - exists d1, [t]. split; [reflexivity|]. split; [exact S1|]. split; [exact W1|].
    split; [split; [discriminate|tauto]|]. split; [discriminate|]. split; [cbn [length]; lia|].
    split; [intros u [= <-]; exact HD|]. intros _. left. cbn [last].
    apply Bool.orb_true_iff in C. destruct C as [C|C].
    + left. apply close_spec; auto. lia.
    + right. apply edge_spec in C. now rewrite SP1 in C.
  - destruct (loop_stretch i d HI HT (S (max_trace_miss_iters (d_sp d))) d1 [t] n0 t (short_of d i) _ S1 W1 ltac:(lia) eq_refl)
      as (d' & us & u & E & S' & W' & L' & K).
    exists d', ([t] ++ us ++ [u]). split; [exact E|]. split; [exact S'|]. split; [exact W'|].
    split; [split; [discriminate|tauto]|]. split; [discriminate|].
    split; [cbn [app length]; rewrite MI in L'; lia|]. split; [intros x [= <-]; exact HD|].
    intros _. rewrite app_assoc, last_last. destruct K as [K|K]; [left; exact K|]. right. split; [exact K|].
    rewrite !app_length. cbn. lia.
Qed.
Lemma growth_pos ts s : Forall (within s) ts -> -1 < min_time_dilation s -> -1 < max_time_dilation s -> 0 < growth ts.
Proof.
  intros H A B. induction H as [|t ts [H1 H2] _ IH]; unfold growth; cbn; [lra|]. apply Rmult_lt_0_compat; auto.
  unfold Rmin in H1. destruct (Rle_dec _ _); lra.
Qed.
Lemma inc_nth l : increasing l <-> forall a b, (a < b)%nat -> (b < length l)%nat -> nth a l 0 < nth b l 0.
Proof.
  split.
  - intros H a b L B. apply (H a b); auto; apply nth_error_nth'; lia.
  - intros H a b x y L X Y. assert (B : (b < length l)%nat) by (apply nth_error_Some; congruence).
    specialize (H a b L B). apply nth_error_nth with (d := 0) in X, Y. lra.
Qed.
Lemma stretched_increasing i ts d d' : (1 <= i)%nat -> stretched i ts d d' -> 0 < growth ts ->
  increasing (time_s (d_cyc d)) -> increasing (time_s (d_cyc d')).
Proof.
  intros H1 [B A L _ _ _] G I. rewrite inc_nth in *. rewrite L. intros a b Hb Hl.
  destruct (Nat.lt_ge_cases b i) as [Q|Q].
  - rewrite !B by lia. apply I; auto.
  - rewrite (A b) by lia. destruct (Nat.lt_ge_cases a i) as [P|P].
    + rewrite B by auto. unfold step_dt. pose proof (I (i - 1)%nat i ltac:(lia) ltac:(lia)) as D.
      assert (X : nth a (time_s (d_cyc d)) 0 <= nth (i - 1) (time_s (d_cyc d)) 0).
      { destruct (Nat.eq_dec a (i - 1)) as [->|]; [lra|]. left. apply I; lia. }
      assert (Y : nth i (time_s (d_cyc d)) 0 <= nth b (time_s (d_cyc d)) 0).
      { destruct (Nat.eq_dec b i) as [->|]; [lra|]. left. apply I; lia. }
      pose proof (Rmult_lt_0_compat _ _ (Rlt_Rminus _ _ D) G). lra.
    + rewrite (A a) by lia. pose proof (I a b Hb Hl). lra.
Qed.

(** What one step does to the time stamps. *)
Lemma step_times (d d' : sdrive R) : (1 <= d_i d < length (d_rows d))%nat -> length (d_rows d) = length (time_s (d_cyc d)) ->
  sim_drive_step d = Ok d' ->
  exists ts, Forall (within (d_sp d)) ts /\
    (length ts <= Nat.max 2 (max_trace_miss_iters (d_sp d) - trace_miss_iters (ctl (row_at d (d_i d)))))%nat /\
    (missed_trace_correction (d_sp d) = false -> ts = []) /\
    (forall j, (j < d_i d)%nat -> nth j (time_s (d_cyc d')) 0 = nth j (time_s (d_cyc d)) 0) /\
    (forall j, (d_i d <= j < length (time_s (d_cyc d)))%nat ->
       nth j (time_s (d_cyc d')) 0 = nth j (time_s (d_cyc d)) 0 + step_dt d (d_i d) * (growth ts - 1)) /\
    (forall j, (d_i d < j)%nat -> trace_miss_iters (ctl (row_at d' j)) = trace_miss_iters (ctl (row_at d j))) /\
    trace_miss_iters (ctl (row_at d' (d_i d))) = (trace_miss_iters (ctl (row_at d (d_i d))) + length ts)%nat.
Proof.
  intros HI LR H. rewrite step_is_plan in H. set (i := d_i d) in *. inv_ok H. rename x into d2.
  pose proof (plan_frame d d2 (proj2 HI) E) as FR. fold i in FR. cbv zeta in H. inv_ok H. rename x into d4.
  assert (HL2 : (i < length (d_rows d2))%nat) by (rewrite (fr_len _ _ _ FR); lia).
  pose proof (solve_step_solved i d2 HL2) as SV. set (d3 := solve_step d2 i) in *.
  assert (T3 : time_s (d_cyc d3) = time_s (d_cyc d)) by (rewrite (sv_cyc _ _ _ SV); apply FR).
  assert (R3 : length (d_rows d3) = length (d_rows d)) by (rewrite (sv_len _ _ _ SV); apply FR).
  assert (M3 : forall j, trace_miss_iters (ctl (row_at d3 j)) = trace_miss_iters (ctl (row_at d j))).
  { intros j. rewrite <- (fr_miss _ _ _ FR). destruct (Nat.eq_dec j i) as [->|NE].
    - unfold d3, solve_step. rewrite upd_row_same by auto. now rewrite solve_row_ctl.
    - now rewrite (sv_rows _ _ _ SV). }
  assert (SP : d_sp d3 = d_sp d).
  { destruct (sv_fixed _ _ _ SV) as (_ & _ & -> & _). apply (fr_fixed _ _ _ FR). }
  set (d5 := if (coast_allow (d_sp d) || idm_allow (d_sp d))%bool then _ else d4) in H. injection H as <-.
  assert (T5 : time_s (d_cyc (with_i d5 (S i))) = time_s (d_cyc d4)) by (unfold d5; destruct (_ || _)%bool; reflexivity).
  assert (R5 : forall j, row_at (with_i d5 (S i)) j = row_at d4 j) by (intros j; unfold d5; destruct (_ || _)%bool; reflexivity).
  assert (K : exists ts, Forall (within (d_sp d)) ts /\
    (length ts <= Nat.max 2 (max_trace_miss_iters (d_sp d) - trace_miss_iters (ctl (row_at d i))))%nat /\
    (missed_trace_correction (d_sp d) = false -> ts = []) /\ stretched i ts d3 d4).
  { destruct (missed_trace_correction (d_sp d)); cbn [andb] in E0.
    - if_in E0.
      + destruct (dilation_total i d3) as (dx & ts & Q & S & W & _ & _ & L & _); [lia|rewrite T3; lia|].
        rewrite Q in E0. injection E0 as <-. rewrite SP, M3 in *. exists ts. split; [exact W|]. split; [exact L|].
        split; [discriminate|exact S].
      + injection E0 as <-. exists []. split; [constructor|]. split; [cbn [length]; lia|]. split; [auto|apply stretched_nil].
    - injection E0 as <-. exists []. split; [constructor|]. split; [cbn [length]; lia|]. split; [auto|apply stretched_nil]. }
  destruct K as (ts & W & L & Z & [B A LL _ [_ RW] IT]).
  assert (DT : step_dt d3 i = step_dt d i) by (unfold step_dt; now rewrite T3).
  exists ts. split; [exact W|]. split; [exact L|]. split; [exact Z|].
  split; [intros j Hj; rewrite T5, B, T3 by auto; reflexivity|].
  split; [intros j Hj; rewrite T5, A, T3, DT by (rewrite ?T3; auto); reflexivity|].
  split; [intros j Hj; rewrite R5, RW, M3 by lia; reflexivity|]. rewrite R5, IT, M3. reflexivity.
Qed.
Lemma calls_times : forall n (d d' : sdrive R), calls n d d' -> (1 <= d_i d)%nat ->
  length (d_rows d) = length (time_s (d_cyc d)) -> (d_i d + n = length (time_s (d_cyc d)))%nat ->
  (forall j, (j < d_i d)%nat -> nth j (time_s (d_cyc d')) 0 = nth j (time_s (d_cyc d)) 0) /\
  forall j, (d_i d <= j < length (d_rows d))%nat -> exists ts, Forall (within (d_sp d)) ts /\
    (length ts <= Nat.max 2 (max_trace_miss_iters (d_sp d) - trace_miss_iters (ctl (row_at d j))))%nat /\
    (missed_trace_correction (d_sp d) = false -> ts = []) /\ step_dt d' j = step_dt d j * growth ts /\
    trace_miss_iters (ctl (row_at d' j)) = (trace_miss_iters (ctl (row_at d j)) + length ts)%nat.
Proof.
  induction n as [|n IH]; intros d d' C H1 HR HN; cbn in C.
  { subst d'. split; [auto|]. intros j Hj. lia. }
  destruct C as (d1 & E & C). pose proof (step_stepped d d1 ltac:(lia) E) as ST.
  destruct (step_times d d1 ltac:(lia) HR E) as (ts & W & L & Z & B & A & M & MI).
  assert (IH' := IH d1 d' C). rewrite (st_i _ _ _ ST), (st_len _ _ _ ST), (st_tlen _ _ _ ST), (st_sp _ _ _ ST) in IH'.
  destruct IH' as (I1 & I2); try lia. split.
  - intros j Hj. rewrite I1 by lia. apply B; auto.
  - intros j Hj. destruct (Nat.eq_dec j (d_i d)) as [->|NE].
    + exists ts. split; [exact W|]. split; [exact L|]. split; [exact Z|]. split.
      * unfold step_dt at 1. rewrite !I1 by lia. rewrite A, B by lia. unfold step_dt. lra.
      * rewrite <- MI. clear - C ST H1 HR HN.
        assert (G : forall m (a b : sdrive R), calls m a b -> (1 <= d_i a)%nat -> length (d_rows a) = length (time_s (d_cyc a)) ->
          (d_i a + m = length (time_s (d_cyc a)))%nat -> forall j, (j < d_i a)%nat -> row_at b j = row_at a j).
        { induction m as [|m IHm]; intros a b Q X1 X2 X3 j Hj; cbn in Q; [now subst|].
          destruct Q as (a1 & Ea & Q). pose proof (step_stepped a a1 ltac:(lia) Ea) as SA.
          rewrite (IHm a1 b Q) by (rewrite ?(st_i _ _ _ SA), ?(st_len _ _ _ SA), ?(st_tlen _ _ _ SA); lia).
          apply (st_below _ _ _ SA); auto. }
        rewrite (G n d1 d' C) by (rewrite ?(st_i _ _ _ ST), ?(st_len _ _ _ ST), ?(st_tlen _ _ _ ST); lia). reflexivity.
    + destruct (I2 j ltac:(lia)) as (us & W' & L' & Z' & D & M'). exists us. rewrite M in * by lia.
      split; [exact W'|]. split; [exact L'|]. split; [exact Z'|]. split; [|exact M'].
      rewrite D. f_equal. unfold step_dt. rewrite !A by lia. lra.
Qed.
Lemma walk_times d0 s ovr d : wf_sd d0 -> sim_drive_walk d0 s ovr = Ok d ->
  nth 0 (time_s (d_cyc d)) 0 = nth 0 (time_s (if changes_cycle (d_sp d0) then d_cyc0 d0 else d_cyc d0)) 0 /\
  forall i, (1 <= i < length (d_rows d))%nat -> exists ts, Forall (within (d_sp d0)) ts /\
    (length ts <= Nat.max 2 (max_trace_miss_iters (d_sp d0)))%nat /\
    (missed_trace_correction (d_sp d0) = false -> ts = []) /\ step_dt d i = ref_dt d0 i * growth ts /\
    trace_miss_iters (ctl (row_at d i)) = length ts.
Proof.
  intros W H. destruct (walk_calls _ _ _ _ W H) as (d1 & d2 & E & C & _ & SO).
  destruct (init_shape _ _ _ _ W E) as (A & B & CC & D).
  destruct (init_rows _ _ _ _ E) as (i1 & i2 & i3 & i4 & i5 & i6 & i7 & i8 & i9 & i10 & i11 & i12 & i13).
  destruct (calls_times _ _ _ C) as (T0 & T); try lia.
  destruct SO as (_ & _ & _ & s4 & _ & _ & _ & _ & s9 & s10).
  destruct (calls_fixed _ _ _ C) as (_ & _ & _ & _ & _ & _ & c7 & _); try lia.
  rewrite s4. split; [rewrite T0 by lia; now rewrite i8|].
  intros i Hi. rewrite s9, c7 in Hi. destruct (T i ltac:(lia)) as (ts & W' & L & Z & DT & MI). rewrite i3 in *.
  assert (ZI : trace_miss_iters (ctl (row_at d1 i)) = 0%nat) by (rewrite i13 by lia; reflexivity).
  rewrite ZI in *. exists ts. split; [exact W'|]. split; [lia|]. split; [exact Z|]. split.
  - unfold step_dt. rewrite s4. fold (step_dt d2 i). rewrite DT. unfold step_dt, ref_dt. now rewrite i8.
  - pose proof (f_equal (fun r => trace_miss_iters (ctl r)) (s10 i)) as Q. cbn [row_accel ctl] in Q. rewrite Q, MI. reflexivity.
Qed.
Lemma steps_increasing (l : list R) : (forall i, (1 <= i < length l)%nat -> nth (i - 1) l 0 < nth i l 0) -> increasing l.
Proof.
  intros H. apply inc_nth. intros a b. induction b as [|b IH]; intros L B; [lia|].
  specialize (H (S b) ltac:(lia)). rewrite Nat.sub_succ, Nat.sub_0_r in H.
  destruct (Nat.eq_dec a b) as [->|NE]; [exact H|]. specialize (IH ltac:(lia) ltac:(lia)). lra.
Qed.
Lemma ref_alike d0 d1 i : alike d0 d1 -> ref_dt d1 i = ref_dt d0 i.
Proof.
  intros A. unfold ref_dt. rewrite (al_sp _ _ A), (al_cyc0 _ _ A).
  destruct (changes_cycle (d_sp d0)) eqn:Q; auto. destruct (al_cyc _ _ A Q) as (T & _). now rewrite T.
Qed.
Lemma run_steps d0 ovr d i : is_step d0 ovr d i -> exists ts, Forall (within (d_sp d0)) ts /\
    (length ts <= Nat.max 2 (max_trace_miss_iters (d_sp d0)))%nat /\
    (missed_trace_correction (d_sp d0) = false -> ts = []) /\ step_dt d i = ref_dt d0 i * growth ts /\
    trace_miss_iters (ctl (row_at d i)) = length ts.
Proof.
  intros (W & RN & B). destruct (last_walk _ _ _ W RN) as (d1 & s & A & W1 & H).
  destruct (walk_times _ _ _ _ W1 H) as (_ & T). rewrite (al_sp _ _ A) in T. destruct (T i B) as (ts & Q).
  exists ts. rewrite (ref_alike _ _ _ A) in Q. exact Q.
Qed.
Lemma run_increasing d0 ovr d : wf_sd d0 -> run d0 ovr d ->
  -1 < min_time_dilation (d_sp d0) -> -1 < max_time_dilation (d_sp d0) ->
  increasing (time_s (if changes_cycle (d_sp d0) then d_cyc0 d0 else d_cyc d0)) -> increasing (time_s (d_cyc d)).
Proof.
  intros W RN M1 M2 I. destruct (last_walk _ _ _ W RN) as (d1 & s & A & W1 & H).
  pose proof (walk_walked _ _ _ _ W1 H) as K. pose proof (wk_wf _ _ _ _ K) as (a & b & c).
  apply steps_increasing. intros i Hi.
  assert (L : length (time_s (d_cyc d)) = length (d_rows d)).
  { rewrite (wk_len _ _ _ _ K). destruct W1 as (_ & _ & W3). rewrite W3. unfold clen in c. rewrite c, (wk_cyc0 _ _ _ _ K). reflexivity. }
  destruct (run_steps d0 ovr d i) as (ts & F & _ & _ & DT & _).
  { split; [exact W|]. split; [exact RN|]. lia. }
  pose proof (growth_pos _ _ F M1 M2) as G.
  assert (P : 0 < ref_dt d0 i).
  { unfold ref_dt. rewrite inc_nth in I. cbv zeta. assert (Q : forall x y, x < y -> 0 < y - x) by (intros; lra). apply Q. apply I; [lia|].
    assert (LT : length (time_s (d_cyc d)) = clen (d_cyc0 d0)).
    { unfold clen in *. rewrite c, (wk_cyc0 _ _ _ _ K), (al_cyc0 _ _ A). reflexivity. }
    destruct W as (_ & _ & W3). unfold clen in *. destruct (changes_cycle _); lia. }
  pose proof (Rmult_lt_0_compat _ _ P G) as X. rewrite <- DT in X. unfold step_dt in X. lra.
Qed.

(** ** Car following *)
Lemma sqrt_half x : 0 <= x -> Rpow_py x (1 / 2) = sqrt x.
Proof.
  intros H. unfold Rpow_py. destruct (Req_EM_T x 0) as [->|NE].
  - destruct (Req_EM_T (1 / 2) 0); [lra|]. now rewrite sqrt_0.
  - replace (1 / 2) with (/ 2) by lra. apply Rpower_sqrt. lra.
Qed.
Lemma idm_textbook a b h s0 vdes delta v vl gap dt : 0 < vdes ->
  idm_speed a b h s0 vdes delta v vl gap dt =
  Rmax 0 (v + idm_acceleration (Rabs a) (Rabs b) (Rmax 0 h) (Rmax 0 s0) vdes delta v vl (Rmax gap (1 / 100)) * dt).
Proof.
  intros H. unfold idm_speed. rewrite !nmax_R, !lit_R. unR.
  destruct (Rleb_spec vdes 0) as [Q|_]; [lra|]. unfold idm_acceleration. cbv zeta.
  rewrite sqrt_half by (apply Rmult_le_pos; apply Rabs_pos). rewrite (Rmax_comm _ 0). f_equal. f_equal. f_equal. f_equal.
  unfold nsq. unR. ring.
Qed.
Lemma idm_stop a b h s0 vdes delta v vl gap dt : vdes <= 0 -> idm_speed a b h s0 vdes delta v vl gap dt = 0.
Proof. intros H. unfold idm_speed. unR. destruct (Rleb_spec vdes 0); [reflexivity|lra]. Qed.
Lemma Rpow_py_nonneg x y : 0 <= Rpow_py x y.
Proof.
  unfold Rpow_py. destruct (Req_EM_T x 0); [destruct (Req_EM_T y 0); lra|]. unfold Rpower. left. apply exp_pos.
Qed.
Lemma idm_bounds (a b h s0 vdes delta v vl gap dt : R) : 0 <= v -> 0 <= dt ->
  0 <= idm_speed a b h s0 vdes delta v vl gap dt <= v + Rabs a * dt.
Proof.
  intros V D. pose proof (Rabs_pos a) as PA. assert (PD : 0 <= Rabs a * dt) by (apply Rmult_le_pos; auto).
  destruct (Rle_lt_dec vdes 0) as [Q|Q]; [rewrite idm_stop by auto; lra|].
  rewrite idm_textbook by auto. split; [apply Rmax_l|]. apply Rmax_lub; [lra|].
  apply Rplus_le_compat_l. apply Rmult_le_compat_r; auto.
  unfold idm_acceleration. cbv zeta. rewrite <- (Rmult_1_r (Rabs a)) at 3. apply Rmult_le_compat_l; auto.
  pose proof (Rpow_py_nonneg (v / vdes) delta). pose proof (pow2_ge_0 ((Rmax 0 s0 +
   Rmax 0 (v * Rmax 0 h + v * (v - vl) / (2 * sqrt (Rabs a * Rabs b)))) / Rmax gap (1 / 100))). lra.
Qed.
Lemma find_first (f x : R) tbl : (forall e, In e tbl -> x < fst e) -> find_target f x tbl = f.
Proof.
  destruct tbl as [|[dd v] r]; [reflexivity|]. intros H. cbn [find_target]. unR.
  specialize (H (dd, v) (or_introl eq_refl)). cbn in H. destruct (Rleb_spec dd x); [lra|reflexivity].
Qed.
Lemma find_at (x : R) : forall tbl f k dk v, StronglySorted (fun e e' : R * R => fst e <= fst e') tbl ->
  nth_error tbl k = Some (dk, v) -> dk <= x -> (forall j e, (k < j)%nat -> nth_error tbl j = Some e -> x < fst e) ->
  find_target f x tbl = v.
Proof.
  induction tbl as [|[dd u] r IH]; intros f k dk v SS E L A; [destruct k; discriminate|].
  inversion SS as [|? ? S1 S2]; subst. cbn [find_target]. unR. destruct k as [|k].
  - injection E as -> ->. destruct (Rleb_spec dk x); [|lra]. apply find_first. intros e I.
    apply In_nth_error in I. destruct I as (j & J). apply (A (S j) e); [lia|exact J].
  - cbn in E. rewrite Forall_forall in S2. pose proof (S2 _ (nth_error_In _ _ E)) as Q. cbn in Q.
    destruct (Rleb_spec dd x); [|lra]. eapply IH; eauto. intros j e Hj J. apply (A (S j) e); [lia|exact J].
Qed.
Lemma target_table d i tbl k dk v : idm_v_desired_by_distance (d_sp d) = Some tbl ->
  StronglySorted (fun e e' : R * R => fst e <= fst e') tbl -> nth_error tbl k = Some (dk, v) ->
  dk <= Rsum (firstn i (dist_m (d_cyc d))) ->
  (forall j e, (k < j)%nat -> nth_error tbl j = Some e -> Rsum (firstn i (dist_m (d_cyc d))) < fst e) ->
  idm_target d i = Ok v.
Proof.
  intros E SS K L A. unfold idm_target. rewrite E. destruct tbl as [|[e0 v0] r] eqn:T; [destruct k; discriminate|].
  rewrite <- T in *. f_equal. rewrite nsum_Rsum. eapply find_at; eauto.
Qed.
Lemma target_before d i e0 v0 r : idm_v_desired_by_distance (d_sp d) = Some ((e0, v0) :: r) ->
  Rsum (firstn i (dist_m (d_cyc d))) < e0 -> idm_target d i = Ok v0.
Proof.
  intros E L. unfold idm_target. rewrite E. f_equal. rewrite nsum_Rsum. cbn [find_target]. unR.
  destruct (Rleb_spec e0 (Rsum (firstn i (dist_m (d_cyc d))))); [lra|reflexivity].
Qed.
Lemma target_fixed (d : sdrive R) i : idm_v_desired_by_distance (d_sp d) = None -> idm_target d i = Ok (idm_v_desired_m_per_s (d_sp d)).
Proof. intros E. unfold idm_target. now rewrite E. Qed.
Lemma target_empty (d : sdrive R) i : idm_v_desired_by_distance (d_sp d) = Some [] -> idm_target d i = Err IndexError.
Proof. intros E. unfold idm_target. now rewrite E. Qed.
(** The speed prescribed by car following. *)
Lemma gap_speed (d d' : sdrive R) i : set_speed_for_target_gap d i = Ok d' ->
  let s := d_sp d in
  exists own, trapz_step_start_distance (d_cyc d) i = Ok own /\
  d' = set_cyc_mps d i (idm_speed (idm_accel_m_per_s2 s) (idm_decel_m_per_s2 s) (idm_dt_headway_s s) (idm_minimum_gap_m s)
         (if Rlt_dec 0 (idm_target_speed_m_per_s (ctl (row_at d i))) then idm_target_speed_m_per_s (ctl (row_at d i))
          else amax (mps (d_cyc0 d)))
         (idm_delta s) (speed d (i - 1)) (nth (i - 1) (mps (d_cyc0 d)) 0)
         (nth (i - 1) (cc_distances (d_cache d)) 0 + Rmax 0 (idm_minimum_gap_m s) - own) (cdt (d_cyc d) i)).
Proof.
  intros H s. unfold set_speed_for_target_gap, next_speed_by_idm in H. inv_ok H. injection H as <-. inv_ok E.
  exists x0. split; [exact E0|]. injection E as <-. fold s. rewrite nmax_R. unR.
  destruct (Rltb_spec 0 (idm_target_speed_m_per_s (ctl (row_at d i)))), (Rlt_dec 0 (idm_target_speed_m_per_s (ctl (row_at d i))));
    try lra; reflexivity.
Qed.
(** The same with the distances spelt out. *)
Lemma gap_speed_full (d d' : sdrive R) i : wf_sd d -> d_cache d = build_cache (d_cyc0 d) -> (1 <= i < clen (d_cyc d))%nat ->
  set_speed_for_target_gap d i = Ok d' ->
  let s := d_sp d in let tgt := idm_target_speed_m_per_s (ctl (row_at d i)) in
  exists vdes, (0 < tgt -> vdes = tgt) /\
    (tgt <= 0 -> In vdes (mps (d_cyc0 d)) /\ forall x, In x (mps (d_cyc0 d)) -> x <= vdes) /\
    nth i (mps (d_cyc d')) 0 =
      idm_speed (idm_accel_m_per_s2 s) (idm_decel_m_per_s2 s) (idm_dt_headway_s s) (idm_minimum_gap_m s) vdes
        (idm_delta s) (speed d (i - 1)) (nth (i - 1) (mps (d_cyc0 d)) 0)
        (trapezoid (d_cyc0 d) 0 (i - 1) + Rmax 0 (idm_minimum_gap_m s) - trapezoid (d_cyc d) 0 (i - 1)) (step_dt d i) /\
    (forall j, j <> i -> nth j (mps (d_cyc d')) 0 = nth j (mps (d_cyc d)) 0) /\
    time_s (d_cyc d') = time_s (d_cyc d) /\ grade (d_cyc d') = grade (d_cyc d) /\ d_rows d' = d_rows d.
Proof.
  intros (W1 & W2 & W3) CA HI H s tgt. destruct (gap_speed d d' i H) as (own & EO & ->). fold s tgt.
  assert (LM : length (mps (d_cyc d)) = length (time_s (d_cyc d))) by apply W1.
  assert (LM0 : length (mps (d_cyc0 d)) = length (time_s (d_cyc0 d))) by apply W2.
  unfold clen in *.
  rewrite start_distance in EO by (auto; lia). injection EO as <-.
  rewrite CA. change (cc_distances (build_cache (d_cyc0 d))) with (cumsum (trapz_step_distances (d_cyc0 d))).
  rewrite cum_dist_nth by (auto; lia). rewrite cdt_step by lia.
  exists (if Rlt_dec 0 tgt then tgt else amax (mps (d_cyc0 d))).
  split; [intros P; destruct (Rlt_dec 0 tgt); [reflexivity|lra]|].
  split. { intros P. destruct (Rlt_dec 0 tgt); [lra|]. split; [|apply amax_ge]. apply amax_in. intros Q. rewrite Q in LM0. cbn in LM0. lia. }
  split. { match goal with |- nth i (mps (d_cyc (set_cyc_mps d i ?v))) 0 = _ => exact (cmps_set_same d i v ltac:(lia)) end. }
  split. { intros j Hj. match goal with |- nth j (mps (d_cyc (set_cyc_mps d i ?v))) 0 = _ => exact (cmps_set d i v j Hj) end. }
  repeat split.
Qed.
