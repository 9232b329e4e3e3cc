(** The structure of a completed walk, for every number type: each row is the result of solve_row on
    the row before it, and later steps leave it alone. *)
From Verif Require Import Num Numpy ListFacts CycleModel CycleSpec VehModel SimModel SimState WalkModel FrameProofs.
From Coq Require Import Lia.

Section Walk.
  Context {F : Type} {N : Num F}.

  (** Control entries that a solve reads. *)
  Definition ctl_in (r : row F) := (cur_max_roadway_chg_kw (ctl r), impose_coast (ctl r)).

  (** Reached from [d] by the time-dilation loop: only row [i] and times from [i] on may differ. *)
  Record tpre (i : nat) (d d' : sdrive F) : Prop := {
    tp_fixed : same_fixed d d';
    tp_len : length (d_rows d') = length (d_rows d);
    tp_tlen : length (time_s (d_cyc d')) = length (time_s (d_cyc d));
    tp_mps : mps (d_cyc d') = mps (d_cyc d);
    tp_grade : grade (d_cyc d') = grade (d_cyc d);
    tp_rt : road_type (d_cyc d') = road_type (d_cyc d);
    tp_time : forall j, (j < i)%nat -> ctime (d_cyc d') j = ctime (d_cyc d) j;
    tp_rows : forall j, j <> i -> row_at d' j = row_at d j;
    tp_ctl : ctl_in (row_at d' i) = ctl_in (row_at d i);
    tp_aux : (1 <= i)%nat -> next_aux d' i = next_aux d i }.

  Lemma tpre_refl i d : tpre i d d.
  Proof. constructor; auto. repeat split. Qed.
  Lemma tpre_trans i a b c : tpre i a b -> tpre i b c -> tpre i a c.
  Proof.
    intros [] []; constructor; try congruence; eauto using same_fixed_trans.
    - intros j H. rewrite tp_time1, tp_time0; auto.
    - intros j H. rewrite tp_rows1, tp_rows0; auto.
    - intros H. rewrite tp_aux1, tp_aux0; auto.
  Qed.

  (** [d'] is [dx] with step [i] solved (and possibly its iteration counter changed). *)
  Record solved (i : nat) (dx d' : sdrive F) : Prop := {
    sv_fixed : same_fixed dx d';
    sv_cyc : d_cyc d' = d_cyc dx;
    sv_len : length (d_rows d') = length (d_rows dx);
    sv_rows : forall j, j <> i -> row_at d' j = row_at dx j;
    sv_core : core (row_at d' i)
              = core (solve_row (d_veh dx) (d_props dx) (d_sp dx) (env_at dx i) (row_at dx (i - 1)) (row_at dx i));
    sv_ctl : ctl_in (row_at d' i) = ctl_in (row_at dx i) }.

  Lemma core_aux (r r' : row F) : core r = core r' -> aux_in_kw (misc r) = aux_in_kw (misc r').
  Proof. unfold core. intros Q. injection Q as Q _ _ _ _ _ _ _. now rewrite Q. Qed.
  Lemma core_row_ctl f (r : row F) : core (row_ctl f r) = core r.
  Proof. reflexivity. Qed.
  Lemma solve_step_solved i d : (i < length (d_rows d))%nat -> solved i d (solve_step d i).
  Proof.
    intros H. constructor; auto.
    - repeat split.
    - apply upd_row_length.
    - intros j Hj. now apply upd_row_other.
    - unfold solve_step. now rewrite upd_row_same.
    - unfold solve_step. rewrite upd_row_same by auto. unfold ctl_in. now rewrite solve_row_ctl.
  Qed.
  Lemma solve_row_aux v pr s e p c :
    aux_in_kw (misc (solve_row v pr s e p c)) = aux_in_kw (set_misc_calcs v e p (aux_in_kw (misc c))).
  Proof. unfold solve_row. destruct (set_ach_speed _ _ _ _ _ _ _ _). reflexivity. Qed.
  Lemma solved_aux i dx d' : solved i dx d' -> aux_in_kw (misc (row_at d' i)) = next_aux dx i.
  Proof. intros []. rewrite (core_aux _ _ sv_core0). apply solve_row_aux. Qed.
  Lemma solved_tpre i dx d' : (i < length (d_rows dx))%nat -> solved i dx d' -> tpre i dx d'.
  Proof.
    intros Hi S. pose proof (solved_aux _ _ _ S) as SA. destruct S. constructor; auto; try (now rewrite sv_cyc0).
    intros H1. destruct sv_fixed0 as [V _]. apply next_aux_solved; auto. intros j Hj. rewrite sv_rows0; auto. lia.
  Qed.
  Lemma bump_solved i dx d' : (i < length (d_rows dx))%nat -> solved i dx d' -> solved i dx (bump_iters d' i).
  Proof.
    intros Hi []. assert (Hi' : (i < length (d_rows d'))%nat) by lia. constructor; auto.
    - unfold bump_iters. rewrite upd_row_length. auto.
    - intros j Hj. unfold bump_iters. rewrite upd_row_other; auto.
    - unfold bump_iters. rewrite upd_row_same by auto. now rewrite core_row_ctl.
    - unfold bump_iters. rewrite upd_row_same by auto. exact sv_ctl0.
  Qed.
  Lemma bump_tpre i d : (i < length (d_rows d))%nat -> tpre i d (bump_iters d i).
  Proof.
    intros Hi. constructor; auto.
    - repeat split.
    - apply upd_row_length.
    - intros j Hj. unfold bump_iters. now rewrite upd_row_other.
    - unfold bump_iters. now rewrite upd_row_same.
    - intros _. apply next_aux_eq; auto. { apply upd_row_length. }
      intros j _. unfold bump_iters. destruct (Nat.eq_dec j i) as [->|E].
      + rewrite upd_row_same by auto. reflexivity.
      + now rewrite upd_row_other.
  Qed.
  Lemma dilate_tpre i d t : tpre i d (dilate d i t).
  Proof.
    constructor; auto.
    - repeat split.
    - cbn. apply mapi_from_length.
    - intros j Hj. unfold ctime, dilate; cbn [with_cyc d_cyc time_s].
      destruct (Nat.lt_ge_cases j (length (time_s (d_cyc d)))) as [L|L].
      + rewrite (mapi_from_nth _ _ 0 j n0) by auto. rewrite Nat.add_0_l. apply Nat.ltb_lt in Hj. now rewrite Hj.
      + rewrite !nth_overflow; auto. now rewrite mapi_from_length.
  Qed.
  Lemma dilation_loop_tpre i : forall fuel d t2 t1 s1 d', (i < length (d_rows d))%nat ->
    dilation_loop fuel d i t2 t1 s1 = Ok d' -> exists dx, tpre i d dx /\ solved i dx d'.
  Proof.
    induction fuel as [|f IH]; intros d t2 t1 s1 d' Hi H; cbn [dilation_loop] in H; [discriminate|].
    cbv zeta in H. set (t := clamp_dilation _ _) in H.
    assert (HD : (i < length (d_rows (dilate d i t)))%nat) by auto.
    pose proof (bump_solved _ _ _ HD (solve_step_solved i _ HD)) as S.
    if_in H.
    - injection H as <-. eexists; split; [apply dilate_tpre|exact S].
    - apply IH in H. 2:{ rewrite (sv_len _ _ _ S). auto. }
      destruct H as (dx & T & S'). exists dx. split; auto.
      eapply tpre_trans; [apply dilate_tpre|]. eapply tpre_trans; [|exact T].
      apply solved_tpre; eauto.
  Qed.
  Lemma set_time_dilation_solved i d2 d' : (i < length (d_rows d2))%nat ->
    set_time_dilation (solve_step d2 i) i = Ok d' -> exists dx, tpre i d2 dx /\ solved i dx d'.
  Proof.
    intros Hi H. pose proof (solve_step_solved i d2 Hi) as S0. set (d := solve_step d2 i) in *.
    unfold set_time_dilation in H. if_in H.
    { injection H as <-. exists d2. auto using tpre_refl. }
    set (t := clamp_dilation _ _) in H.
    assert (Hd : (i < length (d_rows d))%nat) by (rewrite (sv_len _ _ _ S0); auto).
    assert (T : tpre i d2 (dilate (bump_iters d i) i t)).
    { eapply tpre_trans; [eapply solved_tpre; eauto|].
      eapply tpre_trans; [apply bump_tpre; auto|apply dilate_tpre]. }
    assert (HD : (i < length (d_rows (dilate (bump_iters d i) i t)))%nat) by (rewrite (tp_len _ _ _ T); auto).
    pose proof (solve_step_solved i _ HD) as S.
    if_in H.
    - injection H as <-. eauto.
    - apply dilation_loop_tpre in H. 2:{ rewrite (sv_len _ _ _ S). auto. }
      destruct H as (dx & T' & S'). exists dx. split; auto.
      eapply tpre_trans; [exact T|]. eapply tpre_trans; [|exact T']. apply solved_tpre; auto.
  Qed.

  (** ** What lookup_grade depends on *)
  Lemma firstn_ext (l l' : list F) n : length l = length l' ->
    (forall j, (j < n)%nat -> nth j l n0 = nth j l' n0) -> firstn n l = firstn n l'.
  Proof.
    revert l l'; induction n as [|n IH]; intros [|x l] [|y l'] HL H; try discriminate; auto.
    cbn. f_equal. { apply (H 0%nat); lia. }
    apply IH; [now inversion HL|]. intros j Hj. apply (H (S j)); lia.
  Qed.
  Lemma start_distance_ext (c c' : cyc F) i :
    length (time_s c') = length (time_s c) -> length (mps c') = length (mps c) ->
    (forall j, (j < i)%nat -> ctime c' j = ctime c j) -> (forall j, (j < i)%nat -> cmps c' j = cmps c j) ->
    trapz_step_start_distance c' i = trapz_step_start_distance c i.
  Proof.
    intros LT LM HT HM. unfold trapz_step_start_distance. rewrite LT.
    destruct (Nat.leb _ _); auto. cbv zeta.
    rewrite (firstn_ext (time_s c') (time_s c) i) by auto.
    rewrite (firstn_ext (mps c') (mps c) (i - 1)) by (auto; intros; apply HM; lia).
    replace (slice (mps c') 1 i) with (slice (mps c) 1 i); auto.
    unfold slice. rewrite !firstn_skipn_comm.
    destruct i as [|i]; [now rewrite !skipn_O || (cbn; destruct (mps c), (mps c'); auto)|].
    replace (1 + (S i - 1))%nat with (S i) by lia.
    rewrite (firstn_ext (mps c') (mps c) (S i)); auto.
  Qed.
  Lemma lookup_ext d d' i v : (1 <= i)%nat ->
    same_fixed d d' -> length (time_s (d_cyc d')) = length (time_s (d_cyc d)) ->
    length (mps (d_cyc d')) = length (mps (d_cyc d)) ->
    (forall j, (j <= i)%nat -> ctime (d_cyc d') j = ctime (d_cyc d) j) ->
    (forall j, (j < i)%nat -> cmps (d_cyc d') j = cmps (d_cyc d) j) ->
    (changes_cycle (d_sp d) = false \/ (coast_allow (d_sp d) = false /\ idm_allow (d_sp d) = false) ->
     nth i (grade (d_cyc d')) n0 = nth i (grade (d_cyc d)) n0) ->
    row_at d' (i - 1) = row_at d (i - 1) ->
    lookup_grade d' i (Some v) = lookup_grade d i (Some v).
  Proof.
    intros Hi (V & P & S & C0 & CA & _ & _) LT LM HT HM HG HR.
    unfold lookup_grade. rewrite CA, S, C0.
    destruct (grade_all_zero _); auto.
    destruct (coast_allow (d_sp d)) eqn:EC, (idm_allow (d_sp d)) eqn:EI; cbn.
    4:{ apply HG. auto. }
    all: rewrite (start_distance_ext (d_cyc d) (d_cyc d') i); auto;
      [|intros; apply HT; lia].
    all: unfold mps_ach_at; rewrite HR;
      replace (cdt (d_cyc d') i) with (cdt (d_cyc d) i); auto;
      unfold cdt; destruct (Nat.ltb i 1); auto; rewrite !HT by lia; auto.
  Qed.

  Lemma estimate_ext d d' i : (1 <= i)%nat ->
    same_fixed d d' -> length (time_s (d_cyc d')) = length (time_s (d_cyc d)) ->
    length (mps (d_cyc d')) = length (mps (d_cyc d)) ->
    (forall j, (j <= i)%nat -> ctime (d_cyc d') j = ctime (d_cyc d) j) ->
    (forall j, (j < i)%nat -> cmps (d_cyc d') j = cmps (d_cyc d) j) ->
    (changes_cycle (d_sp d) = false \/ (coast_allow (d_sp d) = false /\ idm_allow (d_sp d) = false) ->
     nth i (grade (d_cyc d')) n0 = nth i (grade (d_cyc d)) n0) ->
    estimate_grade d' i = estimate_grade d i.
  Proof.
    intros Hi (V & P & S & C0 & CA & _ & _) LT LM HT HM HG.
    unfold estimate_grade. rewrite CA, S.
    destruct (grade_all_zero _); auto.
    destruct (coast_allow (d_sp d)) eqn:EC, (idm_allow (d_sp d)) eqn:EI; cbn.
    4:{ apply HG. auto. }
    all: rewrite (start_distance_ext (d_cyc d) (d_cyc d') i); auto; intros; apply HT; lia.
  Qed.

  (** ** One call of sim_drive_step *)
  Definition replans (s : simparams F) : bool := (coast_allow s || idm_allow s)%bool.
  (** Nothing written by an earlier solve of the same step. *)
  Definition unsolved (r : row F) : Prop := spd r = spd zero_row /\ hyb r = hyb zero_row /\ fc r = fc zero_row.
  (** What the step that has just been solved left behind in [d'], starting from [d]. *)
  Record stepped (i : nat) (d d' : sdrive F) : Prop := {
    st_veh : d_veh d' = d_veh d; st_props : d_props d' = d_props d; st_sp : d_sp d' = d_sp d;
    st_cyc0 : d_cyc0 d' = d_cyc0 d; st_cache : d_cache d' = d_cache d;
    st_count : d_hev_sim_count d' = d_hev_sim_count d;
    st_i : d_i d' = S i;
    st_len : length (d_rows d') = length (d_rows d);
    st_tlen : length (time_s (d_cyc d')) = length (time_s (d_cyc d));
    st_mlen : length (mps (d_cyc d')) = length (mps (d_cyc d));
    st_glen : length (grade (d_cyc d')) = length (grade (d_cyc d));
    st_rt : road_type (d_cyc d') = road_type (d_cyc d);
    st_time : forall j, (j < i)%nat -> ctime (d_cyc d') j = ctime (d_cyc d) j;
    st_times : missed_trace_correction (d_sp d) = false -> time_s (d_cyc d') = time_s (d_cyc d);
    st_mps : forall j, (j < i)%nat -> cmps (d_cyc d') j = cmps (d_cyc d) j;
    st_mpss : replans (d_sp d) = false -> mps (d_cyc d') = mps (d_cyc d);
    st_grade : forall j, j <> i -> nth j (grade (d_cyc d')) n0 = nth j (grade (d_cyc d)) n0;
    st_grades : replans (d_sp d) = false -> grade (d_cyc d') = grade (d_cyc d);
    st_below : forall j, (j < i)%nat -> row_at d' j = row_at d j;
    st_above : forall j, (i < j)%nat -> core (row_at d' j) = core (row_at d j);
    st_road : forall j, road (row_at d' j) = road (row_at d j);
    st_solved : exists e cur,
      core (row_at d' i) = core (solve_row (d_veh d) (d_props d) (d_sp d) e (row_at d (i - 1)) cur) /\
      ctl_in (row_at d' i) = ctl_in cur /\
      e_dt e = cdt (d_cyc d') i /\
      ((forall v, e_grade e v = lookup_grade d' i (Some v)) /\ e_grade_est e = estimate_grade d' i) /\
      (replans (d_sp d) = false -> e_mps e = cmps (d_cyc d') i) /\
      (missed_trace_correction (d_sp d) = false ->
       (newton_iters (spd (row_at d i)) = 0%nat -> newton_iters (spd cur) = 0%nat) /\
       (replans (d_sp d) = false -> core cur = core (row_at d i)));
    st_aux : aux_in_kw (misc (row_at d' i)) = next_aux d i;
    st_adopt : replans (d_sp d) = true -> (i < length (mps (d_cyc d)))%nat ->
               cmps (d_cyc d') i = mps_ach (spd (row_at d' i)) }.

  Lemma step_is_plan d :
    sim_drive_step d =
    do d2 <- plan d;
    let i := d_i d in
    let s := d_sp d in
    let d3 := solve_step d2 i in
    do d4 <- (if (missed_trace_correction s && nltb n0 (cyc0_dist_to d3 i))%bool
              then set_time_dilation d3 i else Ok d3);
    let d5 := if (coast_allow s || idm_allow s)%bool then
                let d' := set_cyc_mps d4 i (mps_ach_at d4 i) in
                set_cyc_grade d' i (lookup_grade d' i None)
              else d4 in
    Ok (with_i d5 (S i)).
  Proof.
    unfold sim_drive_step, plan. cbv zeta.
    destruct (idm_allow (d_sp d)).
    - destruct (idm_target d (d_i d)); [|reflexivity]. cbn [bindR].
      destruct (set_speed_for_target_gap _ _); reflexivity.
    - reflexivity.
  Qed.

  Lemma plan_cyc d d2 : replans (d_sp d) = false -> plan d = Ok d2 -> d2 = d.
  Proof.
    unfold replans, plan. intros E. apply Bool.orb_false_iff in E as [-> ->]. cbn. now intros [= ->].
  Qed.

  Lemma step_stepped d d' : (1 <= d_i d < length (d_rows d))%nat ->
    sim_drive_step d = Ok d' -> stepped (d_i d) d d'.
  Proof.
    intros [H1 HL] H. rewrite step_is_plan in H. set (i := d_i d) in *. inv_ok H. rename x into d2.
    pose proof (plan_frame d d2 HL E) as FR. fold i in FR.
    assert (HL2 : (i < length (d_rows d2))%nat) by (rewrite (fr_len _ _ _ FR); auto).
    inv_ok H. rename x into d4.
    assert (K : exists dx, tpre i d2 dx /\ solved i dx d4 /\ (missed_trace_correction (d_sp d) = false -> dx = d2)).
    { if_in E0.
      - apply set_time_dilation_solved in E0; auto. destruct E0 as (dx & T & S). exists dx. split; [exact T|split; [exact S|]].
        intros Q. now rewrite Q in C.
      - injection E0 as <-. exists d2. auto using tpre_refl, solve_step_solved. }
    destruct K as (dx & T & SV & TX).
    assert (HLX : (i < length (d_rows dx))%nat) by (rewrite (tp_len _ _ _ T); auto).
    set (d5 := if (coast_allow (d_sp d) || idm_allow (d_sp d))%bool then _ else d4) in H.
    assert (R5 : d_rows d5 = d_rows d4) by (unfold d5; destruct (_ || _)%bool; reflexivity).
    assert (R5' : forall j, row_at (with_i d5 (S i)) j = row_at d4 j).
    { intros j. unfold row_at. cbn. now rewrite R5. }
    assert (F5 : same_fixed d4 d5) by (unfold d5; destruct (_ || _)%bool; repeat split).
    assert (T5 : time_s (d_cyc d5) = time_s (d_cyc d4)) by (unfold d5; destruct (_ || _)%bool; reflexivity).
    assert (RT5 : road_type (d_cyc d5) = road_type (d_cyc d4)) by (unfold d5; destruct (_ || _)%bool; reflexivity).
    assert (M5L : length (mps (d_cyc d5)) = length (mps (d_cyc d4))).
    { unfold d5; destruct (_ || _)%bool; auto. cbn. apply set_nth_length. }
    assert (M5 : forall j, j <> i -> cmps (d_cyc d5) j = cmps (d_cyc d4) j).
    { unfold d5; destruct (_ || _)%bool; auto. intros j Hj. cbn. now apply nth_set_other. }
    assert (G5L : length (grade (d_cyc d5)) = length (grade (d_cyc d4))).
    { unfold d5; destruct (_ || _)%bool; auto. cbn. apply set_nth_length. }
    assert (G5 : forall j, j <> i -> nth j (grade (d_cyc d5)) n0 = nth j (grade (d_cyc d4)) n0).
    { unfold d5; destruct (_ || _)%bool; auto. intros j Hj. cbn. now apply nth_set_other. }
    injection H as <-.
    pose proof (sv_fixed _ _ _ SV) as SF. pose proof (tp_fixed _ _ _ T) as TF. pose proof (fr_fixed _ _ _ FR) as PF.
    assert (FX : same_fixed d dx) by (eapply same_fixed_trans; eauto).
    assert (F4 : same_fixed d d5) by (eapply same_fixed_trans; [|exact F5]; eapply same_fixed_trans; eauto).
    assert (TIME : forall j, (j < i)%nat -> ctime (d_cyc d5) j = ctime (d_cyc d) j).
    { intros j Hj. unfold ctime. rewrite T5, (sv_cyc _ _ _ SV). fold (ctime (d_cyc dx) j).
      rewrite (tp_time _ _ _ T) by auto. unfold ctime. now rewrite (fr_time _ _ _ FR). }
    assert (MPS : forall j, (j < i)%nat -> cmps (d_cyc d5) j = cmps (d_cyc d) j).
    { intros j Hj. rewrite M5 by lia. rewrite (sv_cyc _ _ _ SV). unfold cmps. rewrite (tp_mps _ _ _ T).
      now apply (fr_mps _ _ _ FR). }
    assert (BELOW : forall j, (j < i)%nat -> row_at d4 j = row_at d j).
    { intros j Hj. rewrite (sv_rows _ _ _ SV), (tp_rows _ _ _ T) by lia. now apply (fr_below _ _ _ FR). }
    assert (NREP : replans (d_sp d) = false -> d5 = d4 /\ d2 = d).
    { unfold replans, d5. intros Q. split; [now rewrite Q|]. eapply plan_cyc; eauto. }
    destruct F4 as (f1 & f2 & f3 & f4 & f5 & f6 & f7).
    destruct FX as (x1 & x2 & x3 & x4 & x5 & x6 & x7).
    constructor; auto; try assumption.
    - cbn. rewrite R5, (sv_len _ _ _ SV), (tp_len _ _ _ T), (fr_len _ _ _ FR). reflexivity.
    - cbn. rewrite T5, (sv_cyc _ _ _ SV), (tp_tlen _ _ _ T), (fr_time _ _ _ FR). reflexivity.
    - cbn. rewrite M5L, (sv_cyc _ _ _ SV), (tp_mps _ _ _ T), (fr_mlen _ _ _ FR). reflexivity.
    - cbn. rewrite G5L, (sv_cyc _ _ _ SV), (tp_grade _ _ _ T), (fr_grade _ _ _ FR). reflexivity.
    - cbn. rewrite RT5, (sv_cyc _ _ _ SV), (tp_rt _ _ _ T), (fr_rt _ _ _ FR). reflexivity.
    - cbn. intros Q. rewrite T5, (sv_cyc _ _ _ SV), (TX Q), (fr_time _ _ _ FR). reflexivity.
    - cbn. intros Q. destruct (NREP Q) as [-> ->]. rewrite (sv_cyc _ _ _ SV), (tp_mps _ _ _ T). reflexivity.
    - cbn. intros j Hj. rewrite G5 by auto. rewrite (sv_cyc _ _ _ SV), (tp_grade _ _ _ T), (fr_grade _ _ _ FR). reflexivity.
    - cbn. intros Q. destruct (NREP Q) as [-> ->]. rewrite (sv_cyc _ _ _ SV), (tp_grade _ _ _ T). reflexivity.
    - intros j Hj. rewrite R5'. auto.
    - intros j Hj. rewrite R5', (sv_rows _ _ _ SV), (tp_rows _ _ _ T) by lia. now apply (fr_above _ _ _ FR).
    - intros j. rewrite R5'. rewrite <- (fr_road _ _ _ FR j). destruct (Nat.eq_dec j i) as [->|Q].
      + generalize (sv_ctl _ _ _ SV), (tp_ctl _ _ _ T). unfold ctl_in, road. congruence.
      + now rewrite (sv_rows _ _ _ SV), (tp_rows _ _ _ T).
    - exists (env_at dx i), (row_at dx i). repeat split.
      + rewrite R5', (sv_core _ _ _ SV), x1, x2, x3.
        rewrite (tp_rows _ _ _ T (i - 1)) by lia. now rewrite (fr_below _ _ _ FR) by lia.
      + rewrite R5'. apply (sv_ctl _ _ _ SV).
      + cbn. unfold cdt, ctime. now rewrite T5, (sv_cyc _ _ _ SV).
      + intros v. cbn [e_grade env_at].
        change (lookup_grade (with_i d5 (S i)) i (Some v)) with (lookup_grade d5 i (Some v)).
        symmetry. apply lookup_ext; auto.
        * eapply same_fixed_trans; eauto.
        * now rewrite T5, (sv_cyc _ _ _ SV).
        * now rewrite M5L, (sv_cyc _ _ _ SV).
        * intros j Hj. unfold ctime. now rewrite T5, (sv_cyc _ _ _ SV).
        * intros j Hj. rewrite M5 by lia. now rewrite (sv_cyc _ _ _ SV).
        * rewrite x3. intros Q. assert (Q' : replans (d_sp d) = false).
          { unfold replans. destruct Q as [Q|[-> ->]]; auto. unfold changes_cycle in Q.
            destruct (coast_allow _), (idm_allow _), (missed_trace_correction _); auto; discriminate. }
          destruct (NREP Q') as [-> _]. now rewrite (sv_cyc _ _ _ SV).
        * fold (row_at d5 (i - 1)). unfold row_at at 1. rewrite R5. fold (row_at d4 (i - 1)).
          apply (sv_rows _ _ _ SV). lia.
      + cbn [e_grade_est env_at].
        change (estimate_grade (with_i d5 (S i)) i) with (estimate_grade d5 i).
        symmetry. apply estimate_ext; auto.
        * eapply same_fixed_trans; eauto.
        * now rewrite T5, (sv_cyc _ _ _ SV).
        * now rewrite M5L, (sv_cyc _ _ _ SV).
        * intros j Hj. unfold ctime. now rewrite T5, (sv_cyc _ _ _ SV).
        * intros j Hj. rewrite M5 by lia. now rewrite (sv_cyc _ _ _ SV).
        * rewrite x3. intros Q. assert (Q' : replans (d_sp d) = false).
          { unfold replans. destruct Q as [Q|[-> ->]]; auto. unfold changes_cycle in Q.
            destruct (coast_allow _), (idm_allow _), (missed_trace_correction _); auto; discriminate. }
          destruct (NREP Q') as [-> _]. now rewrite (sv_cyc _ _ _ SV).
      + cbn. intros Q. destruct (NREP Q) as [-> _]. now rewrite (sv_cyc _ _ _ SV).
      + intros Q'. rewrite (TX ltac:(assumption)). now apply (fr_fresh _ _ _ FR).
      + intros Q'. rewrite (TX ltac:(assumption)). destruct (NREP Q') as [_ ->]. reflexivity.
    - rewrite R5'. rewrite (solved_aux _ _ _ SV), (tp_aux _ _ _ T) by auto. now apply (fr_aux _ _ _ FR).
    - unfold replans. intros Q HM. rewrite R5'. unfold d5; rewrite Q; cbn.
      assert (L4 : (i < length (mps (d_cyc d4)))%nat).
      { rewrite (sv_cyc _ _ _ SV), (tp_mps _ _ _ T), (fr_mlen _ _ _ FR). auto. }
      now apply (cmps_set_same d4 i (mps_ach_at d4 i)).
  Qed.

  (** ** The whole walk *)
  (** Row [i] of [d] came out of a solve of step [i] on row [i-1] of [d]. *)
  Definition ran_row (fresh : Prop) (d : sdrive F) (i : nat) : Prop :=
    exists e cur,
      core (row_at d i) = core (solve_row (d_veh d) (d_props d) (d_sp d) e (row_at d (i - 1)) cur) /\
      ctl_in (row_at d i) = ctl_in cur /\
      e_dt e = cdt (d_cyc d) i /\
      ((forall v, e_grade e v = lookup_grade d i (Some v)) /\ e_grade_est e = estimate_grade d i) /\
      (replans (d_sp d) = false -> e_mps e = cmps (d_cyc d) i) /\
      (replans (d_sp d) = true -> cmps (d_cyc d) i = mps_ach (spd (row_at d i))) /\
      (fresh -> newton_iters (spd cur) = 0%nat /\ (replans (d_sp d) = false -> unsolved cur)).
  Definition fresh_run (s : simparams F) : Prop := missed_trace_correction s = false.

  Record inv (d1 d : sdrive F) : Prop := {
    iv_veh : d_veh d = d_veh d1; iv_props : d_props d = d_props d1; iv_sp : d_sp d = d_sp d1;
    iv_cyc0 : d_cyc0 d = d_cyc0 d1; iv_cache : d_cache d = d_cache d1;
    iv_count : d_hev_sim_count d = d_hev_sim_count d1;
    iv_i : (1 <= d_i d)%nat;
    iv_len : length (d_rows d) = length (d_rows d1);
    iv_tlen : length (time_s (d_cyc d)) = length (time_s (d_cyc d1));
    iv_mlen : length (mps (d_cyc d)) = length (mps (d_cyc d1));
    iv_glen : length (grade (d_cyc d)) = length (grade (d_cyc d1));
    iv_rt : road_type (d_cyc d) = road_type (d_cyc d1);
    iv_times : missed_trace_correction (d_sp d) = false -> time_s (d_cyc d) = time_s (d_cyc d1);
    iv_mpss : replans (d_sp d) = false -> mps (d_cyc d) = mps (d_cyc d1);
    iv_grades : replans (d_sp d) = false -> grade (d_cyc d) = grade (d_cyc d1);
    iv_time0 : ctime (d_cyc d) 0 = ctime (d_cyc d1) 0;
    iv_mps0 : cmps (d_cyc d) 0 = cmps (d_cyc d1) 0;
    iv_row0 : row_at d 0 = row_at d1 0;
    iv_road : forall j, road (row_at d j) = road (row_at d1 j);
    iv_above : forall j, (d_i d <= j)%nat -> core (row_at d j) = core (row_at d1 j);
    iv_aux : forall j, (1 <= j < d_i d)%nat -> aux_in_kw (misc (row_at d j)) = next_aux d1 j;
    iv_rows : forall j, (1 <= j < d_i d)%nat -> ran_row (fresh_run (d_sp d)) d j }.

  (** A later step leaves an earlier solved row solved. *)
  Lemma ran_row_later f i j d d' : (1 <= j < i)%nat -> stepped i d d' -> ran_row f d j -> ran_row f d' j.
  Proof.
    intros Hj ST (e & cur & A & B & C & (D & DE) & E & G & H). exists e, cur.
    rewrite (st_veh _ _ _ ST), (st_props _ _ _ ST), (st_sp _ _ _ ST).
    rewrite (st_below _ _ _ ST) by lia. rewrite (st_below _ _ _ ST (j - 1)) by lia.
    rewrite (st_mps _ _ _ ST) by lia.
    split; [|split; [|split; [|split; [split|split; [|split]]]]]; auto.
    - rewrite C. unfold cdt. destruct (Nat.ltb j 1); auto. now rewrite !(st_time _ _ _ ST) by lia.
    - intros v. rewrite D.
      change (lookup_grade d' j (Some v)) with (lookup_grade (with_i d' (d_i d)) j (Some v)).
      symmetry. apply lookup_ext; try apply ST; auto; try lia.
      + repeat split; cbn; apply ST.
      + intros k Hk. apply (st_time _ _ _ ST). lia.
      + intros k Hk. apply (st_mps _ _ _ ST). lia.
      + intros _. apply (st_grade _ _ _ ST). lia.
    - rewrite DE. change (estimate_grade d' j) with (estimate_grade (with_i d' (d_i d)) j).
      symmetry. apply estimate_ext; try apply ST; auto; try lia.
      + repeat split; cbn; apply ST.
      + intros k Hk. apply (st_time _ _ _ ST). lia.
      + intros k Hk. apply (st_mps _ _ _ ST). lia.
      + intros _. apply (st_grade _ _ _ ST). lia.
  Qed.

  Lemma step_inv d1 d d' :
    (forall j, (1 <= j)%nat -> unsolved (row_at d1 j)) ->
    (length (time_s (d_cyc d1)) <= length (mps (d_cyc d1)))%nat ->
    (d_i d < length (d_rows d))%nat -> (d_i d < length (time_s (d_cyc d)))%nat ->
    inv d1 d -> sim_drive_step d = Ok d' -> inv d1 d'.
  Proof.
    intros HN HW HL HT I H.
    assert (ST : stepped (d_i d) d d') by (apply step_stepped; auto; split; [apply I|auto]).
    set (i := d_i d) in *.
    pose proof (iv_i _ _ I) as Hi. fold i in Hi.
    constructor; try (etransitivity; [apply ST|apply I]; fail).
    - rewrite (st_i _ _ _ ST). lia.
    - rewrite (st_sp _ _ _ ST). intros Q. rewrite (st_times _ _ _ ST) by auto. now apply (iv_times _ _ I).
    - rewrite (st_sp _ _ _ ST). intros Q. rewrite (st_mpss _ _ _ ST) by auto. now apply (iv_mpss _ _ I).
    - rewrite (st_sp _ _ _ ST). intros Q. rewrite (st_grades _ _ _ ST) by auto. now apply (iv_grades _ _ I).
    - rewrite (st_time _ _ _ ST) by lia. apply I.
    - rewrite (st_mps _ _ _ ST) by lia. apply I.
    - rewrite (st_below _ _ _ ST) by lia. apply I.
    - rewrite (st_i _ _ _ ST). intros j Hj. rewrite (st_above _ _ _ ST) by lia. apply (iv_above _ _ I). fold i; lia.
    - rewrite (st_i _ _ _ ST). intros j Hj. destruct (Nat.eq_dec j i) as [->|Q].
      + rewrite (st_aux _ _ _ ST). apply next_aux_eq; try apply I.
        intros k Hk. apply core_aux, (iv_above _ _ I). auto.
      + rewrite (st_below _ _ _ ST) by lia. apply (iv_aux _ _ I). fold i. lia.
    - rewrite (st_i _ _ _ ST), (st_sp _ _ _ ST). intros j Hj. destruct (Nat.eq_dec j i) as [->|Q].
      + destruct (st_solved _ _ _ ST) as (e & cur & A & B & C & (D & DE) & E & G). exists e, cur.
        rewrite (st_veh _ _ _ ST), (st_props _ _ _ ST), (st_sp _ _ _ ST).
        rewrite (st_below _ _ _ ST (i - 1)) by lia.
        pose proof (iv_above _ _ I i (Nat.le_refl _)) as K.
        destruct (HN i Hi) as (N1 & N2 & N3).
        unfold core in K. injection K as _ _ _ K1 K2 _ _ K3.
        split; [|split; [|split; [|split; [split|split; [|split]]]]]; auto.
        * intros Q. apply (st_adopt _ _ _ ST); auto.
          rewrite (iv_mlen _ _ I). rewrite (iv_tlen _ _ I) in HT. lia.
        * intros Q. destruct (G Q) as [G1 G2]. split.
          -- apply G1. rewrite K1, N1. reflexivity.
          -- intros Q'. specialize (G2 Q'). unfold core in G2. injection G2 as _ _ _ L1 L2 _ _ L3.
             unfold unsolved. rewrite L1, L2, L3, K1, K2, K3. auto.
      + apply (ran_row_later _ i j d d'); auto; [lia|]. apply (iv_rows _ _ I). fold i; lia.
  Qed.

  Lemma loop_inv d1 : 
    (forall j, (1 <= j)%nat -> unsolved (row_at d1 j)) ->
    (length (time_s (d_cyc d1)) <= length (mps (d_cyc d1)))%nat ->
    (length (time_s (d_cyc d1)) <= length (d_rows d1))%nat ->
    forall fuel d d', inv d1 d -> walk_loop fuel d = Ok d' ->
    inv d1 d' /\ (length (time_s (d_cyc d1)) <= d_i d')%nat.
  Proof.
    intros HN HW HR. induction fuel as [|f IH]; intros d d' I H; cbn [walk_loop] in H.
    - destruct (Nat.ltb_spec (d_i d) (length (time_s (d_cyc d)))) as [L|L]; [discriminate|].
      injection H as <-. split; auto. now rewrite <- (iv_tlen _ _ I).
    - destruct (Nat.ltb_spec (d_i d) (length (time_s (d_cyc d)))) as [L|L].
      + inv_ok H. apply IH in H; auto. eapply step_inv; eauto.
        rewrite (iv_len _ _ I). rewrite (iv_tlen _ _ I) in L. lia.
      + injection H as <-. split; auto. now rewrite <- (iv_tlen _ _ I).
  Qed.

  (** ** post_accel *)
  Lemma post_accel_row d i : (1 <= i < length (d_rows d))%nat ->
    row_at (post_accel d) i =
    row_accel (ndiv (nmul (ndiv (veh_kg (d_veh d)) (nmul n2 (cdt (d_cyc d) i)))
                          (nsub (nsq (mps_ach_at d i)) (nsq (mps_ach_at d (i - 1))))) (nofZ 1000)) (row_at d i).
  Proof.
    intros Hi. unfold row_at at 1, post_accel. cbn [d_rows with_rows].
    rewrite (mapi_from_nth _ _ 0 i zero_row) by lia. rewrite Nat.add_0_l.
    destruct (Nat.ltb_spec i 1); [lia|]. reflexivity.
  Qed.
  Lemma post_accel_0 d : row_at (post_accel d) 0 = row_at d 0.
  Proof. unfold row_at, post_accel. cbn [d_rows with_rows]. destruct (d_rows d); reflexivity. Qed.
  Lemma post_accel_len d : length (d_rows (post_accel d)) = length (d_rows d).
  Proof. apply mapi_from_length. Qed.

  (** ** Completed walks *)
  (** SimDrive objects whose cycle and reference cycle fit together, as every constructor makes them. *)
  Definition wf_sd (d : sdrive F) : Prop := wf (d_cyc d) /\ wf (d_cyc0 d) /\ clen (d_cyc d) = clen (d_cyc0 d).
  Definition is_override (ovr : option (list F)) (n : nat) : option (list F) :=
    match ovr with Some l => if Nat.eqb (length l) n then Some l else None | None => None end.
  (** The auxiliary entry of step [i] before the walk. *)
  Definition aux_start (ovr : option (list F)) (n i : nat) : F :=
    match is_override ovr n with Some l => nth i l n0 | None => n0 end.
  Definition same_but_accel (r r' : row F) : Prop := core (row_accel n0 r) = core (row_accel n0 r').

  Record walked (d0 : sdrive F) (s : F) (ovr : option (list F)) (d : sdrive F) : Prop := {
    wk_veh : d_veh d = d_veh d0; wk_props : d_props d = d_props d0; wk_sp : d_sp d = d_sp d0;
    wk_cyc0 : d_cyc0 d = d_cyc0 d0; wk_cache : d_cache d = build_cache (d_cyc0 d0);
    wk_count : d_hev_sim_count d = d_hev_sim_count d0;
    wk_len : length (d_rows d) = clen (d_cyc d0);
    wk_pos : (0 < length (d_rows d))%nat;
    wk_wf : wf_sd d;
    wk_times : missed_trace_correction (d_sp d) = false ->
               time_s (d_cyc d) = time_s (if changes_cycle (d_sp d) then d_cyc0 d0 else d_cyc d0);
    wk_mps : replans (d_sp d) = false ->
             mps (d_cyc d) = mps (if changes_cycle (d_sp d) then d_cyc0 d0 else d_cyc d0);
    wk_grade : replans (d_sp d) = false ->
             grade (d_cyc d) = grade (if changes_cycle (d_sp d) then d_cyc0 d0 else d_cyc d0);
    wk_cyc_first : cmps (d_cyc d) 0 = cmps (if changes_cycle (d_sp d) then d_cyc0 d0 else d_cyc d0) 0 /\
                   ctime (d_cyc d) 0 = ctime (if changes_cycle (d_sp d) then d_cyc0 d0 else d_cyc d0) 0;
    wk_soc_ok : veh_pt_type (d_veh d0) = CONV \/
                (nltb (max_soc (d_veh d0)) s = false /\ nltb s (min_soc (d_veh d0)) = false);
    wk_row0 : soc (dec (row_at d 0)) = s /\ ess_cur_kwh (dec (row_at d 0)) = nmul s (ess_max_kwh (d_veh d0)) /\
              mps_ach (spd (row_at d 0)) = cmps (d_cyc0 d0) 0 /\
              fc_kw_out_ach (fc (row_at d 0)) = n0 /\ fs_kw_out_ach (fc (row_at d 0)) = n0 /\
              mc_mech_kw_out_ach (dec (row_at d 0)) = n0 /\ fc_time_on (dec (row_at d 0)) = n0 /\
              high_acc_fc_on_tag (misc (row_at d 0)) = false;
    wk_first : row_at d 0 = first_row d0 s (row_aux (aux_start ovr (clen (d_cyc d0)) 0) zero_row);
    wk_road : forall i, road (row_at d i) = n0;
    wk_aux : forall i, (1 <= i < length (d_rows d))%nat ->
      aux_in_kw (misc (row_at d i)) =
      if (neqb (aux_start ovr (length (d_rows d)) i) n0
          && all_zero (map (aux_start ovr (length (d_rows d))) (seq (S i) (length (d_rows d) - S i))))%bool
      then default_aux (d_veh d) else aux_start ovr (length (d_rows d)) i;
    wk_accel : forall i, (1 <= i < length (d_rows d))%nat ->
      accel_kw (pwr (row_at d i)) =
      ndiv (nmul (ndiv (veh_kg (d_veh d)) (nmul n2 (cdt (d_cyc d) i)))
                 (nsub (nsq (mps_ach_at d i)) (nsq (mps_ach_at d (i - 1))))) (nofZ 1000);
    wk_rows : forall i, (1 <= i < length (d_rows d))%nat -> exists e cur,
      same_but_accel (row_at d i) (solve_row (d_veh d) (d_props d) (d_sp d) e (row_at d (i - 1)) cur) /\
      ctl_in (row_at d i) = ctl_in cur /\
      e_dt e = cdt (d_cyc d) i /\
      ((forall v, e_grade e v = lookup_grade d i (Some v)) /\ e_grade_est e = estimate_grade d i) /\
      (replans (d_sp d) = false -> e_mps e = cmps (d_cyc d) i) /\
      (replans (d_sp d) = true -> cmps (d_cyc d) i = mps_ach (spd (row_at d i))) /\
      (missed_trace_correction (d_sp d) = false ->
       newton_iters (spd cur) = 0%nat /\ (replans (d_sp d) = false -> unsolved cur)) }.

  (** A step reads four groups of the row before it. *)
  Section Prev.
    Variables (v : vehicle F) (pr : physprops F) (s : simparams F) (e : step_env F) (p p' : row F).
    Hypotheses (Hm : misc p = misc p') (Hs : spd p = spd p') (Hd : dec p = dec p') (Hf : fc p = fc p').
    Lemma prev_misc a : set_misc_calcs v e p a = set_misc_calcs v e p' a.
    Proof. unfold set_misc_calcs. now rewrite Hm, Hs, Hd. Qed.
    Lemma prev_lims m c : set_comp_lims v pr e p m c = set_comp_lims v pr e p' m c.
    Proof. unfold set_comp_lims. now rewrite Hf, Hd. Qed.
    Lemma prev_pwr l x : set_power_calcs v pr e p l x = set_power_calcs v pr e p' l x.
    Proof. unfold set_power_calcs. now rewrite Hs. Qed.
    Lemma prev_spd l q o : set_ach_speed v pr s e p l q o = set_ach_speed v pr s e p' l q o.
    Proof.
      unfold set_ach_speed. destruct (cyc_met q); auto. rewrite Hs. cbv zeta.
      destruct (grade_loop _ _ _ _ _ _ _ _). now rewrite prev_pwr.
    Qed.
    Lemma prev_hyb m l q c o : set_hybrid_cont_calcs v e p m l q c o = set_hybrid_cont_calcs v e p' m l q c o.
    Proof.
      unfold set_hybrid_cont_calcs, calc_regen_buff, calc_accel_buff, calc_accel_regen_dischg, calc_can_pwr_all_elec.
      now rewrite Hd.
    Qed.
    Lemma prev_dec m l q h f c x :
      set_hybrid_cont_decisions v e p m l q h f c x = set_hybrid_cont_decisions v e p' m l q h f c x.
    Proof. unfold set_hybrid_cont_decisions, calc_ess_cur_kwh. now rewrite Hd. Qed.
    Lemma solve_row_prev c : solve_row v pr s e p c = solve_row v pr s e p' c.
    Proof.
      unfold solve_row. rewrite prev_misc, prev_lims, prev_pwr, prev_spd.
      destruct (set_ach_speed _ _ _ _ _ _ _ _). now rewrite prev_hyb, prev_dec.
    Qed.
  End Prev.
  Lemma solve_row_accel v pr s e a p c : solve_row v pr s e (row_accel a p) c = solve_row v pr s e p c.
  Proof. apply solve_row_prev; reflexivity. Qed.
  Lemma nth_repeat_z n j : nth j (repeat (@zero_row F N) n) zero_row = zero_row.
  Proof. revert j; induction n as [|n IH]; intros [|j]; cbn; auto. Qed.
  Lemma nth_zipw_aux (l : list F) (rows : list (row F)) j : length l = length rows ->
    (forall k, nth k rows zero_row = zero_row) ->
    nth j (zipw row_aux l rows) zero_row = if Nat.ltb j (length l) then row_aux (nth j l n0) zero_row else zero_row.
  Proof.
    revert rows j. induction l as [|x l IH]; intros [|r rows] j HL HZ; try discriminate.
    - now destruct j.
    - destruct j as [|j]; cbn [zipw nth length].
      + pose proof (HZ 0%nat) as Q. cbn in Q. now rewrite Q.
      + rewrite IH; [reflexivity|now inversion HL|]. intros k. apply (HZ (S k)).
  Qed.
  Lemma map_seq_nth {A B} (f : A -> B) (l : list A) (d : A) :
    map f l = map (fun j => f (nth j l d)) (seq 0 (length l)).
  Proof.
    induction l as [|x l IH]; cbn; auto. f_equal. rewrite IH, <- seq_shift, map_map. reflexivity.
  Qed.
  Lemma map_skipn_seq {A B} (f : A -> B) (l : list A) (d : A) k :
    map f (skipn k l) = map (fun j => f (nth j l d)) (seq k (length l - k)).
  Proof.
    rewrite (map_seq_nth f (skipn k l) d), skipn_length.
    replace (seq k (length l - k)) with (map (fun j => (k + j)%nat) (seq 0 (length l - k))).
    - rewrite map_map. apply map_ext. intros j. now rewrite nth_skipn.
    - clear. generalize (length l - k)%nat as n. intros n.
      enough (G : forall m, map (fun j => (k + j)%nat) (seq m n) = seq (k + m) n) by (rewrite G; now rewrite Nat.add_0_r).
      induction n as [|n IH]; intros m; cbn; auto. f_equal. rewrite IH. now rewrite Nat.add_succ_r.
  Qed.

  Lemma init_rows d s ovr d1 : init_for_step d s ovr = Ok d1 ->
    d_veh d1 = d_veh d /\ d_props d1 = d_props d /\ d_sp d1 = d_sp d /\ d_cyc0 d1 = d_cyc0 d /\
    d_cache d1 = build_cache (d_cyc0 d) /\ d_hev_sim_count d1 = d_hev_sim_count d /\ d_i d1 = 1%nat /\
    d_cyc d1 = (if changes_cycle (d_sp d) then d_cyc0 d else d_cyc d) /\
    length (d_rows d1) = clen (d_cyc d) /\ (0 < length (d_rows d1))%nat /\
    (veh_pt_type (d_veh d) = CONV \/ (nltb (max_soc (d_veh d)) s = false /\ nltb s (min_soc (d_veh d)) = false)) /\
    row_at d1 0 = first_row d s (row_aux (aux_start ovr (clen (d_cyc d)) 0) zero_row) /\
    (forall j, (1 <= j < length (d_rows d1))%nat -> row_at d1 j = row_aux (aux_start ovr (clen (d_cyc d)) j) zero_row).
  Proof.
    unfold init_for_step. intros H. if_in H; [discriminate|].
    set (rows := override_aux (d_rows (init_arrays d)) ovr) in H.
    assert (RL : length rows = clen (d_cyc d)).
    { unfold rows, override_aux. cbn. destruct ovr as [l|]; [|apply repeat_length].
      destruct (Nat.eqb_spec (length l) (length (repeat zero_row (clen (d_cyc d))))) as [Q|]; [|apply repeat_length].
      rewrite zipw_length, Q, repeat_length. lia. }
    assert (RN : forall j, (j < length rows)%nat -> nth j rows zero_row = row_aux (aux_start ovr (clen (d_cyc d)) j) zero_row).
    { intros j Hj. unfold rows, override_aux, aux_start, is_override. cbn. destruct ovr as [l|]; [|now rewrite nth_repeat_z].
      rewrite repeat_length. destruct (Nat.eqb_spec (length l) (clen (d_cyc d))) as [Q|]; [|now rewrite nth_repeat_z].
      rewrite nth_zipw_aux; [|now rewrite repeat_length|intros; apply nth_repeat_z].
      destruct (Nat.ltb_spec j (length l)); [reflexivity|]. lia. }
    destruct rows as [|r0 rest]; [discriminate|].
    injection H as <-.
    assert (P : forall A (f : sdrive F -> A) d2 c, (forall x y, f (with_cyc x y) = f x) ->
               f (if changes_cycle (d_sp d) then with_cyc d2 c else d2) = f d2).
    { intros. destruct (changes_cycle _); auto. }
    repeat split; try (rewrite P; [reflexivity|reflexivity]).
    - destruct (changes_cycle _); reflexivity.
    - rewrite (P _ (fun d => length (d_rows d))) by reflexivity. exact RL.
    - rewrite (P _ (fun d => length (d_rows d))) by reflexivity. cbn. lia.
    - apply Bool.andb_false_iff in C. destruct C as [C|C].
      + left. apply Bool.negb_false_iff in C. destruct (veh_pt_type (d_veh d)); auto; discriminate.
      + right. now apply Bool.orb_false_iff in C.
    - rewrite (P _ (fun d => row_at d 0)) by reflexivity. pose proof (RN 0%nat) as Q. cbn [nth length] in Q.
      rewrite <- Q by lia. reflexivity.
    - rewrite (P _ (fun d => length (d_rows d))) by reflexivity. intros j Hj.
      rewrite (P _ (fun d => row_at d j)) by reflexivity. rewrite <- RN by (cbn in *; lia).
      destruct j as [|j]; [lia|]. reflexivity.
  Qed.

  Lemma walk_walked d0 s ovr d : wf_sd d0 -> sim_drive_walk d0 s ovr = Ok d -> walked d0 s ovr d.
  Proof.
    intros (W1 & W2 & W3) H. unfold sim_drive_walk in H. inv_ok H. rename x into d1. inv_ok H. rename x into d2.
    injection H as <-.
    destruct (init_rows _ _ _ _ E) as (i1 & i2 & i3 & i4 & i5 & i6 & i7 & i8 & i9 & i10 & i11 & i12 & i13).
    assert (WC : wf (d_cyc d1) /\ clen (d_cyc d1) = clen (d_cyc d0)).
    { rewrite i8. destruct (changes_cycle _); auto. }
    destruct WC as [WC1 WC2].
    assert (Z : forall j, (1 <= j)%nat -> unsolved (row_at d1 j)).
    { intros j Hj. destruct (Nat.lt_ge_cases j (length (d_rows d1))).
      - now rewrite i13. - now rewrite row_at_out. }
    assert (I1 : inv d1 d1).
    { constructor; auto; try (rewrite i7; lia); intros j Hj; rewrite i7 in Hj; lia. }
    destruct (loop_inv d1) with (fuel := length (time_s (d_cyc d1))) (d := d1) (d' := d2) as [I HI]; auto.
    { destruct WC1. lia. }
    { rewrite i9, <- WC2. unfold clen. lia. }
    assert (LN : length (d_rows d2) = length (time_s (d_cyc d1))).
    { rewrite (iv_len _ _ I), i9. auto. }
    assert (IN : forall i, (1 <= i < length (d_rows (post_accel d2)))%nat ->
                 (1 <= i < length (d_rows d2))%nat /\ (1 <= i < d_i d2)%nat).
    { intros i. rewrite post_accel_len. lia. }
    assert (MA : forall i, mps_ach_at (post_accel d2) i = mps_ach_at d2 i).
    { intros i. unfold mps_ach_at. destruct i as [|i]; [now rewrite post_accel_0|].
      destruct (Nat.lt_ge_cases (S i) (length (d_rows d2))).
      - now rewrite post_accel_row by lia. - rewrite !row_at_out; auto. now rewrite post_accel_len. }
    constructor; cbn [d_veh d_props d_sp d_cyc0 d_cache d_hev_sim_count d_cyc post_accel with_rows].
    - now rewrite (iv_veh _ _ I). - now rewrite (iv_props _ _ I). - now rewrite (iv_sp _ _ I).
    - now rewrite (iv_cyc0 _ _ I). - now rewrite (iv_cache _ _ I). - now rewrite (iv_count _ _ I).
    - fold (post_accel d2). rewrite post_accel_len, (iv_len _ _ I). auto.
    - fold (post_accel d2). rewrite post_accel_len, (iv_len _ _ I). auto.
    - unfold wf_sd, wf, clen. cbn. rewrite (iv_tlen _ _ I), (iv_mlen _ _ I), (iv_glen _ _ I), (iv_rt _ _ I), (iv_cyc0 _ _ I).
      rewrite i4. destruct WC1 as (a & b & c), W2 as (a' & b' & c'). unfold clen in *. intuition congruence.
    - intros Q. rewrite (iv_times _ _ I), i8, (iv_sp _ _ I), i3; auto.
    - intros Q. rewrite (iv_mpss _ _ I), i8, (iv_sp _ _ I), i3; auto.
    - intros Q. rewrite (iv_grades _ _ I), i8, (iv_sp _ _ I), i3; auto.
    - rewrite (iv_mps0 _ _ I), (iv_time0 _ _ I), i8, (iv_sp _ _ I), i3. auto.
    - auto.
    - fold (post_accel d2). rewrite post_accel_0, (iv_row0 _ _ I), i12. cbn. intuition.
    - fold (post_accel d2). rewrite post_accel_0, (iv_row0 _ _ I), i12. reflexivity.
    - fold (post_accel d2). intros i. transitivity (road (row_at d2 i)).
      + destruct i as [|i]; [now rewrite post_accel_0|].
        destruct (Nat.lt_ge_cases (S i) (length (d_rows d2))).
        * now rewrite post_accel_row by lia. * rewrite !row_at_out; auto. now rewrite post_accel_len.
      + rewrite (iv_road _ _ I). destruct i as [|i]; [now rewrite i12|].
        destruct (Nat.lt_ge_cases (S i) (length (d_rows d1))).
        * rewrite i13 by lia. reflexivity. * now rewrite row_at_out.
    - fold (post_accel d2). intros i Hi. destruct (IN i Hi) as [H1 H2].
      rewrite post_accel_row by auto. cbn [misc row_accel]. rewrite (iv_aux _ _ I) by auto.
      rewrite next_aux_unfold by (rewrite <- (iv_len _ _ I); lia).
      rewrite post_accel_len, (iv_veh _ _ I), (iv_len _ _ I), i9.
      rewrite (map_skipn_seq _ _ zero_row), i9.
      rewrite i13 by (rewrite <- (iv_len _ _ I); lia). cbn [row_aux misc aux_in_kw].
      rewrite (map_ext_in _ (aux_start ovr (clen (d_cyc d0))) (seq (S i) _)); [reflexivity|].
      intros j Hj. apply in_seq in Hj. fold (row_at d1 j). rewrite i13 by (rewrite i9; lia). reflexivity.
    - fold (post_accel d2). intros i Hi. destruct (IN i Hi) as [H1 H2].
      rewrite post_accel_row by auto. rewrite !MA. reflexivity.
    - fold (post_accel d2). intros i Hi. destruct (IN i Hi) as [H1 H2].
      destruct (iv_rows _ _ I i H2) as (e & cur & A & B & CC & (D & DE) & EE & G & HH). exists e, cur.
      assert (PR : forall x, solve_row (d_veh d2) (d_props d2) (d_sp d2) e (row_at (post_accel d2) (i - 1)) x
                             = solve_row (d_veh d2) (d_props d2) (d_sp d2) e (row_at d2 (i - 1)) x).
      { intros x. destruct (Nat.eq_dec i 1) as [->|Q]; [now rewrite post_accel_0|].
        rewrite post_accel_row by lia. apply solve_row_accel. }
      rewrite PR, post_accel_row by auto. split; [|split; [|split; [|split; [split|split; [|split]]]]]; auto.
      + unfold same_but_accel. revert A. unfold core, row_accel. cbn. intros A. injection A as -> -> -> -> -> -> -> ->. reflexivity.
      + intros v. rewrite D. unfold lookup_grade. cbn [d_sp d_cache d_cyc d_cyc0 post_accel with_rows].
        fold (post_accel d2). now rewrite MA.
  Qed.

  (** ** sim_drive ends with a walk *)
  Record alike (d0 d1 : sdrive F) : Prop := {
    al_veh : d_veh d1 = d_veh d0; al_props : d_props d1 = d_props d0; al_sp : d_sp d1 = d_sp d0;
    al_cyc0 : d_cyc0 d1 = d_cyc0 d0;
    al_len : clen (d_cyc d1) = clen (d_cyc d0);
    al_cyc : changes_cycle (d_sp d0) = false ->
             time_s (d_cyc d1) = time_s (d_cyc d0) /\ mps (d_cyc d1) = mps (d_cyc d0) /\ grade (d_cyc d1) = grade (d_cyc d0);
    al_wf : wf_sd d0 -> wf_sd d1 }.
  Lemma alike_refl d : alike d d.
  Proof. constructor; auto. Qed.
  Lemma alike_trans a b c : alike a b -> alike b c -> alike a c.
  Proof.
    intros [] []; constructor; try congruence; auto.
    intros H. destruct (al_cyc2 H) as (? & ? & ?). rewrite <- al_sp0 in H. destruct (al_cyc4 H) as (? & ? & ?).
    repeat split; congruence.
  Qed.
  Lemma changes_replans (s : simparams F) : changes_cycle s = false -> replans s = false /\ missed_trace_correction s = false.
  Proof.
    unfold changes_cycle, replans. destruct (missed_trace_correction s), (coast_allow s), (idm_allow s); cbn; auto.
  Qed.
  Lemma walked_alike d0 s ovr d : wf_sd d0 -> walked d0 s ovr d -> alike d0 d.
  Proof.
    intros (W1 & W2 & W3) W. constructor; try apply W.
    - pose proof (wk_wf _ _ _ _ W) as (A & B & C). rewrite C, (wk_cyc0 _ _ _ _ W). auto.
    - intros H. destruct (changes_replans _ H) as [R M]. rewrite <- (wk_sp _ _ _ _ W) in R, M, H.
      rewrite (wk_times _ _ _ _ W), (wk_mps _ _ _ _ W), (wk_grade _ _ _ _ W) by auto. now rewrite H.
    - intros _. apply W.
  Qed.
  Lemma count_alike d n : alike d (with_count d n).
  Proof. constructor; auto. Qed.
  Lemma balance_alike : forall fuel d ovr s e d' s', wf_sd d ->
    balance_loop fuel d ovr s e = Ok (d', s') -> alike d d'.
  Proof.
    induction fuel as [|f IH]; intros d ovr s e d' s' W H; cbn [balance_loop] in H.
    - if_in H; [discriminate|]. injection H as <- <-. apply alike_refl.
    - if_in H; [|injection H as <- <-; apply alike_refl].
      inv_ok H. pose proof (walk_walked _ _ _ _ ltac:(apply (al_wf _ _ (count_alike d (S (d_hev_sim_count d)))); exact W) E) as K.
      assert (A : alike d x).
      { eapply alike_trans; [apply count_alike|]. eapply walked_alike; [|exact K]. exact W. }
      apply IH in H; [|now apply (al_wf _ _ A)]. eapply alike_trans; eauto.
  Qed.
  (** A completed run: a walk from a given state of charge, or sim_drive. *)
  Definition run (d0 : sdrive F) (ovr : option (list F)) (d : sdrive F) : Prop :=
    (exists s, sim_drive_walk d0 s ovr = Ok d) \/ (exists s, sim_drive d0 s ovr = Ok d).
  Lemma run_walked d0 ovr d : wf_sd d0 -> run d0 ovr d -> exists d1 s, alike d0 d1 /\ walked d1 s ovr d.
  Proof.
    intros W [[s H]|[s H]].
    - exists d0, s. split; [apply alike_refl|]. now apply walk_walked.
    - unfold sim_drive in H. cbv zeta in H.
      assert (K : forall x, sim_drive_walk (with_count d0 0) x ovr = Ok d -> exists d1 s, alike d0 d1 /\ walked d1 s ovr d).
      { intros x Q. exists (with_count d0 0), x. split; [apply count_alike|]. now apply walk_walked. }
      destruct s as [s|]; [eauto|]. destruct (veh_pt_type (d_veh d0)); eauto.
      inv_ok H. destruct x as [d1 x]. apply balance_alike in E; [|exact W].
      exists d1, x. split; [exact (alike_trans _ _ _ (count_alike d0 0) E)|]. apply walk_walked; auto.
      apply (al_wf _ _ E). exact W.
  Qed.
End Walk.
