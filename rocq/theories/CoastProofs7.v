(** Proofs for C90: one step of a coast. *)
From Coq Require Import Lia Lra.
From Verif Require Import Num Numpy ListFacts CycleModel CycleSpec ConcatProofs RateProofs DistProofs JerkProofs CycleProofs2 VehModel SimModel
  SimState WalkModel FrameProofs WalkProofs StepProofs SimSpec SimProofs1 SimProofs3 WalkSpec CoastSpec CoastProofs
  CoastProofs2 CoastProofs3 CoastProofs4 CoastProofs5 CoastProofs6.
Local Open Scope R_scope.

Lemma adopt_spec (d : sdrive R) i : (i < length (d_rows d))%nat -> (i < length (mps (d_cyc d)))%nat ->
  let d' := solve_and_adopt d i in
  speed d' i = speed (solve_step d i) i /\ nth i (mps (d_cyc d')) 0 = speed (solve_step d i) i /\
  (forall p, p <> i -> nth p (mps (d_cyc d')) 0 = nth p (mps (d_cyc d)) 0) /\ length (mps (d_cyc d')) = length (mps (d_cyc d)) /\
  (forall p, p <> i -> row_at d' p = row_at d p) /\ length (d_rows d') = length (d_rows d) /\ (forall p, coast_at d' p = coast_at d p).
Proof.
  intros HR HM d'. unfold d', solve_and_adopt. set (d1 := reset_newton (solve_step d i) i).
  assert (HS : (i < length (d_rows (solve_step d i)))%nat) by (unfold solve_step; now rewrite upd_row_length).
  assert (L1 : length (d_rows d1) = length (d_rows d)) by (unfold d1, reset_newton, solve_step; now rewrite !upd_row_length).
  assert (R1 : forall p, p <> i -> row_at d1 p = row_at d p).
  { intros p Hp. unfold d1, reset_newton, solve_step. now rewrite !upd_row_other. }
  assert (S1 : speed d1 i = speed (solve_step d i) i).
  { unfold speed, d1, reset_newton. now rewrite upd_row_same. }
  assert (C1 : forall p, coast_at d1 p = coast_at d p).
  { intros p. unfold coast_at. destruct (Nat.eq_dec p i) as [->|NE]; [|now rewrite R1].
    unfold d1, reset_newton. rewrite upd_row_same by exact HS. cbn [ctl row_spd]. unfold solve_step. rewrite upd_row_same by exact HR.
    now rewrite solve_row_ctl. }
  assert (RS : forall v p, row_at (set_cyc_mps d1 i v) p = row_at d1 p) by reflexivity.
  split; [unfold speed in *; rewrite RS; exact S1|].
  split; [change (nth i (mps (d_cyc (set_cyc_mps d1 i (mps_ach_at d1 i)))) 0) with (cmps (d_cyc (set_cyc_mps d1 i (mps_ach_at d1 i))) i);
          rewrite cmps_set_same by exact HM; exact S1|].
  split; [intros p Hp; exact (cmps_set d1 i (mps_ach_at d1 i) p Hp)|].
  split; [cbn [set_cyc_mps with_cyc d_cyc with_mps mps]; apply set_nth_length|].
  split; [intros p Hp; rewrite RS; now apply R1|]. split; [exact L1|]. intros p. unfold coast_at. rewrite RS. apply C1.
Qed.
Lemma set_nth_id {A} (l : list A) (z : A) : forall i, set_nth l i (nth i l z) = l.
Proof. induction l as [|a l IH]; intros [|i]; cbn; [reflexivity|reflexivity|reflexivity|]. now rewrite IH. Qed.
Lemma set_mps_id (d : sdrive R) i : set_cyc_mps d i (nth i (mps (d_cyc d)) 0) = d.
Proof. unfold set_cyc_mps, with_cyc, with_mps. rewrite set_nth_id. destruct d as [a b c [t m g r] e f h k l]. reflexivity. Qed.

Lemma delay_shape (d d' : sdrive R) i : set_coast_delay d i = Ok d' -> d_cyc d' = d_cyc d /\ forall j, coast_at d' j = coast_at d j.
Proof.
  intros H. unfold set_coast_delay in H. apply bind_ok in H as (z & _ & H).
  match type of H with Ok ?x = _ => assert (E : d' = x) by congruence end. subst d'. split; [reflexivity|]. intros j. unfold coast_at.
  destruct (Nat.lt_ge_cases j (length (d_rows d))) as [Hj|Hj].
  - unfold upd_ctl_rows, row_at, with_rows; cbn [d_rows]. rewrite (mapi_from_nth _ _ 0 j zero_row) by exact Hj. cbn [Nat.add].
    destruct (Nat.ltb j i); reflexivity.
  - unfold row_at. rewrite !nth_overflow; [reflexivity|exact Hj|rewrite ctl_rows_length; exact Hj].
Qed.
Lemma start_running (d : sdrive R) i : coast_at d i = true -> start_coast d i = Ok d.
Proof. intros H. unfold start_coast. rewrite H. cbn [negb]. now rewrite Bool.andb_false_r. Qed.
Lemma start_not (d : sdrive R) i : coast_at d i = false -> speed d (i - 1) <= 1 / 1000000 \/ should_impose_coast d i = Ok false ->
  start_coast d i = Ok d.
Proof.
  intros C H. unfold start_coast. rewrite C. cbn [negb]. rewrite Bool.andb_true_r. unR. rewrite lit_R.
  change (mps_ach_at d (i - 1)) with (speed d (i - 1)). destruct (Rltb_spec (1 / 1000000) (speed d (i - 1))) as [Q|Q]; [|reflexivity].
  destruct H as [H|H]; [lra|]. rewrite H. reflexivity.
Qed.
Lemma coast_follow (d : sdrive R) i : coast_at d i = false -> speed d (i - 1) <= 1 / 1000000 \/ should_impose_coast d i = Ok false ->
  set_coast_speed d i = Ok (if idm_allow (d_sp d) then d else set_cyc_mps d i (delayed_speed d i)).
Proof. intros C H. unfold set_coast_speed. rewrite (start_not d i C H). cbn [bindR]. rewrite C. reflexivity. Qed.
(** Starting a coast comes to planning it and going on as in a running one. *)
Lemma coast_starts (d d1 : sdrive R) i x : coast_at d i = false -> 1 / 1000000 < speed d (i - 1) -> should_impose_coast d i = Ok true ->
  generate_coast_trajectory d i true = Ok (d1, x) -> d_sp d1 = d_sp d -> speed d1 (i - 1) = speed d (i - 1) -> 0 <= x ->
  if coast_allow_passing (d_sp d) then coast_at d1 i = true -> set_coast_speed d i = set_coast_speed d1 i
  else forall d2 b, prevent_collisions d1 i None = Ok (d2, b) -> d_sp d2 = d_sp d -> speed d2 (i - 1) = speed d (i - 1) ->
    coast_at d2 i = true -> set_coast_speed d i = set_coast_speed d2 i.
Proof.
  intros C V SH G SP SPD X.
  assert (ST : start_coast d i = if coast_allow_passing (d_sp d) then Ok d1 else do p <- prevent_collisions d1 i None; Ok (fst p)).
  { unfold start_coast. rewrite C, SH, G. cbn [negb bindR fst snd]. rewrite Bool.andb_true_r. unR. rewrite lit_R.
    change (mps_ach_at d (i - 1)) with (speed d (i - 1)). destruct (Rltb_spec (1 / 1000000) (speed d (i - 1))) as [_|Q]; [|lra].
    destruct (Rltb_spec x 0) as [Q|_]; [lra|]. destruct (coast_allow_passing (d_sp d)); reflexivity. }
  destruct (coast_allow_passing (d_sp d)) eqn:PA.
  - intros CA. unfold set_coast_speed. rewrite ST, (start_running d1 i CA). cbn [bindR]. rewrite CA. cbn [negb].
    change (mps_ach_at d (i - 1)) with (speed d (i - 1)). change (mps_ach_at d1 (i - 1)) with (speed d1 (i - 1)). now rewrite SP, SPD.
  - intros d2 b PR SP2 SPD2 CA. unfold set_coast_speed. rewrite ST, PR, (start_running d2 i CA). cbn [bindR fst]. rewrite CA. cbn [negb].
    change (mps_ach_at d (i - 1)) with (speed d (i - 1)). change (mps_ach_at d2 (i - 1)) with (speed d2 (i - 1)). now rewrite SP2, SPD2.
Qed.
(** A plan that cannot be made leaves no flag set; without flag the trace is followed. *)
Lemma coast_unplanned (d : sdrive R) i x : coast_at d i = false -> 1 / 1000000 < speed d (i - 1) -> should_impose_coast d i = Ok true ->
  generate_coast_trajectory d i true = Ok (d, x) -> x < 0 -> coast_allow_passing (d_sp d) = true -> (i < length (d_rows d))%nat ->
  exists d1, set_coast_speed d i = Ok (if idm_allow (d_sp d) then d1 else set_cyc_mps d1 i (delayed_speed d i)) /\
    d_cyc d1 = d_cyc d /\ same_run d d1 /\ forall j, (i <= j < length (d_rows d))%nat -> coast_at d1 j = false.
Proof.
  intros C V SH G X PA HR.
  assert (ST : start_coast d i = Ok (clear_coast d i)).
  { unfold start_coast. rewrite C, SH, G. cbn [negb bindR fst snd]. rewrite Bool.andb_true_r, PA. unR. rewrite lit_R.
    change (mps_ach_at d (i - 1)) with (speed d (i - 1)). destruct (Rltb_spec (1 / 1000000) (speed d (i - 1))) as [_|Q]; [|lra].
    destruct (Rltb_spec x 0) as [_|Q]; [|lra]. reflexivity. }
  assert (CF : forall j, (i <= j < length (d_rows d))%nat -> coast_at (clear_coast d i) j = false).
  { intros j Hj. unfold clear_coast. rewrite coast_range_at by lia. destruct (Nat.ltb_spec j i); [lia|].
    destruct (Nat.ltb_spec j 0); [lia|]. now rewrite Bool.andb_false_r. }
  exists (clear_coast d i). split; [|split; [reflexivity|split; [apply set_range_frame|exact CF]]].
  unfold set_coast_speed. rewrite ST. cbn [bindR]. rewrite (CF i) by lia. cbn [negb].
  assert (DS : delayed_speed (clear_coast d i) i = delayed_speed d i).
  { unfold delayed_speed. f_equal. f_equal. f_equal. f_equal. f_equal.
    unfold row_at, clear_coast, set_coast_range, upd_ctl_rows, with_rows. cbn [d_rows].
    rewrite (mapi_from_nth _ _ 0 i zero_row) by exact HR. cbn [Nat.add]. unfold row_ctl. cbn [ctl].
    destruct (Nat.ltb i i); reflexivity. }
  now rewrite DS.
Qed.
(** A step of a running coast. *)
Lemma coast_step_rule (d d' : sdrive R) i : coast_at d i = true -> (i < length (d_rows d))%nat -> (i < length (mps (d_cyc d)))%nat ->
  set_coast_speed d i = Ok d' ->
  let a := coast_result d i in let v1 := nth i (mps (d_cyc d)) 0 in
  exists d3, step_adopted d d3 i /\
  ((a < 1 / 1000000 /\ (forall j, (i <= j < length (d_rows d))%nat -> coast_at d' j = false) /\ nth i (mps (d_cyc d')) 0 = 0 /\
    exists d4, set_coast_delay (clear_coast d3 i) i = Ok d4 /\ d' = set_cyc_mps d4 i 0) \/
   (1 / 1000000 <= a /\ Rabs (a - v1) <= 1 / 1000000 /\ d' = d3) \/
   (1 / 1000000 <= a /\ 1 / 1000000 < Rabs (a - v1) /\ nth i (mps (d_cyc d')) 0 = speed d' i /\
    exists r, adjust_coast d3 i ((a - nth (i - 1) (mps (d_cyc d3)) 0) / cdt (d_cyc d3) i) = Ok r /\
      if snd r then
        exists d4, d' = solve_and_adopt d4 i /\
          if coast_allow_passing (d_sp d) then d4 = fst r else exists b, prevent_collisions (fst r) i None = Ok (d4, b)
      else d' = fst r /\ fst r = d3)).
Proof.
  intros C HR HM H a v1. unfold set_coast_speed in H. rewrite (start_running d i C) in H. cbn [bindR] in H. rewrite C in H. cbn [negb] in H.
  change (mps_ach_at d (i - 1)) with (speed d (i - 1)) in H. change (cmps (d_cyc d) i) with v1 in H. unR.
  set (d2 := if Rltb _ (speed d (i - 1)) then _ else d) in H.
  assert (E2 : d2 = set_cyc_mps d i (coast_request d i)).
  { unfold d2, coast_request. fold v1. rewrite nmin_R.
    destruct (Rltb_spec (coast_brake_start_speed_m_per_s (d_sp d)) (speed d (i - 1))),
      (Rlt_dec (coast_brake_start_speed_m_per_s (d_sp d)) (speed d (i - 1))); try lra; [reflexivity|]. symmetry. apply set_mps_id. }
  rewrite E2 in H. clear d2 E2. set (d2 := set_cyc_mps d i (coast_request d i)) in *.
  assert (HM2 : (i < length (mps (d_cyc d2)))%nat) by (unfold d2, set_cyc_mps; cbn; rewrite set_nth_length; exact HM).
  destruct (adopt_spec d2 i HR HM2) as (A1 & A2 & A3 & A4 & A5 & A6 & A7). set (d3 := solve_and_adopt d2 i) in *.
  assert (SA : step_adopted d d3 i).
  { constructor.
    - exact A1.
    - exact A2.
    - split; [|split; [|repeat split]].
      + intros p Hp. rewrite A3 by exact Hp. exact (cmps_set d i (coast_request d i) p Hp).
      + rewrite A4. unfold d2, set_cyc_mps. cbn. apply set_nth_length.
    - split; [exact A6|exact A5].
    - exact A7.
    - repeat split. }
  exists d3. split; [exact SA|]. cbv zeta in H. change (cmps (d_cyc d3) i) with (nth i (mps (d_cyc d3)) 0) in H.
  rewrite (sa_cycle _ _ _ SA) in H. fold a in H. rewrite !lit_R in H.
  destruct (Rltb_spec a (1 / 1000000)) as [Q|Q].
  { left. split; [exact Q|]. apply bind_ok in H as (d4 & ED & H). assert (E : d' = set_cyc_mps d4 i 0) by congruence.
    pose proof (delay_frame _ _ _ ED) as FR. destruct (delay_shape _ _ _ ED) as (DC & DF).
    split; [|split].
    - intros j Hj. rewrite E. change (coast_at (set_cyc_mps d4 i 0) j) with (coast_at d4 j). rewrite DF.
      unfold clear_coast. rewrite coast_range_at by (rewrite A6; change (d_rows d2) with (d_rows d); lia). destruct (Nat.ltb_spec j i); [lia|].
      destruct (Nat.ltb_spec j 0); [lia|]. now rewrite Bool.andb_false_r.
    - rewrite E. change (nth i (mps (d_cyc (set_cyc_mps d4 i 0))) 0) with (cmps (d_cyc (set_cyc_mps d4 i 0)) i).
      apply cmps_set_same. rewrite DC. change (d_cyc (clear_coast d3 i)) with (d_cyc d3). rewrite A4. exact HM2.
    - exists d4. split; [exact ED|exact E]. }
  right. destruct (Rltb_spec (1 / 1000000) (Rabs (a - v1))) as [Q2|Q2].
  2:{ left. split; [lra|]. split; [lra|congruence]. }
  right. split; [lra|]. split; [lra|].
  apply bind_ok in H as (r & EA & H). change (cmps (d_cyc d3) (i - 1)) with (nth (i - 1) (mps (d_cyc d3)) 0) in EA.
  destruct r as [d5 b]. cbn [fst snd] in H.
  assert (LN : frame i d3 d5) by (exact (adjust_frame _ _ _ _ _ EA)).
  destruct b.
  - apply bind_ok in H as (d4 & EP & H). assert (E : d' = solve_and_adopt d4 i) by congruence.
    assert (F4 : frame i d3 d4).
    { destruct (coast_allow_passing (d_sp d)); [assert (d4 = d5) as -> by congruence; exact LN|].
      apply bind_ok in EP as ([d6 bb] & EP & E6). cbn in E6. assert (d4 = d6) as -> by congruence.
      eapply frame_trans; [exact LN|]. eapply prevent_frame. exact EP. }
    destruct (adopt_spec d4 i) as (B1 & B2 & _).
    { rewrite (fr_len _ _ _ F4). rewrite A6. exact HR. } { rewrite (fr_mlen _ _ _ F4), A4. exact HM2. }
    split; [rewrite E, B1, B2; reflexivity|]. exists (d5, true). split; [exact EA|]. cbn [snd fst].
    exists d4. split; [exact E|]. destruct (coast_allow_passing (d_sp d)); [congruence|].
    apply bind_ok in EP as ([d6 bb] & EP & E6). cbn in E6. exists bb. rewrite EP. congruence.
  - assert (E : d' = d5) by congruence.
    destruct (adjust_cases _ _ _ _ _ EA) as [(_ & Z & _)|(_ & q & _ & M)]; [discriminate|].
    assert (E3 : d5 = d3). { destruct q as [q|]; [destruct M; discriminate|]. apply M. }
    split; [rewrite E, E3; rewrite (sa_cycle _ _ _ SA), (sa_speed _ _ _ SA); reflexivity|].
    exists (d5, false). split; [exact EA|]. cbn [snd fst]. auto.
Qed.
