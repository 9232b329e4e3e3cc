(** Walks in which no option changes the cycle (no trace-miss correction, no coasting, no car following),
    written out as one recurrence over the rows. *)
From Verif Require Import Num Numpy ListFacts CycleModel CycleSpec VehModel SimModel SimState WalkModel
  FrameProofs WalkProofs.
From Coq Require Import Lia FunctionalExtensionality.

Section Plain.
  Context {F : Type} {N : Num F}.

  (** The slope of step [i]. *)
  Definition plain_grade (d : sdrive F) (i : nat) : F :=
    if grade_all_zero (build_cache (d_cyc0 d)) then n0 else nth i (grade (d_cyc d)) n0.
  Definition plain_env (d : sdrive F) (ovr : option (list F)) (i : nat) : step_env F :=
    let n := clen (d_cyc d) in
    mkenv (cdt (d_cyc d) i) (cmps (d_cyc d) i) (fun _ => plain_grade d i) (plain_grade d i)
          (all_zero (map (aux_start ovr n) (seq i (n - i)))).
  Definition plain_solve (d : sdrive F) (ovr : option (list F)) (i : nat) (prev : row F) : row F :=
    solve_row (d_veh d) (d_props d) (d_sp d) (plain_env d ovr i) prev
              (row_aux (aux_start ovr (clen (d_cyc d)) i) zero_row).
  Definition plain_row (d : sdrive F) (ovr : option (list F)) (i : nat) (prev : row F) : row F :=
    let r := plain_solve d ovr i prev in
    row_accel (ndiv (nmul (ndiv (veh_kg (d_veh d)) (nmul n2 (cdt (d_cyc d) i)))
                          (nsub (nsq (mps_ach (spd r))) (nsq (mps_ach (spd prev))))) (nofZ 1000)) r.

  Lemma plain_flags (s : simparams F) : changes_cycle s = false ->
    missed_trace_correction s = false /\ idm_allow s = false /\ coast_allow s = false.
  Proof. unfold changes_cycle. intros H. apply Bool.orb_false_iff in H as [H C]. apply Bool.orb_false_iff in H as [A B]. auto. Qed.
  Lemma plain_step d : changes_cycle (d_sp d) = false -> sim_drive_step d = Ok (with_i (solve_step d (d_i d)) (S (d_i d))).
  Proof.
    intros H. destruct (plain_flags _ H) as (A & B & C). unfold sim_drive_step. now rewrite A, B, C.
  Qed.

  Record pinv (d1 d : sdrive F) (E : nat -> step_env F) : Prop := {
    pi_veh : d_veh d = d_veh d1; pi_props : d_props d = d_props d1; pi_sp : d_sp d = d_sp d1;
    pi_cyc : d_cyc d = d_cyc d1; pi_cyc0 : d_cyc0 d = d_cyc0 d1; pi_cache : d_cache d = d_cache d1;
    pi_len : length (d_rows d) = length (d_rows d1);
    pi_i : (1 <= d_i d)%nat;
    pi_row0 : row_at d 0 = row_at d1 0;
    pi_above : forall j, (d_i d <= j)%nat -> row_at d j = row_at d1 j;
    pi_below : forall j, (1 <= j < d_i d)%nat -> (j < length (d_rows d))%nat ->
               row_at d j = solve_row (d_veh d1) (d_props d1) (d_sp d1) (E j) (row_at d (j - 1)) (row_at d1 j) }.

  Lemma skipn_rows (a b : list (row F)) i : length a = length b ->
    (forall j, (i <= j)%nat -> nth j a zero_row = nth j b zero_row) -> skipn i a = skipn i b.
  Proof.
    intros L H. apply nth_ext with (d := zero_row) (d' := zero_row); [now rewrite !skipn_length, L|].
    intros n _. rewrite !nth_skipn. apply H. lia.
  Qed.
  Lemma env_plain d1 d i : changes_cycle (d_sp d1) = false ->
    d_sp d = d_sp d1 -> d_cyc d = d_cyc d1 -> d_cyc0 d = d_cyc0 d1 -> d_cache d = d_cache d1 ->
    length (d_rows d) = length (d_rows d1) ->
    (forall j, (i <= j)%nat -> row_at d j = row_at d1 j) -> env_at d i = env_at d1 i.
  Proof.
    intros H S C C0 K L A. destruct (plain_flags _ H) as (_ & B1 & B2). unfold env_at.
    rewrite C. unfold estimate_grade. rewrite S, K, C, B1, B2. cbn [andb negb]. f_equal.
    - apply functional_extensionality. intros v. unfold lookup_grade. now rewrite S, K, C, B1, B2.
    - do 2 f_equal. now apply skipn_rows.
  Qed.
  Lemma row_at_set d i r j : (i < length (d_rows d))%nat ->
    nth j (set_nth (d_rows d) i r) zero_row = if Nat.eqb j i then r else row_at d j.
  Proof.
    intros H. destruct (Nat.eqb_spec j i) as [->|Q].
    - apply nth_error_nth. now apply set_nth_same. - now apply nth_set_other.
  Qed.
  Lemma pinv_step d1 d d' : changes_cycle (d_sp d1) = false -> (d_i d < length (d_rows d1))%nat ->
    pinv d1 d (env_at d1) -> sim_drive_step d = Ok d' -> pinv d1 d' (env_at d1) /\ d_i d' = S (d_i d).
  Proof.
    intros H L I E. rewrite plain_step in E by (now rewrite (pi_sp _ _ _ I)). injection E as <-.
    assert (EE : env_at d (d_i d) = env_at d1 (d_i d)) by (apply env_plain; auto; apply I).
    assert (LL : (d_i d < length (d_rows d))%nat) by (rewrite (pi_len _ _ _ I); exact L).
    pose proof (pi_i _ _ _ I) as PI.
    split; [|reflexivity].
    assert (RA : forall j, row_at (with_i (solve_step d (d_i d)) (S (d_i d))) j =
                 if Nat.eqb j (d_i d) then solve_row (d_veh d) (d_props d) (d_sp d) (env_at d (d_i d)) (row_at d (d_i d - 1)) (row_at d (d_i d))
                 else row_at d j).
    { intros j. unfold row_at at 1. cbn [d_rows with_i solve_step upd_row with_rows]. now apply row_at_set. }
    constructor; try (cbn; apply I).
    - cbn. rewrite set_nth_length. apply I.
    - cbn. lia.
    - rewrite RA. destruct (Nat.eqb_spec 0 (d_i d)); [lia|apply I].
    - cbn [d_i with_i]. intros j Hj. rewrite RA. destruct (Nat.eqb_spec j (d_i d)); [lia|]. apply I. lia.
    - cbn [d_i with_i]. intros j Hj HL. rewrite !RA. cbn in HL. rewrite set_nth_length in HL.
      destruct (Nat.eqb_spec (j - 1) (d_i d)); [lia|]. destruct (Nat.eqb_spec j (d_i d)) as [->|Q].
      + rewrite EE, (pi_veh _ _ _ I), (pi_props _ _ _ I), (pi_sp _ _ _ I). f_equal. apply I. lia.
      + apply (pi_below _ _ _ I); lia.
  Qed.
  Lemma pinv_loop d1 : changes_cycle (d_sp d1) = false -> length (d_rows d1) = length (time_s (d_cyc d1)) ->
    forall fuel d d', pinv d1 d (env_at d1) -> walk_loop fuel d = Ok d' ->
    pinv d1 d' (env_at d1) /\ (length (d_rows d1) <= d_i d')%nat.
  Proof.
    intros H L. induction fuel as [|f IH]; intros d d' I E; cbn [walk_loop] in E;
      (destruct (Nat.ltb_spec (d_i d) (length (time_s (d_cyc d)))) as [Q|Q];
       [|injection E as <-; split; [exact I|rewrite (pi_cyc _ _ _ I) in Q; lia]]); [discriminate|].
    inv_ok E. rewrite (pi_cyc _ _ _ I) in Q. destruct (pinv_step d1 d x H ltac:(lia) I E0) as [J _]. eauto.
  Qed.
  Lemma skipn_map_seq {A} (f : nat -> A) n i : skipn i (map f (seq 0 n)) = map f (seq i (n - i)).
  Proof.
    assert (G : forall m k, skipn i (map f (seq k m)) = map f (seq (k + i) (m - i))).
    { induction i as [|i IH]; intros m k.
      - cbn. now rewrite Nat.add_0_r, Nat.sub_0_r.
      - destruct m as [|m]; [reflexivity|]. cbn [seq map skipn]. rewrite IH. now rewrite <- Nat.add_succ_comm. }
    rewrite G. reflexivity.
  Qed.

  (** The rows of a walk. *)
  Lemma plain_walk d0 s ovr d : wf_sd d0 -> changes_cycle (d_sp d0) = false -> sim_drive_walk d0 s ovr = Ok d ->
    row_at d 0 = first_row d0 s (row_aux (aux_start ovr (clen (d_cyc d0)) 0) zero_row) /\
    forall i, (1 <= i < clen (d_cyc d0))%nat -> row_at d i = plain_row d0 ovr i (row_at d (i - 1)).
  Proof.
    intros W H E. pose proof (walk_walked _ _ _ _ W E) as K. split; [apply K|]. revert E.
    unfold sim_drive_walk. intros E. inv_ok E. rename x into d1. inv_ok E. rename x into d2. injection E as <-.
    destruct (init_rows _ _ _ _ E0) as (i1 & i2 & i3 & i4 & i5 & i6 & i7 & i8 & i9 & i10 & i11 & i12 & i13).
    rewrite H in i8. assert (H1 : changes_cycle (d_sp d1) = false) by now rewrite i3.
    assert (L1 : length (d_rows d1) = length (time_s (d_cyc d1))) by (rewrite i9, i8; reflexivity).
    assert (I1 : pinv d1 d1 (env_at d1)) by (constructor; auto; rewrite ?i7; intros; lia).
    destruct (pinv_loop d1 H1 L1 _ _ _ I1 E1) as [I HI].
    intros i Hi. assert (Hi' : (1 <= i < length (d_rows d2))%nat) by (rewrite (pi_len _ _ _ I), i9; lia).
    rewrite post_accel_row by exact Hi'.
    assert (EV : env_at d1 i = plain_env d0 ovr i).
    { destruct (plain_flags _ H1) as (_ & B1 & B2). unfold env_at, plain_env. rewrite i8.
      unfold estimate_grade, plain_grade. rewrite B1, B2, i5, i8. cbn [andb negb]. f_equal.
      - apply functional_extensionality. intros v. unfold lookup_grade. now rewrite B1, B2, i5, i8.
      - f_equal. rewrite (map_skipn_seq _ _ zero_row), i9. apply map_ext_in. intros j Hj. apply in_seq in Hj.
        fold (row_at d1 j). rewrite i13 by lia. reflexivity. }
    assert (RB : row_at d2 i = plain_solve d0 ovr i (row_at (post_accel d2) (i - 1))).
    { rewrite (pi_below _ _ _ I i) by lia. rewrite EV, i1, i2, i3, i13 by lia. unfold plain_solve.
      destruct (Nat.eq_dec i 1) as [->|Q]; [now rewrite post_accel_0|].
      rewrite post_accel_row by lia. symmetry. apply solve_row_accel. }
    unfold plain_row. cbv zeta. rewrite <- RB.
    rewrite (pi_veh _ _ _ I), i1, (pi_cyc _ _ _ I), i8. do 4 f_equal. f_equal.
    unfold mps_ach_at. destruct (Nat.eq_dec i 1) as [->|Q]; [now rewrite post_accel_0|].
    now rewrite post_accel_row by lia.
  Qed.
End Plain.
