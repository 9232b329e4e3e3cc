(** Proofs for C88: the correction found, and what becomes of the coast. *)
From Coq Require Import Lia Lra.
From Verif Require Import Num Numpy ListFacts CycleModel CycleSpec ConcatProofs RateProofs DistProofs JerkProofs CycleProofs2 VehModel SimModel
  SimState WalkModel FrameProofs WalkProofs StepProofs SimSpec SimProofs1 SimProofs3 WalkSpec VehSpec VehProofs CoastSpec CoastProofs
  CoastProofs2 CoastProofs3 CoastProofs4.
Local Open Scope R_scope.

Lemma rendezvous (d : sdrive R) i mn mx r : wf_sd d -> d_cache d = build_cache (d_cyc0 d) -> (1 <= i < clen (d_cyc d))%nat ->
  nondecreasing (time_s (d_cyc0 d)) -> 0 < duration (d_cyc d) i -> 0 <= coast_brake_start_speed_m_per_s (d_sp d) ->
  calc_next_rendezvous_trajectory d i mn mx = Ok r ->
  let v0 := nth (i - 1) (mps (d_cyc d)) 0 in let vb := coast_brake_start_speed_m_per_s (d_sp d) in
  let ab := coast_brake_accel_m_per_s2 (d_sp d) in
  (v0 < vb + 1 / 1000000 /\ r = None) \/
  (vb + 1 / 1000000 <= v0 /\ exists stop, calc_distance_to_next_stop_from (d_cyc0 d) (place d i) (Some (d_cache d)) = Ok stop /\
     ((stop < 0 /\ r = None) \/
      (0 <= stop /\ ab <> 0 /\ let L := stop - stopping_distance ab vb in
        ((L < 0 /\ r = None) \/ (0 <= L /\ best_meeting d i L (Rmin mn mx) (Rmax mn mx) r))))).
Proof.
  intros W CA HI TI DT VB H v0 vb ab. unfold calc_next_rendezvous_trajectory in H.
  change (cmps (d_cyc d) (i - 1)) with v0 in H. fold vb ab in H. fold vb in VB.
  rewrite nmax_R in H. set (hz := Rmax (coast_time_horizon_for_adjustment_s (d_sp d)) n1) in H. unR.
  rewrite lit_R in H. destruct (Rltb_spec v0 (vb + 1 / 1000000)) as [Q|Q]; [left; split; [exact Q|congruence]|].
  right. split; [lra|].
  assert (ES : (if Rltb mx mn then (mx, mn) else (mn, mx)) = (Rmin mn mx, Rmax mn mx)).
  { unfold Rmin, Rmax. destruct (Rltb_spec mx mn), (Rle_dec mn mx); try lra; reflexivity. }
  rewrite ES in H. cbv iota beta in H. rewrite (start_place d i W HI) in H. cbn [bindR] in H.
  apply bind_ok in H as (stop & EN & H). exists stop. split; [exact EN|].
  destruct (Rltb_spec stop 0) as [S0|S0]; [left; split; [exact S0|congruence]|]. right. split; [lra|].
  rewrite dt_s_at_i_pos in H by (unfold clen in HI; lia). cbn [bindR] in H.
  change (nth i (time_s (d_cyc d)) 0 - nth (i - 1) (time_s (d_cyc d)) 0) with (duration (d_cyc d) i) in H.
  set (dt := duration (d_cyc d) i) in *.
  destruct (Reqb_spec ab 0) as [AB|AB]; [discriminate|]. split; [exact AB|]. cbv zeta.
  rewrite lit_R in H. replace (- (1 / 2) * vb * vb / ab) with (stopping_distance ab vb) in H by (unfold stopping_distance; field; exact AB).
  set (L := stop - stopping_distance ab vb) in *.
  destruct (Rltb_spec L 0) as [L0|L0]; [left; split; [exact L0|congruence]|]. right. split; [lra|].
  assert (LM : length (mps (d_cyc d)) = clen (d_cyc d)) by apply W.
  assert (LT : length (time_s (d_cyc0 d)) = clen (d_cyc d)) by (symmetry; apply W).
  destruct (length (mps (d_cyc d)) - i)%nat as [|f] eqn:FU; [lia|]. cbn [rdv_loop] in H. unR.
  assert (H1 : 1 <= hz) by (unfold hz; apply Rmax_r).
  destruct (Rleb_spec 0 hz) as [_|Q0]; [|lra].
  rewrite dt_s_at_i_pos in H by lia. cbn [bindR] in H.
  replace (i - (i - 1))%nat with 1%nat in H by lia. cbn [Nat.eqb] in H.
  replace (v0 + (vb - v0) / dt * dt) with vb in H by (field; lra).
  rewrite nmax_R in H. replace (Rmax 0 vb) with vb in H by (rewrite Rmax_right; lra).
  replace (vb - vb) with 0 in H by lra. rewrite Rabs_R0, lit_R in H.
  destruct (Rltb_spec 0 (1 / 1000000)) as [_|Q0]; [|lra]. cbn [andb] in H.
  destruct (Rltb_spec (Rabs (L - (v0 + vb) / 2 * dt)) (1 / 1000000)) as [M|M].
  - assert (r = Some (mkrdv 1 0 ((vb - v0) / dt) 0)) as -> by congruence. cbn. left. split; [exact M|]. auto.
  - assert (NM : ~ meets_now d i L) by (intros Z; unfold meets_now in Z; fold v0 vb dt in Z; lra).
    replace (0 + (nth i (time_s (d_cyc0 d)) 0 - nth (i - 1) (time_s (d_cyc0 d)) 0))
      with (nth (S i - 1) (time_s (d_cyc0 d)) 0 - nth (i - 1) (time_s (d_cyc0 d)) 0) in H
      by (replace (S i - 1)%nat with i by lia; lra).
    assert (B : forall m0, best_before d i L (Rmin mn mx) (Rmax mn mx) m0 r).
    { refine (loop_best d i L (Rmin mn mx) (Rmax mn mx) W HI TI DT f (S i) None r _ _ _ _ H); [lia|lia| |discriminate].
      unfold best_before. intros m k a Q1 P. destruct (mp_steps _ _ _ _ _ _ _ _ P). lia. }
    destruct r as [q|]; cbn [best_meeting best_before] in *.
    + right. split; [exact NM|]. destruct (B 0%nat) as (B1 & _ & _). split; [exact B1|]. intros n k a P.
      destruct (B (S n)) as (_ & _ & B3). apply (B3 n k a); [lia|exact P].
    + split; [exact NM|]. intros n k a. apply (B (S n)). lia.
Qed.

(** What becomes of a coast that goes differently from the plan. *)
Lemma set_range_frame (d : sdrive R) i a b : same_run d (set_coast_range d i a b).
Proof.
  unfold same_run. do 5 (split; [reflexivity|]). split.
  - unfold set_coast_range, upd_ctl_rows, with_rows. cbn. apply mapi_from_length.
  - intros p. unfold speed, mps_ach_at, row_at, set_coast_range, upd_ctl_rows, with_rows. cbn [d_rows].
    destruct (Nat.lt_ge_cases p (length (d_rows d))) as [Q|Q]; [|rewrite !nth_overflow by (rewrite ?mapi_from_length; lia); reflexivity].
    rewrite (mapi_from_nth _ _ 0 p zero_row) by exact Q. reflexivity.
Qed.
Lemma set_flags (d : sdrive R) c i b : coast_flags d (set_coast_range (with_cyc d c) i i b) i b.
Proof.
  intros p Hp. rewrite coast_range_at by exact Hp. destruct (Nat.ltb_spec p i); [reflexivity|].
  destruct (Nat.leb_spec i p); [reflexivity|lia].
Qed.
Lemma add_flags (d : sdrive R) c a b p : (p < length (d_rows d))%nat ->
  coast_at (add_coast_range (with_cyc d c) a b) p = (coast_at d p || Nat.leb a p && Nat.ltb p b)%bool.
Proof.
  intros Hp. unfold coast_at, row_at, add_coast_range, upd_ctl_rows, with_rows. cbn [d_rows with_cyc].
  rewrite (mapi_from_nth _ _ 0 p zero_row) by exact Hp. cbn [Nat.add]. unfold row_ctl. cbn [ctl].
  destruct (Nat.leb a p && Nat.ltb p b)%bool; cbn; [now rewrite Bool.orb_true_r|now rewrite Bool.orb_false_r].
Qed.
Lemma add_frame (d : sdrive R) c a b : same_run d (add_coast_range (with_cyc d c) a b).
Proof.
  unfold same_run. do 5 (split; [reflexivity|]). split.
  - unfold add_coast_range, upd_ctl_rows, with_rows. cbn. apply mapi_from_length.
  - intros p. unfold speed, row_at, add_coast_range, upd_ctl_rows, with_rows. cbn [d_rows with_cyc].
    destruct (Nat.lt_ge_cases p (length (d_rows d))) as [Q|Q]; [|rewrite !nth_overflow by (rewrite ?mapi_from_length; lia); reflexivity].
    rewrite (mapi_from_nth _ _ 0 p zero_row) by exact Q. reflexivity.
Qed.
Lemma same_run_trans (a b c : sdrive R) : same_run a b -> same_run b c -> same_run a c.
Proof.
  intros (A1 & A2 & A3 & A4 & A5 & A6 & A7) (B1 & B2 & B3 & B4 & B5 & B6 & B7).
  do 6 (split; [congruence|]). intros p. now rewrite B7, A7.
Qed.

Lemma trapezoid_ext (c c' : cyc R) : time_s c = time_s c' -> forall n j, (forall p, (j <= p <= j + n)%nat -> nth p (mps c) 0 = nth p (mps c') 0) ->
  trapezoid c j n = trapezoid c' j n.
Proof.
  intros T. induction n as [|n IH]; intros j H; cbn [trapezoid]; [reflexivity|].
  rewrite T, (H j), (H (S j)) by lia. rewrite IH; [reflexivity|]. intros p Hp. apply H. lia.
Qed.
Lemma adjust_cases (d d' : sdrive R) i accel b : adjust_coast d i accel = Ok (d', b) ->
  let vb := coast_brake_start_speed_m_per_s (d_sp d) in let ab := coast_brake_accel_m_per_s2 (d_sp d) in
  (nth i (mps (d_cyc d)) 0 < vb - 1 / 10 /\ b = true /\ same_run d d' /\
   exists v nb, modify_with_braking_trajectory (d_cyc d) ab i None = Ok (d_cyc d', v, Z.of_nat nb) /\ coast_flags d d' i (i + nb)) \/
  (vb - 1 / 10 <= nth i (mps (d_cyc d)) 0 /\ exists r, calc_next_rendezvous_trajectory d i ab (Rmin accel 0) = Ok r /\
   match r with
   | None => d' = d /\ b = false
   | Some q => b = true /\ same_run d d' /\ exists c v,
       modify_by_const_jerk_trajectory (d_cyc d) i (Z.of_nat (rv_n q)) (rv_jerk q) (rv_accel q) = Ok (c, v) /\
       ((1 / 10 <= Rabs (v - vb) /\ d_cyc d' = c /\ coast_flags d d' i (i + rv_n q)) \/
        (Rabs (v - vb) < 1 / 10 /\ exists u nb, modify_with_braking_trajectory c ab (i + rv_n q) None = Ok (d_cyc d', u, Z.of_nat nb) /\
           coast_flags d d' i (i + rv_n q + nb)))
   end).
Proof.
  intros H vb ab. unfold adjust_coast in H. fold vb ab in H. change (cmps (d_cyc d) i) with (nth i (mps (d_cyc d)) 0) in H.
  unR. rewrite !lit_R in H. destruct (Rltb_spec (nth i (mps (d_cyc d)) 0) (vb - 1 / 10)) as [Q|Q].
  - left. split; [exact Q|]. apply bind_ok in H as ([[c v] n] & EM & H). cbn [fst snd] in H.
    assert (NN := braking_count _ _ _ _ _ _ _ EM).
    assert (E : d' = set_coast_range (with_cyc d c) i i (i + Z.to_nat n)) by congruence. split; [congruence|]. rewrite E.
    split; [exact (same_run_trans _ _ _ (add_frame d c 0 0) (set_range_frame (with_cyc d c) i i (i + Z.to_nat n)))
           || (apply (set_range_frame (with_cyc d c)))|].
    exists v, (Z.to_nat n). rewrite Z2Nat.id by exact NN. split; [exact EM|apply set_flags].
  - right. split; [lra|]. apply bind_ok in H as (r & ER & H). rewrite nmin_R in ER. exists r. split; [exact ER|].
    destruct r as [q|]; [|split; congruence].
    apply bind_ok in H as ([c v] & EM & H). cbn [fst snd] in H. cbv zeta in H.
    set (n := rv_n q) in *. set (d1 := set_coast_range (with_cyc d c) i i (i + n)) in *.
    assert (S1 : same_run d d1) by (apply (set_range_frame (with_cyc d c))).
    destruct (Rltb_spec (Rabs (v - vb)) (1 / 10)) as [V|V].
    + apply bind_ok in H as ([[c2 u] m] & EB & H). cbn [fst snd] in H.
      assert (E : d' = add_coast_range (with_cyc d1 c2) (i + n) (i + n + Z.to_nat m)) by congruence.
      split; [congruence|]. split; [rewrite E; exact (same_run_trans _ _ _ S1 (add_frame d1 c2 _ _))|].
      exists c, v. split; [exact EM|]. right. split; [exact V|]. exists u, (Z.to_nat m).
      rewrite Z2Nat.id by exact (braking_count _ _ _ _ _ _ _ EB). split; [rewrite E; exact EB|].
      intros p Hp. rewrite E, add_flags by (destruct S1 as (_ & _ & _ & _ & _ & L & _); lia).
      unfold d1. rewrite (set_flags d c i (i + n) p Hp).
      destruct (Nat.ltb_spec p i).
      * destruct (Nat.leb_spec (i + n) p); [lia|]. now rewrite Bool.orb_false_r.
      * destruct (Nat.ltb_spec p (i + n)), (Nat.leb_spec (i + n) p), (Nat.ltb_spec p (i + n + Z.to_nat m)); try lia; reflexivity.
    + assert (E : d' = d1) by congruence. split; [congruence|]. rewrite E. split; [exact S1|]. exists c, v. split; [exact EM|].
      left. split; [lra|]. split; [reflexivity|]. apply set_flags.
Qed.

(** With one-second steps the corrected coast ends at the stop. *)
Lemma adjust_arrives (d d' : sdrive R) i accel : wf_sd d -> d_cache d = build_cache (d_cyc0 d) -> (1 <= i < clen (d_cyc d))%nat ->
  nondecreasing (time_s (d_cyc0 d)) -> 0 <= coast_brake_start_speed_m_per_s (d_sp d) ->
  coast_brake_start_speed_m_per_s (d_sp d) - 1 / 10 <= nth i (mps (d_cyc d)) 0 ->
  (forall p, (i <= p < clen (d_cyc d))%nat -> duration (d_cyc d) p = 1) ->
  adjust_coast d i accel = Ok (d', true) ->
  exists stop n nb, calc_distance_to_next_stop_from (d_cyc0 d) (place d i) (Some (d_cache d)) = Ok stop /\ (1 <= n)%nat /\
    coast_flags d d' i (i + n + nb) /\
    nth (i + n - 1) (mps (d_cyc d')) 0 = coast_brake_start_speed_m_per_s (d_sp d) /\
    ((0 < nb)%nat -> (i + n + nb <= clen (d_cyc d))%nat ->
     (forall p, (i <= p < i + n + nb - 1)%nat -> 0 < nth p (mps (d_cyc d')) 0) ->
     Rabs (trapezoid (d_cyc d') (i - 1) (n + nb) - stop) < 1 / 1000000 /\ nth (i + n + nb - 1) (mps (d_cyc d')) 0 = 0).
Proof.
  intros W CA HI TI VB VI U H.
  set (vb := coast_brake_start_speed_m_per_s (d_sp d)) in *. set (ab := coast_brake_accel_m_per_s2 (d_sp d)) in *.
  assert (LM : length (mps (d_cyc d)) = length (time_s (d_cyc d))) by apply W.
  assert (U1 : duration (d_cyc d) i = 1) by (apply U; lia).
  destruct (adjust_cases d d' i accel true H) as [(Q & _)|(_ & r & ER & A)]; [fold vb in Q; lra|]. fold vb ab in ER, A.
  destruct r as [q|]; [|destruct A; discriminate]. destruct A as (_ & SR & c & v & EM & A). set (n := rv_n q) in *.
  destruct (rendezvous d i _ _ _ W CA HI TI ltac:(rewrite U1; lra) VB ER) as [[_ Q]|(V0 & stop & EN & [[_ Q]|(S0 & AB & [[_ Q]|(L0 & B)])])];
    try discriminate. fold vb ab in V0, L0, B, AB. set (v0 := nth (i - 1) (mps (d_cyc d)) 0) in *. set (L := stop - stopping_distance ab vb) in *.
  assert (N : (1 <= n)%nat /\ (i + n <= clen (d_cyc d))%nat /\ Rabs (dist_for_constant_jerk (Z.of_nat n) 0 v0 (rv_accel q) (rv_jerk q) 1 - L) < 1 / 1000000 /\
    speed_for_constant_jerk (Z.of_nat n) v0 (rv_accel q) (rv_jerk q) 1 = vb).
  { cbn [best_meeting] in B. destruct B as [(M & N1 & K & A1)|(_ & P & _)].
    - unfold n. rewrite N1, K, A1, U1. unfold meets_now in M. fold v0 vb in M. rewrite U1 in M. fold v0 vb.
      split; [lia|]. split; [lia|]. split.
      + unfold dist_for_constant_jerk. unR. rewrite !lit_R. cbn [Z.of_nat Pos.of_succ_nat Z.sub Z.add Z.opp Z.pos_sub Pos.pred_double].
        rewrite Rabs_minus_sym in M. match goal with |- Rabs ?x < _ => match type of M with Rabs ?y < _ => replace x with y by field end end. exact M.
      + unfold speed_for_constant_jerk. unR. rewrite !lit_R. cbn [Z.of_nat Pos.of_succ_nat Z.sub Z.add Z.opp Z.pos_sub Pos.pred_double]. field.
    - destruct (mp_steps _ _ _ _ _ _ _ _ P) as (P1 & P2). pose proof (mp_speed _ _ _ _ _ _ _ _ P) as PS.
      pose proof (mp_dist _ _ _ _ _ _ _ _ P) as PD. rewrite U1 in PS, PD. fold v0 vb n in PS, PD.
      split; [unfold n; lia|]. split; [exact P2|]. split; [rewrite PD; unfold L; replace (stop - stopping_distance ab vb - (stop - stopping_distance ab vb)) with 0 by lra; rewrite Rabs_R0; lra|exact PS]. }
  destruct N as (N1 & N2 & ND & NS). unfold clen in N2, HI, U. clear B.
  assert (VE : nth_error (mps (d_cyc d)) (i - 1) = Some v0) by (unfold v0; apply nth_error_nth'; lia).
  destruct (jerk_edit (d_cyc d) c i (Z.of_nat n) (rv_jerk q) (rv_accel q) v v0 EM LM ltac:(lia) ltac:(lia) VE)
    as (T1 & _ & _ & T4 & T5 & T6 & T7).
  change (nth i (time_s (d_cyc d)) 0 - nth (i - 1) (time_s (d_cyc d)) 0) with (duration (d_cyc d) i) in T7, T6. rewrite U1 in T7, T6.
  assert (EV : v = vb) by (rewrite T7 by lia; exact NS).
  destruct A as [(A & _)|(_ & u & nb & EB & FL)].
  { rewrite EV in A. replace (vb - vb) with 0 in A by lra. rewrite Rabs_R0 in A. lra. }
  assert (LW : nth (i + n - 1) (mps c) 0 = vb).
  { specialize (T6 n ltac:(lia) ltac:(lia)). apply (nth_error_nth _ _ 0) in T6. rewrite T6.
    rewrite <- NS. rewrite Rmax_right.
    - unfold speed_for_constant_jerk. unR. rewrite lit_R, minus_IZR, <- INR_IZR_INZ. field.
    - replace (v0 + INR n * rv_accel q * 1 + INR n * (INR n - 1) / 2 * rv_jerk q * 1) with vb; [lra|].
      rewrite <- NS. unfold speed_for_constant_jerk. unR. rewrite lit_R, minus_IZR, <- INR_IZR_INZ. field. }
  exists stop, n, nb. split; [exact EN|]. split; [exact N1|]. split; [exact FL|].
  assert (OUT : forall p, (p < i + n)%nat -> (p < length (mps c))%nat -> nth p (mps (d_cyc d')) 0 = nth p (mps c) 0).
  { intros p Hp Hl. destruct (Nat.lt_ge_cases (i + n) (length (time_s c))) as [Q|Q].
    - assert (VE2 : nth_error (mps c) (i + n - 1) = Some vb) by (rewrite (nth_error_nth' _ 0) by lia; now rewrite LW).
      destruct (braking_edit c (d_cyc d') ab (i + n) None u (Z.of_nat nb) vb EB ltac:(congruence) ltac:(lia) Q VE2)
        as (_ & _ & _ & _ & B4 & B5 & _). specialize (B5 p ltac:(left; lia)).
      rewrite !(nth_error_nth' _ 0) in B5 by lia. congruence.
    - destruct (mps c) as [|m0 mr] eqn:EC; [cbn in Hl; lia|].
      assert (BR : ab < 0). { unfold modify_with_braking_trajectory, assertR in EB. unR. destruct (Rltb_spec ab 0); [assumption|discriminate]. }
      rewrite (braking_past_end c ab (i + n) None m0 mr BR Q EC) in EB. assert (E : d_cyc d' = c) by congruence. rewrite E, EC. reflexivity. }
  split; [rewrite OUT by lia; exact LW|].
  intros NB FIT P. unfold clen in FIT.
  assert (Q : (i + n < length (time_s c))%nat) by (rewrite T1; lia).
  assert (VE2 : nth_error (mps c) (i + n - 1) = Some vb) by (rewrite (nth_error_nth' _ 0) by lia; now rewrite LW).
  destruct (braking_edit c (d_cyc d') ab (i + n) None u (Z.of_nat nb) vb EB ltac:(congruence) ltac:(lia) Q VE2)
    as (_ & B1 & _ & _ & B4 & B5 & _ & B7).
  assert (US : forall a b, (i <= a)%nat -> (a + b <= length (time_s (d_cyc d)))%nat -> unit_steps (d_cyc d) a b).
  { intros a b HA HB p Hp. apply U. lia. }
  destruct (jerk_edit_distance (d_cyc d) c i n (rv_jerk q) (rv_accel q) v v0 EM LM ltac:(lia) N1 ltac:(lia) VE
    (US i n ltac:(lia) ltac:(lia))) as (JD & _).
  { intros p Hp. rewrite <- OUT by lia. apply P. lia. } { rewrite NS. exact VB. }
  pose proof (braking_distance c (d_cyc d') ab (i + n) None u (Z.of_nat nb) vb EB ltac:(congruence) ltac:(lia) Q VE2 ltac:(lia)) as BD.
  rewrite Nat2Z.id in BD. specialize (BD ltac:(lia)).
  assert (US2 : unit_steps c (i + n) nb) by (intros p Hp; rewrite T1; apply (US (i + n)%nat nb); lia).
  specialize (BD US2 ltac:(intros p Hp; apply P; lia)). cbn [brake_request] in BD.
  split.
  - rewrite trapezoid_add. replace (i - 1 + n)%nat with (i + n - 1)%nat by lia. rewrite BD.
    assert (TE : trapezoid (d_cyc d') (i - 1) n = trapezoid c (i - 1) n).
    { apply trapezoid_ext; [exact B1|]. intros p Hp. apply OUT; lia. }
    rewrite TE, JD. unfold L in ND.
    match type of ND with Rabs ?x < _ => match goal with |- Rabs ?y < _ => replace y with x by lra end end. exact ND.
  - destruct B7 as [[Z0 _]|(_ & _ & B7)]; [lia|]. destruct (B7 ltac:(lia)) as [E _].
    replace (Z.to_nat (Z.of_nat (i + n) + Z.of_nat nb - 1)) with (i + n + nb - 1)%nat in E by lia. now apply (nth_error_nth _ _ 0) in E.
Qed.
