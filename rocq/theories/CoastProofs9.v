(** Proofs for C91: what avoiding a collision does to the run. *)
From Coq Require Import Lia Lra.
From Verif Require Import Num Numpy ListFacts CycleModel CycleSpec ConcatProofs RateProofs DistProofs JerkProofs CycleProofs2 VehModel SimModel
  SimState WalkModel FrameProofs WalkProofs TermProofs StepProofs SimSpec SimProofs1 SimProofs3 WalkSpec CoastSpec CoastProofs
  CoastProofs2 CoastProofs3 CoastProofs4 CoastProofs5 CoastProofs6 CoastProofs7 CoastProofs8.
Local Open Scope R_scope.

Lemma upd_at (d : sdrive R) i f p : row_at (upd_row d i f) p = if Nat.eq_dec p i then (if Nat.ltb i (length (d_rows d)) then f (row_at d i) else row_at d i) else row_at d p.
Proof.
  destruct (Nat.eq_dec p i) as [->|NE]; [|now rewrite upd_row_other].
  destruct (Nat.ltb_spec i (length (d_rows d))) as [Q|Q]; [now apply upd_row_same|]. now apply upd_row_out.
Qed.
Lemma full_brake_spec (d : sdrive R) s : (1 <= s)%nat -> forall ks,
  (forall m, In m ks -> (s + m < length (mps (d_cyc d)))%nat) -> length (mps (d_cyc d)) = length (d_rows d) ->
  let d' := full_brake d s ks in
  same_run d d' /\ time_s (d_cyc d') = time_s (d_cyc d) /\ grade (d_cyc d') = grade (d_cyc d) /\ length (mps (d_cyc d')) = length (mps (d_cyc d)) /\
  (forall p, (forall m, In m ks -> p <> s + m)%nat -> nth p (mps (d_cyc d')) 0 = nth p (mps (d_cyc d)) 0) /\
  (forall m, In m ks -> nth (s + m) (mps (d_cyc d')) 0 = braked d s (S m)) /\
  (forall p, (p < length (d_rows d))%nat -> coast_at d' p = (coast_at d p || existsb (fun m => Nat.eqb p (s + m)) ks)%bool).
Proof.
  intros HS ks. revert d. induction ks as [|k ks IH]; intros d LK LL d'.
  { cbn in d'. subst d'. split; [unfold same_run; repeat split; auto|]. split; [reflexivity|]. split; [reflexivity|]. split; [reflexivity|]. split; [reflexivity|]. split; [intros ? []|]. intros p _. cbn. now rewrite Bool.orb_false_r. }
  cbn [full_brake] in d'. set (v := nmax _ _) in d'. set (d1 := upd_row (set_cyc_mps d (s + k) v) (s + k) _) in d'.
  assert (VB : v = braked d s (S k)).
  { unfold v, braked, cmps, ctime. rewrite nmax_R. replace (s - 1 + S k)%nat with (s + k)%nat by lia. reflexivity. }
  assert (L1 : length (mps (d_cyc d1)) = length (mps (d_cyc d))) by (cbn; apply set_nth_length).
  assert (R1 : length (d_rows d1) = length (d_rows d)) by (unfold d1; rewrite upd_row_length; reflexivity).
  destruct (IH d1) as (I1 & I2 & I3 & I4 & I5 & I6 & I7).
  { intros m Hm. rewrite L1. apply LK. now right. } { rewrite L1, R1. exact LL. }
  fold d' in I1, I2, I3, I4, I5, I6, I7.
  assert (SR : same_run d d1).
  { unfold same_run. repeat split; auto. intros p. unfold speed, d1. rewrite upd_at.
    destruct (Nat.eq_dec p (s + k)) as [->|NE]; [|reflexivity]. destruct (Nat.ltb _ _); reflexivity. }
  assert (N1 : forall p, p <> (s + k)%nat -> nth p (mps (d_cyc d1)) 0 = nth p (mps (d_cyc d)) 0).
  { intros p NE. exact (cmps_set d (s + k) v p NE). }
  assert (N2 : nth (s + k) (mps (d_cyc d1)) 0 = v).
  { change (cmps (d_cyc (set_cyc_mps d (s + k) v)) (s + k) = v). apply cmps_set_same. apply LK. now left. }
  assert (BB : forall m, braked d1 s m = braked d s m).
  { intros m. unfold braked. rewrite N1 by lia. reflexivity. }
  split; [exact (same_run_trans _ _ _ SR I1)|]. split; [exact I2|]. split; [exact I3|]. split; [congruence|]. split; [|split].
  - intros p NP. rewrite I5; [apply N1; apply NP; now left|]. intros m Hm. apply NP. now right.
  - intros m Hm. destruct (in_dec Nat.eq_dec m ks) as [I|NI]; [rewrite I6 by exact I; apply BB|].
    destruct Hm as [<-|Hm]; [|contradiction]. rewrite I5; [rewrite N2; exact VB|]. intros m' Hm' E. apply NI. now replace k with m' by lia.
  - intros p Hp. rewrite I7 by (rewrite R1; exact Hp). cbn [existsb]. unfold coast_at at 1, d1. rewrite upd_at.
    destruct (Nat.eq_dec p (s + k)) as [->|NE].
    + rewrite Nat.eqb_refl. change (d_rows (set_cyc_mps d (s + k) v)) with (d_rows d).
      destruct (Nat.ltb_spec (s + k) (length (d_rows d))) as [_|Q]; [|lia]. cbn. now rewrite !Bool.orb_true_r.
    + apply Nat.eqb_neq in NE. rewrite NE. reflexivity.
Qed.

Lemma apply_avoids (d d' : sdrive R) q i e : wf_sd d -> (1 <= i)%nat -> (e < clen (d_cyc d))%nat -> length (d_rows d) = clen (d_cyc d) ->
  avoid_plan d i e (pc_fbs q) (pc_idx q) (pc_n q) (pc_jerk q) (pc_accel0 q) -> apply_collision d q = Ok d' ->
  avoided d d' (pc_fbs q) (pc_idx q) (pc_n q) (pc_jerk q) (pc_accel0 q).
Proof.
  intros W HI HE LR P H. destruct (ap_steps _ _ _ _ _ _ _ _ P) as (S1 & S2 & S3).
  set (s := pc_idx q) in *. set (f := pc_fbs q) in *. set (n := pc_n q) in *. set (k := pc_jerk q) in *. set (a := pc_accel0 q) in *.
  assert (LM : length (mps (d_cyc d)) = clen (d_cyc d)) by apply W.
  unfold apply_collision in H. fold s f n k a in H. apply bind_ok in H as ([c v] & EM & H).
  destruct (full_brake_spec d s ltac:(lia) (seq 0 f)) as (B1 & B2 & B3 & B4 & B5 & B6 & B7).
  { intros m Hm. apply in_seq in Hm. lia. } { lia. }
  set (d1 := full_brake d s (seq 0 f)) in *. cbn [fst] in H.
  assert (E : d' = upd_ctl_rows (with_cyc d1 c) (fun j cc => if Nat.ltb j (s + n) then cc else ctl_delay 0 (ctl_coast false cc))) by congruence.
  assert (VE : nth_error (mps (d_cyc d1)) (s + f - 1) = Some (nth (s + f - 1) (mps (d_cyc d1)) 0)) by (apply nth_error_nth'; lia).
  destruct (jerk_edit _ _ _ _ _ _ _ _ EM ltac:(rewrite B4, B2; apply W) ltac:(lia) ltac:(lia) VE) as (T1 & T2 & T3 & T4 & T5 & T6 & _).
  assert (DC : d_cyc d' = c) by (rewrite E; reflexivity).
  assert (OUT : forall p, (p < s + f \/ s + f + n <= p)%nat -> nth p (mps c) 0 = nth p (mps (d_cyc d1)) 0).
  { intros p Hp. specialize (T5 p ltac:(lia)).  rewrite <- !(nth_default_eq). unfold nth_default. now rewrite T5. }
  constructor.
  - rewrite E. apply (same_run_trans _ d1); [exact B1|]. unfold same_run. repeat split; auto.
    + rewrite ctl_rows_length. reflexivity.
    + intros p. unfold speed. destruct (Nat.lt_ge_cases p (length (d_rows d1))) as [Hp|Hp].
      * unfold upd_ctl_rows, row_at, with_rows; cbn [d_rows]. rewrite (mapi_from_nth _ _ 0 p zero_row) by exact Hp. reflexivity.
      * unfold row_at. rewrite !nth_overflow; [reflexivity|exact Hp|]. rewrite ctl_rows_length. exact Hp.
  - rewrite DC. split; [congruence|]. split; congruence.
  - intros p Hp. rewrite DC, OUT by lia. apply B5. intros m Hm. apply in_seq in Hm. lia.
  - intros m Hm. rewrite DC, OUT by lia. apply B6. apply in_seq. lia.
  - intros m Hm. rewrite DC. specialize (T6 m ltac:(lia) ltac:(lia)). apply (nth_error_nth _ _ 0) in T6. rewrite T6.
    rewrite (OUT (s + f - 1)%nat) by lia. rewrite Rmax_comm, B2. f_equal.
    unfold speed_for_constant_jerk. rewrite lit_R. unR. unfold duration. rewrite minus_IZR, <- INR_IZR_INZ. lra.
  - intros p Hp. rewrite E. unfold coast_at at 1. unfold upd_ctl_rows, row_at, with_rows; cbn [d_rows].
    assert (RL : length (d_rows d1) = length (d_rows d)) by apply B1.
    rewrite (mapi_from_nth _ _ 0 p zero_row) by (cbn; lia). cbn [Nat.add]. change (d_rows (with_cyc d1 c)) with (d_rows d1).
    destruct (Nat.ltb_spec p (s + n)) as [Q|Q]; cbn [andb]; [|reflexivity].
    change (coast_at d1 p = (coast_at d p || Nat.leb s p && Nat.ltb p (s + f))%bool). rewrite B7 by exact Hp. f_equal.
    apply Bool.eq_iff_eq_true. rewrite existsb_exists, Bool.andb_true_iff, Nat.leb_le, Nat.ltb_lt. split.
    + intros (m & I & Q2). apply in_seq in I. apply Nat.eqb_eq in Q2. lia.
    + intros [Q1 Q2]. exists (p - s)%nat. split; [apply in_seq; lia|]. apply Nat.eqb_eq. lia.
Qed.

(** ** The whole of it *)
Definition gave_up (d : sdrive R) (i : nat) (tol : R) : Prop :=
  exists e, passes d i tol e /\ forall f s n k a, (f < 4)%nat -> ~ avoid_plan d i e f s n k a.
Lemma tolerance_next m : (if Rltb (tolerance m) 10 then 10 else tolerance m + 5) = tolerance (S m).
Proof.
  destruct m as [|m]; cbn [tolerance].
  - destruct (Rltb_spec 1 10); cbn; lra.
  - pose proof (pos_INR m). destruct (Rltb_spec (10 + 5 * INR m) 10); [lra|]. rewrite S_INR. lra.
Qed.
Lemma detect_cases (d : sdrive R) i tol p : wf_sd d -> (1 <= i < clen (d_cyc d))%nat ->
  detect_passing (d_cyc d) (d_cyc0 d) i tol = Ok p ->
  (has_collision p = false /\ forall e, ~ passes d i tol e) \/
  (has_collision p = true /\ exists e, passes d i tol e /\ pi_idx p = e /\ distance_m p = trapezoid (d_cyc0 d) 0 e /\
     pi_speed p = nth e (mps (d_cyc0 d)) 0 /\ time_step_duration p = duration (d_cyc d) i).
Proof.
  intros W HI H. destruct W as (W1 & W0 & WL).
  destruct (detect_passing_spec (d_cyc d) (d_cyc0 d) i tol) as [(e & FO & E)|(NO & E)]; try apply W1; try apply W0; try (unfold clen in *; lia).
  - rewrite E in H. injection H as <-. cbn [has_collision pi_idx distance_m pi_speed time_step_duration]. unR.
    destruct (Rltb_spec (trapezoid (d_cyc d) 0 (i - 1)) (trapezoid (d_cyc0 d) 0 e)) as [Q|Q].
    + right. split; [reflexivity|]. exists e. split; [split; [exact FO|exact Q]|]. auto.
    + left. split; [reflexivity|]. intros e' [FO' Q']. assert (e' = e) as ->; [|unfold place in Q'; lra].
      destruct FO as (F1 & F2 & F3 & F4), FO' as (G1 & G2 & G3 & G4).
      destruct (Nat.lt_trichotomy e e') as [L|[L|L]]; [|auto|].
      * specialize (G4 e ltac:(lia)). lra.
      * specialize (F4 e' ltac:(lia)). lra.
  - rewrite E in H. injection H as <-. left. split; [reflexivity|]. intros e' [FO _]. apply NO. eauto.
Qed.
Lemma prevent_spec : forall fuel (d d' : sdrive R) i m b, wf_sd d -> (1 <= i < clen (d_cyc d))%nat -> length (d_rows d) = clen (d_cyc d) ->
  prevent_collisions_f fuel d i (tolerance m) = Ok (d', b) ->
  exists m', (m <= m')%nat /\ (m' <= Nat.max m 11)%nat /\ (forall j, (m <= j < m')%nat -> gave_up d i (tolerance j)) /\
    if b then exists e f s n k a, passes d i (tolerance m') e /\ (f < 4)%nat /\ avoid_plan d i e f s n k a /\ best_avoid d i e f s n k /\
      avoided d d' f s n k a
    else d' = d /\ ((forall e, ~ passes d i (tolerance m') e) \/ ((11 <= m')%nat /\ gave_up d i (tolerance m'))).
Proof.
  induction fuel as [|fu IH]; intros d d' i m b W HI LR H; [discriminate|]. cbn [prevent_collisions_f] in H.
  apply bind_ok in H as (p & ED & H).
  destruct (detect_cases d i _ p W HI ED) as [(HC & NO)|(HC & e & PE & P1 & P2 & P3 & P4)].
  { rewrite HC in H. cbn [negb] in H. assert (d' = d) as -> by congruence. assert (b = false) as -> by congruence.
    exists m. split; [lia|]. split; [lia|]. split; [intros; lia|]. split; [reflexivity|]. left. exact NO. }
  rewrite HC in H. cbn [negb] in H. apply bind_ok in H as (_u & _ & H).
  apply bind_ok in H as (best & ES & H).
  assert (HE : (i < e < clen (d_cyc d))%nat) by apply PE.
  pose proof (search_best d i e p W ltac:(lia) HE LR P1 P2 P3 P4 4 0 best ES) as SB.
  destruct best as [q|].
  - destruct SB as (S1 & S2 & S3). apply bind_ok in H as (d2 & EA & H). assert (d2 = d') as -> by congruence. assert (b = true) as -> by congruence.
    destruct S2 as (_ & S4 & S5). exists m. split; [lia|]. split; [lia|]. split; [intros; lia|].
    exists e, (pc_fbs q), (pc_idx q), (pc_n q), (pc_jerk q), (pc_accel0 q). split; [exact PE|]. split; [lia|]. split; [exact S4|].
    split; [split; [intros f' s' n' k' a' Q; apply S3; lia|exact S5]|].
    apply (apply_avoids d d' q i e); auto; lia.
  - assert (GU : gave_up d i (tolerance m)). { exists e. split; [exact PE|]. intros f s n k a Q. apply SB. lia. }
    cbv zeta in H. unR. rewrite tolerance_next in H. destruct (Rltb_spec 60 (tolerance (S m))) as [Q|Q].
    + assert (d' = d) as -> by congruence. assert (b = false) as -> by congruence.
      exists m. split; [lia|]. split; [lia|]. split; [intros; lia|]. split; [reflexivity|]. right. split; [|exact GU].
      cbn [tolerance] in Q. assert (10 < INR m) by lra. replace 10 with (INR 10) in * by (cbn; lra). apply INR_lt in H0. lia.
    + apply IH in H; auto. destruct H as (m' & M1 & M2 & M3 & M4). exists m'. split; [lia|]. split.
      * cbn [tolerance] in Q. assert (INR m <= 10) by lra. replace 10 with (INR 10) in * by (cbn; lra). apply INR_le in H. lia.
      * split; [|exact M4]. intros j Hj. destruct (Nat.eq_dec j m) as [->|NE]; [exact GU|]. apply M3. lia.
Qed.

(** With steps of one second the vehicle arrives where and when the lead vehicle does. *)
Lemma brake_trapezoid (d d' : sdrive R) s f : (1 <= s)%nat -> time_s (d_cyc d') = time_s (d_cyc d) -> unit_steps (d_cyc d) s f ->
  nth (s - 1) (mps (d_cyc d')) 0 = nth (s - 1) (mps (d_cyc d)) 0 -> 0 <= nth (s - 1) (mps (d_cyc d)) 0 ->
  0 <= nth (s - 1) (mps (d_cyc d)) 0 + coast_brake_accel_m_per_s2 (d_sp d) * INR f -> coast_brake_accel_m_per_s2 (d_sp d) < 0 ->
  (forall m, (m < f)%nat -> nth (s + m) (mps (d_cyc d')) 0 = braked d s (S m)) ->
  (forall m, (m <= f)%nat -> nth (s - 1 + m) (time_s (d_cyc d)) 0 = nth (s - 1) (time_s (d_cyc d)) 0 + INR m) /\
  nth (s + f - 1) (mps (d_cyc d')) 0 = braked d s f /\ trapezoid (d_cyc d') (s - 1) f = brake_way d s f.
Proof.
  intros HS TT U V0 VP BP AB H. set (v := nth (s - 1) (mps (d_cyc d)) 0) in *. set (ab := coast_brake_accel_m_per_s2 (d_sp d)) in *.
  assert (TM : forall m, (m <= f)%nat -> nth (s - 1 + m) (time_s (d_cyc d)) 0 = nth (s - 1) (time_s (d_cyc d)) 0 + INR m).
  { induction m as [|m IH]; intros Hm; [rewrite Nat.add_0_r; cbn; lra|]. specialize (U (s + m)%nat ltac:(lia)).
    replace (s - 1 + S m)%nat with (s + m)%nat by lia. replace (s + m - 1)%nat with (s - 1 + m)%nat in U by lia.
    rewrite IH in U by lia. rewrite S_INR. lra. }
  split; [exact TM|].
  assert (BR : forall m, (m <= f)%nat -> braked d s m = v + ab * INR m).
  { intros m Hm. unfold braked. fold v ab. rewrite (TM m Hm). rewrite Rmax_left; [lra|].
    assert (INR m <= INR f) by (apply le_INR; lia). nra. }
  assert (VM : forall m, (m <= f)%nat -> nth (s - 1 + m) (mps (d_cyc d')) 0 = v + ab * INR m).
  { intros [|m] Hm; [rewrite Nat.add_0_r, V0; cbn; lra|]. replace (s - 1 + S m)%nat with (s + m)%nat by lia.
    rewrite H by lia. apply BR. lia. }
  split; [replace (s + f - 1)%nat with (s - 1 + f)%nat by lia; rewrite VM, BR by lia; reflexivity|].
  assert (TR : forall m, (m <= f)%nat -> trapezoid (d_cyc d') (s - 1) m = v * INR m + ab * INR m * INR m / 2).
  { induction m as [|m IH]; intros Hm; [cbn; lra|]. rewrite trapezoid_snoc, IH by lia. unfold seg. rewrite TT.
    replace (S (s - 1 + m)) with (s - 1 + S m)%nat by lia. rewrite !VM, !TM by lia. rewrite S_INR. nra. }
  rewrite TR by lia. unfold brake_way. fold v. rewrite (TM f), BR by lia. lra.
Qed.
Lemma avoid_meets (d d' : sdrive R) i e f s n k a : wf_sd d -> (1 <= i)%nat -> (e < clen (d_cyc d))%nat ->
  avoid_plan d i e f s n k a -> avoided d d' f s n k a -> unit_steps (d_cyc d) i (e + 1 - i) ->
  coast_brake_accel_m_per_s2 (d_sp d) < 0 -> 0 <= nth (s - 1) (mps (d_cyc d)) 0 ->
  0 <= nth (s - 1) (mps (d_cyc d)) 0 + coast_brake_accel_m_per_s2 (d_sp d) * INR f -> 0 <= nth e (mps (d_cyc0 d)) 0 ->
  (forall p, (s + f <= p < e)%nat -> 0 < nth p (mps (d_cyc d')) 0) ->
  trapezoid (d_cyc d') 0 e = trapezoid (d_cyc0 d) 0 e /\ nth e (mps (d_cyc d')) 0 = nth e (mps (d_cyc0 d)) 0.
Proof.
  intros W HI HE P A U AB VP BP LP POS. destruct (ap_steps _ _ _ _ _ _ _ _ P) as (S1 & S2 & S3).
  destruct (av_same _ _ _ _ _ _ _ A) as (T1 & T2 & T3).
  assert (LM : length (mps (d_cyc d)) = clen (d_cyc d)) by apply W.
  destruct (brake_trapezoid d d' s f) as (TM & BE & BT); auto; try lia.
  { intros p Hp. apply U. lia. } { apply (av_outside _ _ _ _ _ _ _ A). lia. } { apply (av_brake _ _ _ _ _ _ _ A). }
  assert (D1 : duration (d_cyc d) i = 1) by (apply U; lia).
  assert (D2 : duration (d_cyc d) (s + f) = 1) by (apply U; lia).
  pose proof (ap_speed _ _ _ _ _ _ _ _ P) as PS. pose proof (ap_dist _ _ _ _ _ _ _ _ P) as PD. rewrite D1 in PS, PD.
  set (w := braked d s f) in *.
  assert (SP : forall j, (j <= n)%nat -> nth (s + f - 1 + j) (mps (d_cyc d')) 0 = speed_for_constant_jerk (Z.of_nat j) w a k 1).
  { intros [|j] Hj.
    - rewrite Nat.add_0_r, BE. destruct (jerk_unit_step 0 0 w a k) as (E & _). symmetry. exact E.
    - pose proof (av_jerk _ _ _ _ _ _ _ A (S j) ltac:(lia)) as J. rewrite BE, D2 in J. fold w in J.
      replace (s + f + S j - 1)%nat with (s + f - 1 + S j)%nat in J by lia. rewrite J. apply Rmax_left.
      destruct (Nat.eq_dec (S j) n) as [->|NE]; [rewrite PS; exact LP|].
      specialize (POS (s + f - 1 + S j)%nat ltac:(lia)). rewrite J in POS. unfold Rmax in POS. destruct (Rle_dec _ _); lra. }
  assert (TR : forall j, (j <= n)%nat -> trapezoid (d_cyc d') (s + f - 1) j = dist_for_constant_jerk (Z.of_nat j) 0 w a k 1).
  { induction j as [|j IH]; intros Hj.
    - cbn [trapezoid Z.of_nat]. destruct (jerk_unit_step 0 0 w a k) as (_ & E & _). symmetry. exact E.
    - rewrite trapezoid_snoc, IH by lia. unfold seg. rewrite T1. replace (S (s + f - 1 + j)) with (s + f - 1 + S j)%nat by lia.
      rewrite !SP by lia. pose proof (U (s + f + j)%nat ltac:(lia)) as UJ.
      replace (s + f + j)%nat with (s + f - 1 + S j)%nat in UJ at 1 by lia. replace (s + f + j - 1)%nat with (s + f - 1 + j)%nat in UJ by lia.
      rewrite UJ. destruct (jerk_unit_step (Z.of_nat j) 0 w a k) as (_ & _ & _ & E). rewrite Nat2Z.inj_succ. unfold Z.succ. rewrite E. lra. }
  split.
  - replace e with ((s - 1) + (f + n))%nat at 1 by lia. rewrite trapezoid_add, Nat.add_0_l, trapezoid_add, BT.
    replace (s - 1 + f)%nat with (s + f - 1)%nat by lia. rewrite TR by lia. rewrite <- PD.
    assert (PL : trapezoid (d_cyc d') 0 (s - 1) = place d s).
    { unfold place. apply trapezoid_ext; [exact T1|]. intros p Hp. apply (av_outside _ _ _ _ _ _ _ A). lia. }
    rewrite PL. unfold dist_for_constant_jerk. unR. lra.
  - replace e with (s + f - 1 + n)%nat at 1 by lia. rewrite SP by lia. exact PS.
Qed.
