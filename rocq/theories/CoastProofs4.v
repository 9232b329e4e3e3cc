(** Proofs for C88: correcting a coast. *)
From Coq Require Import Lia Lra.
From Verif Require Import Num Numpy ListFacts CycleModel CycleSpec RateProofs DistProofs JerkProofs CycleProofs2 VehModel SimModel
  SimState WalkModel FrameProofs WalkProofs StepProofs SimSpec SimProofs1 SimProofs3 WalkSpec VehSpec VehProofs CoastSpec CoastProofs
  CoastProofs2 CoastProofs3.
Local Open Scope R_scope.

Lemma nminl_in (a : R) l : In (nminl a l) (a :: l).
Proof.
  unfold nminl. revert a; induction l as [|b l IH]; intros a; cbn [fold_left]; [now left|].
  destruct (IH (nmin a b)) as [E|E]; [|right; right; exact E]. rewrite <- E, nmin_R. unfold Rmin. destruct (Rle_dec a b); cbn; auto.
Qed.
Lemma nminl_le (l : list R) a x : In x (a :: l) -> nminl a l <= x.
Proof. exact (lmin_le (a :: l) (nminl a l) eq_refl x). Qed.
Lemma amin_in (l : list R) : l <> [] -> In (amin l) l.
Proof. destruct l; [congruence|]. intros _. apply nminl_in. Qed.
Lemma amin_le (l : list R) x : In x l -> amin l <= x.
Proof. destruct l; [intros []|]. apply nminl_le. Qed.

(** The accelerations of a plan lie between its first and its last. *)
Lemma ramp_range (a k dt : R) n : (1 <= n)%nat -> 0 <= k -> 0 < dt ->
  let acs := map (fun m => accel_for_constant_jerk (Z.of_nat m) a k dt) (seq 0 n) in
  amax acs = a + INR (n - 1) * k * dt /\ amin acs = a.
Proof.
  intros N K D acs.
  assert (KD : 0 <= k * dt) by nra.
  assert (IN : forall x, In x acs <-> exists m, (m < n)%nat /\ x = a + INR m * k * dt).
  { intros x. unfold acs. rewrite in_map_iff. split.
    - intros (m & E & I). apply in_seq in I. exists m. split; [lia|]. rewrite <- E. unfold accel_for_constant_jerk. unR.
      rewrite <- INR_IZR_INZ. reflexivity.
    - intros (m & I & E). exists m. split; [|apply in_seq; lia]. rewrite E. unfold accel_for_constant_jerk. unR.
      rewrite <- INR_IZR_INZ. reflexivity. }
  assert (NE : acs <> []). { unfold acs. destruct n; [lia|]. discriminate. }
  split; apply Rle_antisym.
  - destruct (proj1 (IN _) (amax_in acs NE)) as (m & I & ->).
    assert (INR m <= INR (n - 1)) by (apply le_INR; lia). nra.
  - apply amax_ge. apply IN. exists (n - 1)%nat. split; [lia|reflexivity].
  - apply amin_le. apply IN. exists 0%nat. split; [lia|]. cbn. lra.
  - destruct (proj1 (IN _) (amin_in acs NE)) as (m & I & ->). pose proof (pos_INR m). nra.
Qed.

Section Meet.
  Variables (d : sdrive R) (i : nat) (L amn amx : R).
  Hypotheses (W : wf_sd d) (HI : (1 <= i < clen (d_cyc d))%nat) (TI : nondecreasing (time_s (d_cyc0 d))).
  Let v0 := nth (i - 1) (mps (d_cyc d)) 0.
  Let vb := coast_brake_start_speed_m_per_s (d_sp d).
  Let dt := duration (d_cyc d) i.
  Let hz := Rmax (coast_time_horizon_for_adjustment_s (d_sp d)) 1.
  Let T0 j := nth j (time_s (d_cyc0 d)) 0.
  Hypothesis (DT : 0 < dt).
  Definition best_before (m0 : nat) (best : option rdv) : Prop :=
    match best with
    | None => forall m k a, (m < m0)%nat -> ~ meet_plan d i L amn amx m k a
    | Some q => meet_plan d i L amn amx (rv_n q) (rv_jerk q) (rv_accel q) /\ rv_spread q = accel_change d i (rv_n q) (rv_jerk q) /\
        forall m k a, (m < m0)%nat -> meet_plan d i L amn amx m k a ->
          accel_change d i (rv_n q) (rv_jerk q) <= accel_change d i m k /\
          ((m < rv_n q)%nat -> accel_change d i (rv_n q) (rv_jerk q) < accel_change d i m k)
    end.
  Lemma plan_unique m k a k' a' : calc_constant_jerk_trajectory (Z.of_nat m) 0 v0 L vb dt = Ok (k, a) ->
    meet_plan d i L amn amx m k' a' -> k' = k /\ a' = a.
  Proof.
    intros E P. destruct (jerk_ok _ _ _ _ _ _ _ _ E) as (J1 & J2 & J3 & J4 & J5 & J6).
    pose proof (mp_speed _ _ _ _ _ _ _ _ P) as PS. pose proof (mp_dist _ _ _ _ _ _ _ _ P) as PD. fold v0 vb dt in PS, PD.
    apply (jerk_unique (Z.of_nat m) 0 v0 dt); auto; congruence.
  Qed.
  Lemma best_step n (best best' : option rdv) dm :
    (if nltb 0 L then
       do ka <- calc_constant_jerk_trajectory (Z.of_nat n) 0 v0 L vb dm;
       (let '(k, a) := ka in
       if ((a <? amx) && (a >? amn) && (k >=? 0))%num%bool then
         let acs := map (fun m => accel_for_constant_jerk (Z.of_nat m) a k dm) (seq 0 n) in
         let spread := nabs (amax acs - amin acs)%num in
         Ok (if ((amax acs <? amx + lit 1 1000000) && (amin acs >? amn - lit 1 1000000) && better best spread)%num%bool
             then Some (mkrdv n k a spread) else best)
       else Ok best)
     else Ok best) = Ok best' -> forall M, (n <= M)%nat -> (forall q, best = Some q -> (rv_n q <= M)%nat) ->
    forall q, best' = Some q -> (rv_n q <= M)%nat.
  Proof.
    intros H M NM B q E. destruct (nltb 0 L); [|apply B; congruence].
    apply bind_ok in H as ([k a] & _ & H).
    match type of H with (if ?b then _ else _) = _ => destruct b end; [|apply B; congruence].
    cbv zeta in H.
    match type of H with Ok (if ?b then _ else _) = _ => destruct b end; [|apply B; congruence].
    assert (Q : q = _) by (injection H as H; rewrite E in H; injection H as H; symmetry; exact H). rewrite Q. cbn. exact NM.
  Qed.
  Lemma loop_best : forall f idx best r, (i < idx)%nat -> f = (length (mps (d_cyc d)) - idx)%nat ->
    best_before (idx - (i - 1)) best -> (forall q, best = Some q -> (rv_n q < idx - (i - 1))%nat) ->
    rdv_loop f d i idx (T0 (idx - 1) - T0 (i - 1)) hz v0 vb dt L amn amx best = Ok r ->
    forall m0, best_before m0 r.
  Proof.
    assert (LM : length (mps (d_cyc d)) = clen (d_cyc d)) by apply W.
    assert (LT : length (time_s (d_cyc0 d)) = clen (d_cyc d)) by (symmetry; apply W).
    assert (DONE : forall idx best, best_before (idx - (i - 1)) best ->
      (forall m k a, (idx - (i - 1) <= m)%nat -> ~ meet_plan d i L amn amx m k a) -> forall m0, best_before m0 best).
    { intros idx best B NO m0. unfold best_before in *. destruct best as [q|].
      - destruct B as (B1 & B2 & B3). split; [exact B1|]. split; [exact B2|]. intros m k a _ P.
        destruct (Nat.lt_ge_cases m (idx - (i - 1))) as [Q|Q]; [exact (B3 m k a Q P)|]. now elim (NO m k a Q).
      - intros m k a _. destruct (Nat.lt_ge_cases m (idx - (i - 1))) as [Q|Q]; [exact (B m k a Q)|]. exact (NO m k a Q). }
    induction f as [|f IH]; intros idx best r HX FU B BN H; cbn [rdv_loop] in H.
    { injection H as <-. apply (DONE idx best B). intros m k a Q P. destruct (mp_steps _ _ _ _ _ _ _ _ P). lia. }
    unR. destruct (Rleb_spec (T0 (idx - 1) - T0 (i - 1)) hz) as [HZ|HZ].
    2:{ injection H as <-. apply (DONE idx best B). intros m k a Q P. pose proof (mp_horizon _ _ _ _ _ _ _ _ P) as HH.
        fold hz in HH. destruct (mp_steps _ _ _ _ _ _ _ _ P) as (S1 & S2).
        destruct (Nat.eq_dec (i + m - 2) (idx - 1)) as [E|NE]; [rewrite E in HH; unfold T0 in HZ; lra|].
        assert (T0 (idx - 1) <= T0 (i + m - 2)).
        { unfold T0. apply (TI (idx - 1)%nat (i + m - 2)%nat); [lia| |]; apply nth_error_nth'; lia. }
        unfold T0 in *. lra. }
    rewrite dt_s_at_i_pos in H by lia. cbn [bindR] in H.
    destruct (Nat.eqb_spec (idx - (i - 1)) 1) as [Q1|_]; [lia|].
    replace (T0 (idx - 1) - T0 (i - 1) + (nth idx (time_s (d_cyc0 d)) 0 - nth (idx - 1) (time_s (d_cyc0 d)) 0))
      with (T0 (S idx - 1) - T0 (i - 1)) in H by (unfold T0; replace (S idx - 1)%nat with idx by lia; lra).
    set (n := (idx - (i - 1))%nat) in *.
    apply bind_ok in H as (best' & EB & H). revert H. apply IH; [lia|lia| |].
    2:{ intros q EQ. assert (Q := best_step _ _ _ _ EB n ltac:(lia) ltac:(intros q' E'; specialize (BN q' E'); lia) q EQ). lia. }
    replace (S idx - (i - 1))%nat with (S n) by lia.
    (* plans of exactly n steps *)
    assert (EXT : best' = best -> (forall k a, ~ meet_plan d i L amn amx n k a) -> best_before (S n) best').
    { intros -> NO. unfold best_before in *. destruct best as [q|].
      - destruct B as (B1 & B2 & B3). split; [exact B1|]. split; [exact B2|]. intros m k a Q P.
        destruct (Nat.eq_dec m n) as [->|NE]; [now elim (NO k a)|]. apply (B3 m k a); [lia|exact P].
      - intros m k a Q P. destruct (Nat.eq_dec m n) as [->|NE]; [now elim (NO k a)|]. apply (B m k a); [lia|exact P]. }
    destruct (Rltb_spec 0 L) as [HL|HL].
    2:{ apply EXT; [congruence|]. intros k a P. pose proof (mp_room _ _ _ _ _ _ _ _ P). lra. }
    apply bind_ok in EB as ([k a] & EC & EB).
    destruct (jerk_ok _ _ _ _ _ _ _ _ EC) as (J1 & J2 & J3 & J4 & J5 & J6).
    match type of EB with (if ?b then _ else _) = _ => destruct b eqn:T1 end.
    2:{ apply EXT; [congruence|]. intros k' a' P. destruct (plan_unique _ _ _ _ _ EC P) as [-> ->].
        pose proof (mp_jerk _ _ _ _ _ _ _ _ P). pose proof (mp_start _ _ _ _ _ _ _ _ P).
        apply Bool.andb_false_iff in T1 as [T1|T1]; [apply Bool.andb_false_iff in T1 as [T1|T1]|].
        - apply Rltb_false in T1. lra.
        - apply Rltb_false in T1. lra.
        - apply Rleb_false in T1. lra. }
    apply Bool.andb_true_iff in T1 as [T1 TK]. apply Bool.andb_true_iff in T1 as [TA TB].
    apply Rltb_true in TA, TB. apply Rleb_true in TK.
    destruct (ramp_range a k dt n ltac:(lia) TK DT) as (RA & RB). cbv zeta in EB. rewrite RA, RB, lit_R in EB.
    replace (a + INR (n - 1) * k * dt - a) with (INR (n - 1) * k * dt) in EB by lra.
    assert (KD : 0 <= k * dt) by nra. pose proof (pos_INR (n - 1)) as PI.
    assert (SP : Rabs (INR (n - 1) * k * dt) = accel_change d i n k).
    { unfold accel_change. fold dt. rewrite Rabs_right; [reflexivity|nra]. }
    rewrite SP in EB.
    assert (PLAN : a + INR (n - 1) * k * dt < amx + 1 / 1000000 -> meet_plan d i L amn amx n k a).
    { intros Q. constructor; fold v0 vb dt hz; try assumption.
      - unfold n in *. lia.
      - unfold n. replace (i + (idx - (i - 1)) - 2)%nat with (idx - 1)%nat by lia. exact HZ.
      - lra.
      - intros m Hm. assert (INR m <= INR (n - 1)) by (apply le_INR; lia). pose proof (pos_INR m). nra. }
    match type of EB with Ok (if ?b then _ else _) = _ => destruct b eqn:T2 end.
    - apply Bool.andb_true_iff in T2 as [T2 BT]. apply Bool.andb_true_iff in T2 as [T2 T3]. apply Rltb_true in T2, T3.
      assert (EB' : best' = Some (mkrdv n k a (accel_change d i n k))) by congruence. rewrite EB'.
      unfold best_before. cbn [rv_n rv_jerk rv_accel rv_spread]. split; [now apply PLAN|]. split; [reflexivity|].
      intros m k' a' Q P. destruct (Nat.eq_dec m n) as [->|NE].
      + destruct (plan_unique _ _ _ _ _ EC P) as [-> ->]. split; [lra|lia].
      + unfold best_before in B. destruct best as [q|]; [|elim (B m k' a'); [lia|exact P]].
        destruct B as (B1 & B2 & B3). cbn [better] in BT. unR. apply Rltb_true in BT. rewrite B2 in BT.
        destruct (B3 m k' a' ltac:(lia) P) as [Q1 Q2]. split; [lra|]. intros _. lra.
    - assert (EB' : best' = best) by congruence. apply Bool.andb_false_iff in T2 as [T2|BT].
      + apply EXT; [exact EB'|]. intros k' a' P. destruct (plan_unique _ _ _ _ _ EC P) as [-> ->].
        pose proof (mp_all _ _ _ _ _ _ _ _ P (n - 1)%nat ltac:(lia)) as PA. fold dt in PA.
        pose proof (mp_all _ _ _ _ _ _ _ _ P 0%nat ltac:(lia)) as PB. cbn in PB.
        apply Bool.andb_false_iff in T2 as [T2|T2]; apply Rltb_false in T2; lra.
      + rewrite EB'. unfold best_before in *. destruct best as [q|]; [|discriminate].
        destruct B as (B1 & B2 & B3). split; [exact B1|]. split; [exact B2|]. cbn [better] in BT. unR. apply Rltb_false in BT.
        intros m k' a' Q P. destruct (Nat.eq_dec m n) as [->|NE]; [|apply (B3 m k' a'); [lia|exact P]].
        destruct (plan_unique _ _ _ _ _ EC P) as [-> ->]. rewrite B2 in BT. split; [exact BT|].
        intros Z. destruct (Rlt_dec (accel_change d i (rv_n q) (rv_jerk q)) (accel_change d i n k)) as [Y|Y]; [exact Y|].
        specialize (BN q eq_refl). lia.
  Qed.
End Meet.
