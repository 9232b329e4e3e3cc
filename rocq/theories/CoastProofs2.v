(** Proofs for C14 (distances of edits), C87 (planned coast) and C88 (rendezvous). *)
From Coq Require Import Lia.
From Verif Require Import Num Numpy ListFacts CycleModel CycleSpec ConcatProofs RateProofs DistProofs JerkProofs CycleProofs2 VehModel
  SimModel SimState WalkModel FrameProofs WalkProofs StepProofs SimSpec SimProofs1 WalkSpec CoastSpec CoastProofs.
Local Open Scope R_scope.

(** ** Constant jerk *)
Lemma jerk_ok (n : Z) (D0 v0 Dr vr dt k a : R) : calc_constant_jerk_trajectory n D0 v0 Dr vr dt = Ok (k, a) ->
  (1 < n)%Z /\ D0 < Dr /\ dt <> 0 /\ dt <> (IZR n + 4) / 3 /\
  speed_for_constant_jerk n v0 a k dt = vr /\ dist_for_constant_jerk n D0 v0 a k dt = Dr.
Proof.
  intros H. assert (Hn : (1 < n)%Z).
  { destruct (Z.lt_ge_cases 1 n); [assumption|]. rewrite jerk_bad_plan in H by (now left). discriminate. }
  assert (HD : D0 < Dr).
  { destruct (Rlt_dec D0 Dr) as [P|P]; [exact P|]. rewrite jerk_bad_plan in H; [discriminate|]. right. unR. apply Rltb_false. lra. }
  destruct (Req_dec dt 0) as [Z|Z]; [rewrite jerk_singular in H by auto; discriminate|].
  destruct (Req_dec dt ((IZR n + 4) / 3)) as [Y|Y]; [rewrite jerk_singular in H by auto; discriminate|].
  destruct (jerk_rendezvous n D0 v0 Dr vr dt Hn HD Z Y) as (k' & a' & E & S & Q).
  rewrite E in H. injection H as <- <-. auto 6.
Qed.
(** The plan is the only one. *)
Lemma jerk_unique (n : Z) (D0 v0 dt k a k' a' : R) : (1 < n)%Z -> dt <> 0 -> dt <> (IZR n + 4) / 3 ->
  speed_for_constant_jerk n v0 a k dt = speed_for_constant_jerk n v0 a' k' dt ->
  dist_for_constant_jerk n D0 v0 a k dt = dist_for_constant_jerk n D0 v0 a' k' dt -> k = k' /\ a = a'.
Proof.
  intros Hn Hd Hd2 S D. unfold speed_for_constant_jerk, dist_for_constant_jerk in *. rewrite !lit_R in *. unR.
  rewrite !minus_IZR in *. assert (P : 1 < IZR n) by (now apply IZR_lt). set (x := IZR n) in *.
  assert (E1 : x * dt * ((a - a') + (x - 1) / 2 * (k - k')) = 0) by lra.
  assert (A : (a - a') + (x - 1) / 2 * (k - k') = 0).
  { apply Rmult_integral in E1 as [E1|E1]; [|exact E1]. apply Rmult_integral in E1; lra. }
  assert (E2 : dt * dt * x * ((x - 1) / 2 * (a - a') + (x - 2) * (x - 1) / 6 * (k - k') + ((a - a') + (x - 1) / 2 * dt * (k - k')) / 2) = 0) by nra.
  assert (B : (x - 1) / 2 * (a - a') + (x - 2) * (x - 1) / 6 * (k - k') + ((a - a') + (x - 1) / 2 * dt * (k - k')) / 2 = 0).
  { apply Rmult_integral in E2 as [E2|E2]; [|exact E2]. exfalso. apply Rmult_integral in E2 as [E2|E2]; [|lra].
    apply Rmult_integral in E2; lra. }
  assert (a - a' = - ((x - 1) / 2 * (k - k'))) by lra.
  assert (C : (x - 1) * (x + 4 - 3 * dt) * (k - k') = 0).
  { rewrite H in B. nra. }
  assert (k - k' = 0).
  { apply Rmult_integral in C as [C|C]; [|exact C]. exfalso. apply Rmult_integral in C as [C|C]; lra. }
  split; [lra|]. rewrite H0 in H. lra.
Qed.

(** ** Distances of trajectory edits, for steps of one second *)
Lemma jerk_edit_distance (c c' : cyc R) idx n k a0 v v0 :
  modify_by_const_jerk_trajectory c idx (Z.of_nat n) k a0 = Ok (c', v) ->
  length (mps c) = length (time_s c) -> (1 <= idx)%nat -> (1 <= n)%nat -> (idx + n <= length (mps c))%nat ->
  nth_error (mps c) (idx - 1) = Some v0 -> unit_steps c idx n ->
  (forall p, (idx <= p < idx + n - 1)%nat -> 0 < nth p (mps c') 0) -> 0 <= speed_for_constant_jerk (Z.of_nat n) v0 a0 k 1 ->
  trapezoid c' (idx - 1) n = dist_for_constant_jerk (Z.of_nat n) 0 v0 a0 k 1 /\
  nth (idx + n - 1) (mps c') 0 = speed_for_constant_jerk (Z.of_nat n) v0 a0 k 1.
Proof.
  intros H L HI HN HL V0 U P PN.
  destruct (jerk_edit c c' idx (Z.of_nat n) k a0 v v0 H L HI ltac:(lia) V0) as (T1 & _ & _ & T4 & T5 & T6 & _).
  assert (DT : nth idx (time_s c) 0 - nth (idx - 1) (time_s c) 0 = 1) by (apply U; lia). rewrite DT in T6.
  assert (SP : forall j, (j <= n)%nat -> nth (idx - 1 + j) (mps c') 0 = speed_for_constant_jerk (Z.of_nat j) v0 a0 k 1).
  { intros j Hj. destruct j as [|j].
    - rewrite Nat.add_0_r. cbn [Z.of_nat]. destruct (jerk_unit_step 0 0 v0 a0 k) as (E & _). rewrite E.
      apply nth_error_nth. rewrite T5 by (left; lia). exact V0.
    - specialize (T6 (S j) ltac:(lia) ltac:(lia)). replace (idx + S j - 1)%nat with (idx - 1 + S j)%nat in T6 by lia.
      apply (nth_error_nth _ _ 0) in T6.
      assert (E : v0 + INR (S j) * a0 * 1 + INR (S j) * (INR (S j) - 1) / 2 * k * 1 = speed_for_constant_jerk (Z.of_nat (S j)) v0 a0 k 1).
      { unfold speed_for_constant_jerk. rewrite lit_R. unR. rewrite minus_IZR, <- INR_IZR_INZ. lra. }
      rewrite E in T6. rewrite T6. apply Rmax_right.
      destruct (Nat.eq_dec (S j) n) as [->|NE]; [exact PN|].
      specialize (P (idx - 1 + S j)%nat ltac:(lia)). rewrite T6 in P.
      destruct (Rle_dec 0 (speed_for_constant_jerk (Z.of_nat (S j)) v0 a0 k 1)); [assumption|]. rewrite Rmax_left in P by lra. lra. }
  split; [|replace (idx + n - 1)%nat with (idx - 1 + n)%nat by lia; now apply SP].
  assert (G : forall j, (j <= n)%nat -> trapezoid c' (idx - 1) j = dist_for_constant_jerk (Z.of_nat j) 0 v0 a0 k 1).
  { induction j as [|j IH]; intros Hj.
    - cbn [Z.of_nat trapezoid]. symmetry. apply (jerk_unit_step 0 0 v0 a0 k).
    - rewrite trapezoid_snoc, IH by lia. destruct (jerk_unit_step (Z.of_nat j) 0 v0 a0 k) as (_ & _ & _ & E).
      replace (Z.of_nat (S j)) with (Z.of_nat j + 1)%Z by lia. rewrite E. f_equal. unfold seg.
      rewrite T1. replace (S (idx - 1 + j)) with (idx - 1 + S j)%nat by lia. rewrite !SP by lia.
      specialize (U (idx - 1 + S j)%nat ltac:(lia)). replace (idx - 1 + S j - 1)%nat with (idx - 1 + j)%nat in U by lia. rewrite U.
      replace (Z.of_nat (S j)) with (Z.of_nat j + 1)%Z by lia. lra. }
  now apply G.
Qed.
Lemma braking_plan (c c' : cyc R) brake i dts v n v0 :
  modify_with_braking_trajectory c brake i dts = Ok (c', v, n) ->
  length (mps c) = length (time_s c) -> (1 <= i)%nat -> (i < length (time_s c))%nat ->
  nth_error (mps c) (i - 1) = Some v0 -> let D := brake_request brake v0 dts in
  (D <= 0 /\ n = 0%Z /\ c' = c) \/
  (0 < D /\ (2 <= n)%Z /\ exists k a, calc_constant_jerk_trajectory n 0 v0 D 0 (nth i (time_s c) 0 - nth (i - 1) (time_s c) 0) = Ok (k, a) /\
    modify_by_const_jerk_trajectory c i n k a = Ok (c', v)).
Proof.
  intros H Hw Hi1 Hi Hv0 D. unfold modify_with_braking_trajectory, assertR in H. unR.
  destruct (Rltb_spec brake 0) as [Hb|Hb]; [|discriminate]. cbn [bindR] in H.
  destruct (Nat.leb_spec (length (time_s c)) i); [lia|].
  assert (Hg : pyget (mps c) (Z.of_nat i - 1) = Ok v0).
  { replace (Z.of_nat i - 1)%Z with (Z.of_nat (i - 1)) by lia. now apply pyget_nonneg. }
  rewrite Hg in H. cbn [bindR] in H. rewrite dt_s_at_i_pos in H by assumption. cbn [bindR] in H.
  set (dt := nth i (time_s c) 0 - nth (i - 1) (time_s c) 0) in *.
  match type of H with (if Rleb ?d 0 then _ else _) = _ => assert (ED : d = D) end.
  { unfold D, brake_request, stopping_distance. rewrite lit_R. destruct dts as [x|].
    - destruct (Rleb_spec x 0), (Rle_dec x 0); try lra. field. lra.
    - field. lra. }
  rewrite ED in H. destruct (Rleb_spec D 0) as [HD|HD].
  { left. injection H as <- <- <-. auto. }
  right. split; [lra|]. destruct (Reqb_spec dt 0) as [Hdt|Hdt]; [discriminate|].
  set (n' := if Z.ltb _ 2 then 2%Z else _) in H.
  assert (Hn2 : (2 <= n')%Z) by (unfold n'; destruct (Z.ltb_spec (nround (- v0 / brake / dt)) 2); lia).
  apply bind_ok in H as ([k a] & Ec & H). apply bind_ok in H as ([c1 v1] & Em & H). cbn [fst snd] in *.
  injection H as <- <- <-. split; [exact Hn2|]. exists k, a. split; [exact Ec|exact Em].
Qed.
Lemma braking_distance (c c' : cyc R) brake i dts v n v0 :
  modify_with_braking_trajectory c brake i dts = Ok (c', v, n) ->
  length (mps c) = length (time_s c) -> (1 <= i)%nat -> (i < length (time_s c))%nat ->
  nth_error (mps c) (i - 1) = Some v0 -> (n <> 0)%Z -> (i + Z.to_nat n <= length (mps c))%nat -> unit_steps c i (Z.to_nat n) ->
  (forall p, (i <= p < i + Z.to_nat n - 1)%nat -> 0 < nth p (mps c') 0) ->
  trapezoid c' (i - 1) (Z.to_nat n) = brake_request brake v0 dts.
Proof.
  intros H L HI HIL V0 NZ HL U P.
  destruct (braking_plan c c' brake i dts v n v0 H L HI HIL V0) as [(_ & Z & _)|(DP & N2 & k & a & EC & EM)]; [contradiction|].
  rewrite (U i ltac:(lia)) in EC. destruct (jerk_ok _ _ _ _ _ _ _ _ EC) as (_ & _ & _ & _ & SP & DI).
  replace n with (Z.of_nat (Z.to_nat n)) in EM, SP, DI by lia.
  destruct (jerk_edit_distance c c' i (Z.to_nat n) k a v v0 EM L HI ltac:(lia) HL V0 U P ltac:(rewrite SP; lra)) as [Q _].
  rewrite Q. exact DI.
Qed.

(** ** Planned coasts *)
Lemma dvdd_slope (d : sdrive R) u g : veh_kg (d_veh d) <> 0 -> calc_dvdd d u g = slope (d_veh d) (d_props d) g u.
Proof.
  intros M. unfold slope. destruct (Rle_dec u 0) as [P|P]; [now apply dvdd_still|].
  apply (Rmult_eq_reg_l (veh_kg (d_veh d) * u)); [|apply Rmult_integral_contrapositive_currified; lra].
  pose proof (dvdd_force d u g ltac:(lra) M) as Q. rewrite Rmult_assoc, Q. field. lra.
Qed.
Lemma next_after (v k dt : R) : coast_next v k dt = after k dt v.
Proof. unfold coast_next, after. rewrite lit_R. unR. replace (1 / 2 * k * dt) with (k * dt / 2) by lra. reflexivity. Qed.
Lemma after_slows (k dt u : R) : k < 0 -> 0 < dt -> 0 < u -> after k dt u < u.
Proof.
  intros K T U. unfold after. assert (0 < 1 - k * dt / 2) by nra.
  apply (Rmult_lt_reg_r (1 - k * dt / 2)); [assumption|].
  replace (u * (1 + k * dt / 2) / (1 - k * dt / 2) * (1 - k * dt / 2)) with (u * (1 + k * dt / 2)) by (field; lra).
  assert (k * dt < 0) by nra. assert (u * (k * dt) < 0) by nra. lra.
Qed.
Section Chain.
  Variables (d : sdrive R) (x0 : R) (ug : option R).
  Hypotheses (M : veh_kg (d_veh d) <> 0)
    (UG : forall g, ug = Some g <-> grade_from (d_cyc0 d) x0 g).
  Let V := d_veh d. Let P := d_props d.

  Lemma inner_after : forall n v vavg gr dt x k vn r, coast_inner d ug n v vavg gr dt x k vn = Ok r ->
    vn = after k dt v -> (exists s g, k = slope V P g s) ->
    snd r = after (fst r) dt v /\ exists s g, fst r = slope V P g s.
  Proof.
    induction n as [|n IH]; intros v vavg gr dt x k vn r H E K; cbn [coast_inner] in H.
    - injection H as <-. auto.
    - apply bind_ok in H as (gr' & _ & H). apply IH in H; [exact H|apply next_after|].
      exists vavg, gr. now apply dvdd_slope.
  Qed.
  Lemma inner_coasted g (E : ug = Some g) : forall n m v dt x k r,
    coast_inner d ug n v ((v + coasted V P g dt v m) / 2) g dt x k (coasted V P g dt v m) = Ok r -> snd r = coasted V P g dt v (n + m).
  Proof.
    induction n as [|n IH]; intros m v dt x k r H; cbn [coast_inner] in H.
    - injection H as <-. reflexivity.
    - rewrite E in H. unfold V, P in *. rewrite dvdd_slope in H by exact M. rewrite next_after in H.
      change (after (slope (d_veh d) (d_props d) g ((v + coasted (d_veh d) (d_props d) g dt v m) / 2)) dt v)
        with (coasted (d_veh d) (d_props d) g dt v (S m)) in H.
      rewrite lit_R in H. unR. replace (1 / 2 * (v + coasted (d_veh d) (d_props d) g dt v (S m)))
        with ((v + coasted (d_veh d) (d_props d) g dt v (S m)) / 2) in H by lra.
      replace (S n + m)%nat with (n + S m)%nat by lia.
      destruct (favor_grade_accuracy (d_sp d)); cbn [bindR] in H; rewrite <- E in H; eapply IH; exact H.
  Qed.
  Lemma inner_varying v gr dt x k vn : coast_inner d None (if favor_grade_accuracy (d_sp d) then 2 else 1) v
      (lit 1 2 * (v + coast_next v (calc_dvdd d v gr) dt))%num gr dt x (calc_dvdd d v gr) (coast_next v (calc_dvdd d v gr) dt) = Ok (k, vn) ->
    let w2 := coasted V P gr dt v 1 in
    if favor_grade_accuracy (d_sp d) then
      exists g', average_grade_over_range (d_cyc0 d) x ((v + w2) / 2 * dt) (Some (d_cache d)) = Ok g' /\
        vn = after (slope V P g' ((v + w2) / 2)) dt v
    else vn = w2.
  Proof.
    assert (HA : forall w : R, (lit 1 2 * (v + w))%num = (v + w) / 2) by (intros w; rewrite lit_R; unR; lra).
    unfold V, P. rewrite !dvdd_slope, !next_after, !HA by exact M. cbn [coasted].
    set (w1 := after (slope (d_veh d) (d_props d) gr v) dt v).
    destruct (favor_grade_accuracy (d_sp d)) eqn:FG; cbn [coast_inner]; rewrite ?FG, ?dvdd_slope, ?next_after, ?HA by exact M;
      set (w2 := after (slope (d_veh d) (d_props d) gr ((v + w1) / 2)) dt v); intros H; cbv zeta.
    - apply bind_ok in H as (g' & E & H). exists g'. split; [exact E|]. rewrite dvdd_slope, next_after in H by exact M.
      apply bind_ok in H as (? & _ & H). injection H as _ <-. reflexivity.
    - cbn [bindR] in H. injection H as _ <-. reflexivity.
  Qed.
  Lemma last_cons_app (w : R) vs u : last (w :: vs) u = last vs w.
  Proof. revert w; induction vs as [|a vs IH]; intros w; [reflexivity|]. cbn [last] in *. destruct vs; [reflexivity|]. apply IH. Qed.

  Variables (dmax stop vb ab : R).
  Hypothesis (AB : ab <> 0).
  Lemma loop_chain : forall f v x acc iter idx v' x' sp iter' idx',
    coast_loop f d ug x0 dmax stop vb ab v x acc iter idx = Ok (CoastEnd v' x' sp iter' idx') ->
    (1 <= idx)%nat ->
    exists vs, sp = rev acc ++ vs /\ coast_chain d x0 (x0 + x) idx v vs /\ Forall (fun w => vb < w) vs /\
      v' = last vs v /\ x' = x + chain_distance (d_cyc0 d) idx v vs /\
      (idx + length vs <= S idx')%nat /\ (vs = [] -> idx' = idx) /\
      (forall ws w z, vs = ws ++ w :: z -> z <> [] -> x + chain_distance (d_cyc0 d) idx v (ws ++ [w]) + stopping_distance ab w < stop) /\
      ((iter' < iter + f)%nat -> (idx' < length (d_rows d))%nat -> v' <= vb \/ v' < 0 \/
         (exists n, coast_step d x0 (x0 + x') (duration (d_cyc0 d) (idx + length vs)) v' n /\ n <= vb) \/
         stop <= x' + stopping_distance ab v' \/ dmax < x').
  Proof.
    induction f as [|f IH]; intros v x acc iter idx v' x' sp iter' idx' H HI; cbn [coast_loop] in H.
    { injection H as <- <- <- <- <-. exists []. rewrite app_nil_r. cbn. repeat split; auto; try lia; try lra.
      intros ws w z Q. destruct ws; discriminate. }
    unR. match type of H with (if ?b then _ else _) = _ => destruct b eqn:C end.
    2:{ injection H as <- <- <- <- <-. exists []. rewrite app_nil_r. cbn. repeat split; auto; try lia; try lra.
        - intros ws w z Q. destruct ws; discriminate.
        - intros _ L. apply Bool.andb_false_iff in C as [C|C].
          + apply Bool.andb_false_iff in C as [C|C]; [apply Bool.andb_false_iff in C as [C|C]|].
            * apply Rltb_false in C. now left.
            * apply Rleb_false in C. right; now left.
            * apply Rleb_false in C. right; right; right; right. lra.
          + apply Nat.ltb_ge in C. lia. }
    apply bind_ok in H as (dt & ED & H). apply bind_ok in H as (gr & EG & H). cbv zeta in H.
    apply bind_ok in H as ([k vn] & EK & H). cbn [fst snd] in H.
    assert (DT : dt = duration (d_cyc0 d) idx).
    { destruct (Nat.lt_ge_cases idx (length (time_s (d_cyc0 d)))) as [Q|Q].
      - rewrite dt_s_at_i_pos in ED by auto. injection ED as <-. reflexivity.
      - rewrite dt_s_at_i_past in ED by auto. discriminate. }
    match type of H with (if ?b then _ else _) = _ => destruct b eqn:KB end; [discriminate|].
    assert (ST : coast_step d x0 (x0 + x) (duration (d_cyc0 d) idx) v vn).
    { rewrite <- DT. split; [|split].
      - destruct (inner_after _ _ _ _ _ _ _ _ _ EK) as (Q1 & s & g & Q2); [apply next_after|exists v, gr; now apply dvdd_slope|].
        cbn [fst snd] in *. exists s, g. rewrite Q1, Q2. reflexivity.
      - intros g G. apply UG in G as UGG. rewrite UGG in EG. injection EG as <-. split.
        + rewrite dvdd_slope, next_after, lit_R in EK by exact M. change (after (slope (d_veh d) (d_props d) g v) dt v)
            with (coasted V P g dt v 0) in EK. unR.
          replace (1 / 2 * (v + coasted V P g dt v 0)) with ((v + coasted V P g dt v 0) / 2) in EK by lra.
          apply (inner_coasted g UGG) in EK. cbn [snd] in EK. rewrite Nat.add_0_r in EK. exact EK.
        + intros T U. destruct (inner_after _ _ _ _ _ _ _ _ _ EK) as (Q1 & _); [apply next_after|exists v, g; now apply dvdd_slope|].
          cbn [fst snd] in *. rewrite Q1. rewrite UGG in KB. rewrite Bool.andb_true_r in KB. apply Rleb_false in KB. now apply after_slows.
      - intros NG. assert (UN : ug = None) by (destruct ug as [g|]; [exfalso; apply (NG g), UG; reflexivity|reflexivity]).
        rewrite UN in EG, EK. rewrite Rplus_comm in EG. exists gr. split; [exact EG|].
        replace (x + x0) with (x0 + x) in EK by lra. now apply inner_varying in EK. }
    destruct (Rleb_spec vn vb) as [LE|GT].
    { injection H as <- <- <- <- <-. exists []. rewrite app_nil_r. cbn. repeat split; auto; try lia; try lra.
      - intros ws w z Q. destruct ws; discriminate.
      - intros _ _. right. right. left. exists vn. rewrite Nat.add_0_r. rewrite ?Rplus_0_r. auto. }
    rewrite lit_R in H.
    assert (SD : - (1 / 2) * vn * vn / ab = stopping_distance ab vn) by (unfold stopping_distance; field; exact AB).
    rewrite SD in H. replace (1 / 2 * (v + vn) * dt) with ((v + vn) / 2 * dt) in H by lra.
    destruct (Rleb_spec stop (x + (v + vn) / 2 * dt + stopping_distance ab vn)) as [LE2|GT2].
    { injection H as <- <- <- <- <-. exists [vn]. cbn [coast_chain chain_distance length last rev]. rewrite <- DT.
      split; [reflexivity|]. split; [rewrite DT; auto|]. split; [constructor; [lra|constructor]|]. split; [reflexivity|]. split; [lra|].
      split; [lia|]. split; [discriminate|]. split.
      - intros ws w z Q NZ. destruct ws as [|a ws]; cbn in Q; injection Q as Q1 Q2; [congruence|]. destruct ws; discriminate.
      - intros _ _. right; right; right; left. lra. }
    apply IH in H; [|lia]. destruct H as (vs & E1 & E2 & E3 & E4 & E5 & E6 & E7 & E8 & E9).
    exists (vn :: vs). cbn [coast_chain chain_distance length]. rewrite <- DT.
    split; [rewrite E1; cbn [rev]; now rewrite <- app_assoc|].
    split; [rewrite DT in E2 |- *; split; [exact ST|]; rewrite Rplus_assoc; exact E2|].
    split; [constructor; [lra|exact E3]|]. split; [rewrite last_cons_app; exact E4|]. split; [rewrite E5; lra|]. split; [lia|].
    split; [discriminate|]. split.
    - intros ws w z Q NZ. destruct ws as [|a ws]; cbn [app] in Q |- *; injection Q as Q1 Q2.
      + subst w. cbn [chain_distance]. rewrite <- DT. lra.
      + subst a. cbn [chain_distance]. rewrite <- DT. specialize (E8 ws w z Q2 NZ). lra.
    - intros I L. replace (idx + S (length vs))%nat with (S idx + length vs)%nat by lia. apply E9; [lia|exact L].
  Qed.
End Chain.

Lemma write_speeds_spec : forall vs (d : sdrive R) i, length (d_rows d) = length (mps (d_cyc d)) -> (i + length vs <= length (d_rows d))%nat ->
  let d' := write_speeds d i vs in
  time_s (d_cyc d') = time_s (d_cyc d) /\ grade (d_cyc d') = grade (d_cyc d) /\ road_type (d_cyc d') = road_type (d_cyc d) /\
  length (mps (d_cyc d')) = length (mps (d_cyc d)) /\
  (forall p, nth p (mps (d_cyc d')) 0 = if (Nat.leb i p && Nat.ltb p (i + length vs))%bool then nth (p - i) vs 0 else nth p (mps (d_cyc d)) 0) /\
  d_rows d' = d_rows d /\ d_sp d' = d_sp d /\ d_cyc0 d' = d_cyc0 d /\ d_cache d' = d_cache d /\ d_veh d' = d_veh d /\
  d_props d' = d_props d /\ d_i d' = d_i d /\ d_hev_sim_count d' = d_hev_sim_count d.
Proof.
  induction vs as [|w vs IH]; intros d i L H d'; cbn [write_speeds length] in *.
  - unfold d'. repeat split. intros p. destruct (Nat.leb_spec i p), (Nat.ltb_spec p (i + 0)); try lia; reflexivity.
  - unfold d'; cbn [write_speeds]. rewrite Nat.min_l by lia. set (d1 := set_cyc_mps d i w). clear d'. set (d' := write_speeds d1 (S i) vs).
    assert (L1 : length (d_rows d1) = length (mps (d_cyc d1))) by (unfold d1; cbn; now rewrite set_nth_length).
    destruct (IH d1 (S i) L1 ltac:(cbn; lia)) as (A1 & A2 & A3 & A4 & A5 & A6).
    fold d' in A1, A2, A3, A4, A5, A6.
    split; [exact A1|]. split; [exact A2|]. split; [exact A3|]. split; [rewrite A4; unfold d1; cbn; now rewrite set_nth_length|].
    split; [|exact A6]. intros p. rewrite A5.
    destruct (Nat.eq_dec p i) as [->|NE].
    + destruct (Nat.leb_spec (S i) i), (Nat.leb_spec i i), (Nat.ltb_spec i (i + S (length vs))); try lia. cbn [andb].
      rewrite Nat.sub_diag. exact (cmps_set_same d i w ltac:(lia)).
    + assert (Q : nth p (mps (d_cyc d1)) 0 = nth p (mps (d_cyc d)) 0) by exact (cmps_set d i w p NE). rewrite Q.
      destruct (Nat.leb_spec (S i) p), (Nat.leb_spec i p), (Nat.ltb_spec p (S i + length vs)), (Nat.ltb_spec p (i + S (length vs))); try lia; cbn [andb]; try reflexivity.
      replace (p - i)%nat with (S (p - S i)) by lia. reflexivity.
Qed.
Lemma coast_range_at (d : sdrive R) i a b j : (j < length (d_rows d))%nat ->
  coast_at (set_coast_range d i a b) j = if Nat.ltb j i then coast_at d j else (Nat.leb a j && Nat.ltb j b)%bool.
Proof.
  intros H. unfold coast_at, set_coast_range, upd_ctl_rows, row_at, with_rows; cbn [d_rows].
  rewrite (mapi_from_nth _ _ 0 j zero_row) by exact H. cbn [Nat.add]. destruct (Nat.ltb j i); reflexivity.
Qed.
Lemma masked_last (c : cyc R) x : wf c -> time_s c <> [] -> nondecreasing (time_s c) -> nonneg (mps c) ->
  (exists j, (j < length (time_s c))%nat /\ x <= trapezoid c 0 j) ->
  forall z, last (map (fun y => y - x) (mask_list (map (fun y => Rleb x y) (cumsum (trapz_step_distances c))) (cumsum (trapz_step_distances c)))) z
  = trapezoid c 0 (length (time_s c) - 1) - x.
Proof.
  intros W NE T S (j & Hj & Hx) z.
  assert (PL : (0 < length (time_s c))%nat) by lia.
  assert (MX : x <= trapezoid c 0 (length (time_s c) - 1)).
  { pose proof (trapezoid_mono c j (length (time_s c) - 1) T S (proj1 W) ltac:(lia) ltac:(lia)). lra. }
  set (ds := cumsum (trapz_step_distances c)).
  assert (LD : length ds = length (time_s c)) by (apply cum_dist_length; [apply W|exact NE]).
  assert (LA : nth (length (time_s c) - 1) ds 0 = trapezoid c 0 (length (time_s c) - 1)) by (apply cum_dist_nth; [apply W|lia]).
  assert (SN : exists l, ds = l ++ [trapezoid c 0 (length (time_s c) - 1)]).
  { destruct (exists_last (l := ds)) as (l & a & E); [intros Q; rewrite Q in LD; cbn in LD; lia|].
    exists l. rewrite E in LA, LD |- *. rewrite app_length in LD. cbn in LD. rewrite <- LA, app_nth2 by lia.
    replace (length (time_s c) - 1 - length l)%nat with 0%nat by lia. reflexivity. }
  destruct SN as (l & E). rewrite E.
  assert (MA : forall (l : list R) t, x <= t -> mask_list (map (fun y => Rleb x y) (l ++ [t])) (l ++ [t])
    = mask_list (map (fun y => Rleb x y) l) l ++ [t]).
  { clear. intros l t H. induction l as [|a l IH]; cbn [map app mask_list].
    - rewrite (proj2 (Rleb_true x t) H). reflexivity.
    - rewrite IH. destruct (Rleb x a); reflexivity. }
  rewrite MA by exact MX. rewrite map_app. cbn [map]. now rewrite last_snoc.
Qed.
Lemma mask_none (c : cyc R) x : wf c -> time_s c <> [] ->
  existsb (fun b => b) (map (fun y => Rleb x y) (cumsum (trapz_step_distances c))) = false <->
  forall j, (j < length (time_s c))%nat -> trapezoid c 0 j < x.
Proof.
  intros W NE. assert (LD := cum_dist_length c (proj1 W) NE). set (ds := cumsum (trapz_step_distances c)) in *.
  assert (D : forall j, (j < length (time_s c))%nat -> nth j ds 0 = trapezoid c 0 j) by (intros; apply cum_dist_nth; [apply W|assumption]).
  split.
  - intros H j Hj. destruct (Rlt_dec (trapezoid c 0 j) x) as [P|P]; [exact P|]. exfalso.
    enough (existsb (fun b => b) (map (fun y => Rleb x y) ds) = true) by congruence.
    apply existsb_exists. exists true. split; [|reflexivity]. apply in_map_iff. exists (nth j ds 0).
    split; [apply Rleb_true; rewrite D by exact Hj; lra|]. apply nth_In. lia.
  - intros H. destruct (existsb (fun b => b) (map (fun y => Rleb x y) ds)) eqn:E; [|reflexivity].
    apply existsb_exists in E as (b & I & B). subst b. apply in_map_iff in I as (y & Q & I). apply Rleb_true in Q.
    destruct (In_nth _ _ 0 I) as (j & Hj & EJ). rewrite LD in Hj. rewrite (D j Hj) in EJ. specialize (H j Hj). lra.
Qed.
Lemma braking_count (c c' : cyc R) brake i dts v n : modify_with_braking_trajectory c brake i dts = Ok (c', v, n) -> (0 <= n)%Z.
Proof.
  intros H. unfold modify_with_braking_trajectory in H. apply bind_ok in H as (u & _ & H). if_in H.
  { apply bind_ok in H as (? & _ & H). injection H as <- <- <-. lia. }
  apply bind_ok in H as (? & _ & H). apply bind_ok in H as (? & _ & H). if_in H; [injection H as <- <- <-; lia|].
  cbv zeta in H. match type of H with (if ?b then _ else _) = _ => destruct b end; [discriminate|].
  apply bind_ok in H as (? & _ & H). apply bind_ok in H as (? & _ & H). set (nn := if Z.ltb _ _ then _ else _) in H.
  injection H as _ _ <-. unfold nn. destruct (Z.ltb_spec (nround (- x / brake / x0)%num) 2); lia.
Qed.
Lemma coast_plan_loop (d d' : sdrive R) i x : wf_sd d -> d_cache d = build_cache (d_cyc0 d) -> (1 <= i < clen (d_cyc d))%nat ->
  length (d_rows d) = clen (d_cyc d) -> nondecreasing (time_s (d_cyc0 d)) -> nonneg (mps (d_cyc0 d)) ->
  veh_kg (d_veh d) <> 0 -> 0 <= coast_brake_start_speed_m_per_s (d_sp d) < speed d (i - 1) ->
  generate_coast_trajectory d i true = Ok (d', x) ->
  (d' = d /\ x = 0 /\ forall j, (j < length (time_s (d_cyc0 d)))%nat -> trapezoid (d_cyc0 d) 0 j < place d i) \/
  (d' = d /\ x = -1) \/
  exists stop vs nb, calc_distance_to_next_stop_from (d_cyc0 d) (place d i) (Some (d_cache d)) = Ok stop /\
    coast_planned d d' i x stop vs nb /\
    exists v X iter idx, coast_loop ncoast_max d (unique_grade (mask_list (map (fun y => Rleb (place d i) y) (cumsum (trapz_step_distances (d_cyc0 d)))) (grade (d_cyc0 d))))
      (place d i) (trapezoid (d_cyc0 d) 0 (length (time_s (d_cyc0 d)) - 1) - place d i
        - stopping_distance (coast_brake_accel_m_per_s2 (d_sp d)) (coast_brake_start_speed_m_per_s (d_sp d))) stop
      (coast_brake_start_speed_m_per_s (d_sp d)) (coast_brake_accel_m_per_s2 (d_sp d)) (speed d (i - 1)) 0 [] 0 i = Ok (CoastEnd v X vs iter idx).
Proof.
  intros W CA HI RL T S M (VB & V0) H. unfold generate_coast_trajectory in H.
  set (vb := coast_brake_start_speed_m_per_s (d_sp d)) in *. set (ab := coast_brake_accel_m_per_s2 (d_sp d)) in *.
  change (mps_ach_at d (i - 1)) with (speed d (i - 1)) in H. set (v0 := speed d (i - 1)) in *.
  apply bind_ok in H as (u & EA & H). unfold assertR in EA. unR. destruct (Rleb_spec ab 0) as [A0|]; [clear EA u|discriminate].
  rewrite (start_place d i W HI) in H. cbn [bindR] in H. set (p := place d i) in *.
  assert (NE := has_samples0 d i W HI). assert (W0 : wf (d_cyc0 d)) by apply W.
  rewrite CA in H. change (cc_distances (build_cache (d_cyc0 d))) with (cumsum (trapz_step_distances (d_cyc0 d))) in H. rewrite <- CA in H.
  destruct (existsb (fun b => b) (map (fun y => Rleb p y) (cumsum (trapz_step_distances (d_cyc0 d))))) eqn:EX; cbn [negb] in H.
  2:{ left. injection H as <- <-. split; [reflexivity|]. split; [reflexivity|]. now apply mask_none. }
  destruct (Rleb_spec v0 vb); [lra|]. destruct (Reqb_spec ab 0) as [|AB]; [discriminate|].
  apply bind_ok in H as (stop & ES & H). apply bind_ok in H as (r & EL & H).
  assert (HX : exists j, (j < length (time_s (d_cyc0 d)))%nat /\ p <= trapezoid (d_cyc0 d) 0 j).
  { destruct (existsb_exists (fun b => b) (map (fun y => Rleb p y) (cumsum (trapz_step_distances (d_cyc0 d))))) as [Q _].
    destruct (Q EX) as (b & I & B). subst b. apply in_map_iff in I as (y & Q1 & I). apply Rleb_true in Q1.
    destruct (In_nth _ _ 0 I) as (j & Hj & EJ). rewrite cum_dist_length in Hj by (try apply W0; exact NE).
    rewrite cum_dist_nth in EJ by (try apply W0; exact Hj). exists j. split; [exact Hj|lra]. }
  rewrite (masked_last (d_cyc0 d) p W0 NE T S HX) in EL. rewrite lit_R in EL.
  replace (- (1 / 2) * vb * vb / ab) with (stopping_distance ab vb) in EL by (unfold stopping_distance; field; exact AB).
  destruct r as [|v X speeds iter idx]; [right; left; injection H as <- <-; split; [reflexivity|lra]|].
  right. destruct (Nat.ltb iter ncoast_max && Nat.ltb idx (length (d_rows d)))%bool eqn:FO; [|left; injection H as <- <-; split; [reflexivity|lra]].
  right. apply Bool.andb_true_iff in FO as [FO1 FO2]. apply Nat.ltb_lt in FO1, FO2.
  match type of EL with coast_loop _ _ ?g _ _ _ _ _ _ _ _ _ _ = _ => set (ug := g) in EL end.
  assert (UG : forall g, ug = Some g <-> grade_from (d_cyc0 d) p g).
  { intros g. pose proof (unique_ahead d p g W0 NE CA) as G. unfold ahead_grades in G. rewrite CA in G. exact G. }
  destruct (loop_chain d p ug M UG _ _ _ _ AB _ _ _ _ _ _ _ _ _ _ _ EL ltac:(lia)) as (vs & E1 & E2 & E3 & E4 & E5 & E6 & E7 & E8 & E9).
  cbn [rev app] in E1. subst speeds. rewrite Rplus_0_l in E5. rewrite Rplus_0_r in E2. cbn [Nat.add] in E9. specialize (E9 FO1 FO2). unR.
  set (B := - lit 1 2 * v * v / ab) in H.
  assert (EB : B = stopping_distance ab v) by (unfold B, stopping_distance; rewrite lit_R; field; exact AB).
  set (tgt := nmin _ _) in H.
  assert (ET : tgt = Rmin (Rmax (stop - X) (B / 2)) (2 * B)).
  { unfold tgt. rewrite nmin_R, nmax_R, lit_R. unR. replace (1 / 2 * B) with (B / 2) by lra. reflexivity. }
  apply bind_ok in H as (d2 & ED & H). apply bind_ok in ED as ([[c1 vv] nz] & EM & ED). cbn [fst snd] in *.
  assert (D2 : d' = d2) by (injection H; congruence). assert (X2 : x = X + tgt) by (injection H; congruence). clear H.
  assert (LM : length (d_rows d) = length (mps (d_cyc d))) by (rewrite RL; unfold clen; symmetry; apply W).
  assert (FI : (i + length vs <= length (d_rows d))%nat) by lia.
  destruct (write_speeds_spec vs d i LM FI) as (A1 & A2 & A3 & A4 & A5 & A6 & A7 & A8 & A9 & A10 & A11 & A12 & A13).
  set (d1 := write_speeds d i vs) in *.
  exists stop, vs, (Z.to_nat nz). split; [exact ES|]. split; [|exists v, X, iter, idx; exact EL].
  assert (NN := braking_count _ _ _ _ _ _ _ EM).
  assert (D3 : d' = set_coast_range (with_cyc d1 c1) i i (i + (length vs + Z.to_nat nz))) by (injection ED; congruence). clear ED D2.
  constructor; fold vb ab p v0.
  - exact E2.
  - exact E3.
  - intros ws w z Q NZ. specialize (E8 ws w z Q NZ). lra.
  - unfold coast_over. rewrite <- E4, <- E5. destruct E9 as [Q|[Q|Q]]; [now left| |now right].
    exfalso. rewrite E4 in Q. destruct vs as [|w vs]; [cbn in Q; lra|]. rewrite Forall_forall in E3.
    assert (In (last (w :: vs) v0) (w :: vs)) as I. { destruct (exists_last (l := w :: vs)) as (l & a & EQ); [discriminate|]. rewrite EQ, last_snoc. apply in_or_app. right; now left. }
    specialize (E3 _ I). lra.
  - cbv zeta. rewrite <- E5, <- E4, <- EB. rewrite X2, ET. unfold Rmin, Rmax.
    destruct (Rle_dec (stop - X) (B / 2)), (Rle_dec stop (X + B / 2)); try lra;
      repeat match goal with |- context [Rle_dec ?a ?b] => destruct (Rle_dec a b) end; lra.
  - rewrite RL in FI. exact FI.
  - exists (d_cyc d1), vv. split; [exact A1|]. split; [exact A2|]. split; [exact A3|]. split; [exact A4|]. split; [|split].
    + intros j Hj. rewrite A5. destruct (Nat.leb_spec i (i + j)), (Nat.ltb_spec (i + j) (i + length vs)); try lia. cbn [andb]. f_equal. lia.
    + intros q Hq. rewrite A5. destruct (Nat.leb_spec i q), (Nat.ltb_spec q (i + length vs)); try lia; reflexivity.
    + rewrite <- E5. replace (x - X) with tgt by lra. rewrite EM. rewrite D3. cbn. repeat f_equal. lia.
  - intros j Hj. rewrite D3, coast_range_at by (cbn; rewrite A6; exact Hj).
    assert (CJ : coast_at (with_cyc d1 c1) j = coast_at d j) by (unfold coast_at, row_at; cbn; now rewrite A6). rewrite CJ.
    destruct (Nat.ltb_spec j i); [reflexivity|]. destruct (Nat.leb_spec i j); [|lia]. cbn [andb]. f_equal. lia.
  - rewrite D3. split; [exact A8|]. split; [exact A7|]. split; [exact A10|]. split; [exact A11|]. split; [exact A12|]. split.
    + unfold set_coast_range, upd_ctl_rows. cbn [d_rows with_rows with_cyc]. rewrite mapi_from_length. now rewrite A6.
    + intros j Hj. unfold row_at, set_coast_range, upd_ctl_rows, with_rows; cbn [d_rows with_cyc]. rewrite A6.
      destruct (Nat.lt_ge_cases j (length (d_rows d))) as [Q|Q]; [|rewrite !nth_overflow by (rewrite ?mapi_from_length; lia); reflexivity].
      rewrite (mapi_from_nth _ _ 0 j zero_row) by exact Q. cbn [Nat.add]. unfold row_ctl.
      assert (LB : Nat.ltb j i = true) by (now apply Nat.ltb_lt). rewrite LB. destruct (nth j (d_rows d) zero_row). reflexivity.
Qed.
Lemma coast_plan (d d' : sdrive R) i x : wf_sd d -> d_cache d = build_cache (d_cyc0 d) -> (1 <= i < clen (d_cyc d))%nat ->
  length (d_rows d) = clen (d_cyc d) -> nondecreasing (time_s (d_cyc0 d)) -> nonneg (mps (d_cyc0 d)) ->
  veh_kg (d_veh d) <> 0 -> 0 <= coast_brake_start_speed_m_per_s (d_sp d) < speed d (i - 1) ->
  generate_coast_trajectory d i true = Ok (d', x) ->
  (d' = d /\ x = 0 /\ forall j, (j < length (time_s (d_cyc0 d)))%nat -> trapezoid (d_cyc0 d) 0 j < place d i) \/
  (d' = d /\ x = -1) \/
  exists stop vs nb, calc_distance_to_next_stop_from (d_cyc0 d) (place d i) (Some (d_cache d)) = Ok stop /\
    coast_planned d d' i x stop vs nb.
Proof.
  intros W CA HI RL T S M V H. destruct (coast_plan_loop d d' i x W CA HI RL T S M V H) as [A|[A|(stop & vs & nb & E & A & _)]];
    [now left|right; now left|right; right; exists stop, vs, nb; now split].
Qed.
Lemma chain_trapezoid (c c0 : cyc R) : forall vs i u, (1 <= i)%nat ->
  (forall j, (j < length vs)%nat -> nth (i + j) (mps c) 0 = nth j vs 0) -> nth (i - 1) (mps c) 0 = u ->
  (forall j, (j < length vs)%nat -> duration c0 (i + j) = duration c (i + j)) ->
  trapezoid c (i - 1) (length vs) = chain_distance c0 i u vs.
Proof.
  induction vs as [|w vs IH]; intros i u HI V U D; cbn [length trapezoid chain_distance]; [reflexivity|].
  replace (S (i - 1)) with i by lia.
  pose proof (V 0%nat ltac:(cbn; lia)) as VW. rewrite Nat.add_0_r in VW. cbn [nth] in VW.
  pose proof (D 0%nat ltac:(cbn; lia)) as DW. rewrite Nat.add_0_r in DW. rewrite DW. unfold duration. rewrite U, VW.
  assert (E : trapezoid c i (length vs) = chain_distance c0 (S i) w vs).
  { rewrite <- (IH (S i) w); [f_equal; lia|lia| |replace (S i - 1)%nat with i by lia; exact VW|].
    - intros j Hj. specialize (V (S j) ltac:(cbn; lia)). replace (S i + j)%nat with (i + S j)%nat by lia. exact V.
    - intros j Hj. specialize (D (S j) ltac:(cbn; lia)). replace (S i + j)%nat with (i + S j)%nat by lia. exact D. }
  rewrite E. lra.
Qed.
Lemma plan_arrives (d d' : sdrive R) i x stop vs nb : coast_planned d d' i x stop vs nb -> wf_sd d ->
  (1 <= i < clen (d_cyc d))%nat -> time_s (d_cyc d) = time_s (d_cyc0 d) -> nth (i - 1) (mps (d_cyc d)) 0 = speed d (i - 1) ->
  coast_brake_accel_m_per_s2 (d_sp d) < 0 -> 0 <= coast_brake_start_speed_m_per_s (d_sp d) < speed d (i - 1) ->
  (0 < nb)%nat -> (i + length vs + nb <= clen (d_cyc d))%nat -> unit_steps (d_cyc d) (i + length vs) nb ->
  (forall p, (i + length vs <= p < i + length vs + nb - 1)%nat -> 0 < nth p (mps (d_cyc d')) 0) ->
  trapezoid (d_cyc d') (i - 1) (length vs + nb) = x /\ nth (i + length vs + nb - 1) (mps (d_cyc d')) 0 = 0.
Proof.
  intros [CH FA DU OV CX FI CY FL RE] W HI TT VA AB (VB & V0) NB FIT U P.
  destruct CY as (c & v & B1 & B2 & B3 & B4 & B5 & B6 & EM).
  set (ab := coast_brake_accel_m_per_s2 (d_sp d)) in *. set (vb := coast_brake_start_speed_m_per_s (d_sp d)) in *.
  set (u := speed d (i - 1)) in *. set (X := chain_distance (d_cyc0 d) i u vs) in *. cbv zeta in CX.
  unfold clen in *. assert (LM : length (mps (d_cyc d)) = length (time_s (d_cyc d))) by apply W.
  set (m := (i + length vs)%nat) in *.
  set (w := last vs u) in *.
  assert (LW : nth (m - 1) (mps c) 0 = w).
  { unfold w, m. destruct vs as [|a vs]; [cbn; rewrite Nat.add_0_r, B6 by lia; exact VA|].
    replace (i + length (a :: vs) - 1)%nat with (i + length vs)%nat by (cbn; lia). rewrite B5 by (cbn; lia).
    rewrite (last_nth (a :: vs)). cbn [length]. replace (S (length vs) - 1)%nat with (length vs) by lia. apply nth_indep. cbn. lia. }
  assert (WP : vb < w).
  { unfold w. destruct vs as [|a vs]; [cbn; lra|]. rewrite Forall_forall in FA. apply FA.
    destruct (exists_last (l := a :: vs)) as (l & b & EQ); [discriminate|]. rewrite EQ, last_snoc. apply in_or_app. right; now left. }
  assert (BP : 0 < stopping_distance ab w).
  { unfold stopping_distance. apply Rmult_lt_0_compat; [nra|]. apply Rinv_0_lt_compat. lra. }
  set (B := stopping_distance ab w) in *.
  assert (TP : 0 < x - X).
  { rewrite CX. unfold Rmin, Rmax. repeat match goal with |- context [Rle_dec ?a ?b] => destruct (Rle_dec a b) end; lra. }
  assert (ME : (m < length (time_s c))%nat) by (rewrite B1; lia).
  assert (VE : nth_error (mps c) (m - 1) = Some w) by (rewrite (nth_error_nth' _ 0) by lia; now rewrite LW).
  pose proof (braking_distance c (d_cyc d') ab m (Some (x - X)) v (Z.of_nat nb) w EM ltac:(rewrite B1, B4; exact LM) ltac:(lia) ME VE
    ltac:(lia)) as Q. rewrite Nat2Z.id in Q. specialize (Q ltac:(lia)).
  assert (U' : unit_steps c m nb) by (intros q Hq; rewrite B1; apply U; exact Hq).
  specialize (Q U' P). unfold brake_request in Q. destruct (Rle_dec (x - X) 0); [lra|].
  destruct (braking_edit c (d_cyc d') ab m (Some (x - X)) v (Z.of_nat nb) w EM ltac:(rewrite B1, B4; exact LM) ltac:(lia) ME VE)
    as (_ & T1 & _ & _ & T4 & T5 & _ & T7).
  split.
  - rewrite trapezoid_add. replace (i - 1 + length vs)%nat with (m - 1)%nat by lia. rewrite Q.
    rewrite (chain_trapezoid (d_cyc d') (d_cyc0 d) vs i u); [fold X; lra|lia| | |].
    + intros j Hj. rewrite <- (B5 j Hj). assert (E := T5 (i + j)%nat ltac:(left; lia)).
      rewrite !(nth_error_nth' _ 0) in E by lia. congruence.
    + assert (E := T5 (i - 1)%nat ltac:(left; lia)). rewrite !(nth_error_nth' _ 0) in E by lia.
      assert (E' : nth (i - 1) (mps (d_cyc d')) 0 = nth (i - 1) (mps c) 0) by congruence. rewrite E', B6 by lia. exact VA.
    + intros j Hj. unfold duration. now rewrite T1, B1, TT.
  - destruct T7 as [[Z _]|(_ & _ & T7)]; [lia|]. destruct (T7 ltac:(lia)) as [E _].
    replace (Z.to_nat (Z.of_nat m + Z.of_nat nb - 1)) with (m + nb - 1)%nat in E by lia.
    now apply (nth_error_nth _ _ 0) in E.
Qed.
