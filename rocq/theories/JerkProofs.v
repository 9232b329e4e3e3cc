(** Proofs of C13 (constant jerk), C14 (trajectory edits) and C15 (passing detection). *)
From Verif Require Import Num Numpy ListFacts CycleModel CycleSpec MicrotripProofs ConcatProofs CycleProofs1
  ResampleProofs RateProofs DistProofs.
Local Open Scope R_scope.

(** ** C13 *)
Lemma jerk_den n dt :
  1 / 2 * IZR n * IZR (n - 1) * dt - (1 / 3) * IZR (n - 1) * IZR (n - 2) * dt - 1 / 2 * IZR (n - 1) * dt * dt
  = dt * IZR (n - 1) * (IZR n + 4 - 3 * dt) / 6.
Proof. rewrite !minus_IZR. field. Qed.

Theorem jerk_rendezvous (n : Z) (D0 v0 Dr vr dt : R) :
  (1 < n)%Z -> D0 < Dr -> dt <> 0 -> dt <> (IZR n + 4) / 3 ->
  exists k a0, calc_constant_jerk_trajectory n D0 v0 Dr vr dt = Ok (k, a0) /\
    speed_for_constant_jerk n v0 a0 k dt = vr /\ dist_for_constant_jerk n D0 v0 a0 k dt = Dr.
Proof.
  intros Hn HD Hdt Hdt2. unfold calc_constant_jerk_trajectory, assertR.
  destruct (Z.ltb_spec 1 n); [|lia]. cbn [bindR]. unR.
  destruct (Rltb_spec D0 Dr); [|lra]. cbn [bindR].
  rewrite !lit_R. rewrite !jerk_den.
  assert (H1 : 1 < IZR n) by (apply IZR_lt; assumption).
  assert (H2 : IZR (n - 1) = IZR n - 1) by apply minus_IZR.
  assert (H3 : IZR (n - 2) = IZR n - 2) by apply minus_IZR.
  rewrite H2, H3. set (x := IZR n) in *.
  assert (Hden : dt * (x - 1) * (x + 4 - 3 * dt) / 6 <> 0).
  { unfold Rdiv. repeat apply Rmult_integral_contrapositive_currified; try lra. }
  assert (Hnd : x * dt <> 0) by (apply Rmult_integral_contrapositive_currified; lra).
  assert (Hnd2 : 1 / 2 * x * x * dt <> 0) by (repeat apply Rmult_integral_contrapositive_currified; lra).
  destruct (Reqb_spec (dt * (x - 1) * (x + 4 - 3 * dt) / 6) 0); [contradiction|].
  destruct (Reqb_spec (x * dt) 0); [contradiction|].
  destruct (Reqb_spec (1 / 2 * x * x * dt) 0); [contradiction|]. cbn [orb].
  eexists. eexists. split; [reflexivity|].
  assert (Hq : x + 4 - 3 * dt <> 0) by lra.
  unfold speed_for_constant_jerk, dist_for_constant_jerk. rewrite !lit_R. unR. rewrite H2, H3. fold x.
  split; field; repeat split; lra.
Qed.

Theorem jerk_singular (n : Z) (D0 v0 Dr vr dt : R) :
  (1 < n)%Z -> D0 < Dr -> dt = 0 \/ dt = (IZR n + 4) / 3 ->
  calc_constant_jerk_trajectory n D0 v0 Dr vr dt = Err ZeroDivisionError.
Proof.
  intros Hn HD Hdt. unfold calc_constant_jerk_trajectory, assertR.
  destruct (Z.ltb_spec 1 n); [|lia]. cbn [bindR]. unR.
  destruct (Rltb_spec D0 Dr); [|lra]. cbn [bindR]. rewrite !lit_R. rewrite !jerk_den.
  rewrite (proj2 (Reqb_true _ _)).
  - reflexivity.
  - destruct Hdt as [->| ->]; field.
Qed.

Theorem jerk_bad_plan {F} {N : Num F} (n : Z) (D0 v0 Dr vr dt : F) :
  (n <= 1)%Z \/ nltb D0 Dr = false ->
  calc_constant_jerk_trajectory n D0 v0 Dr vr dt = Err AssertionError.
Proof.
  intros H. unfold calc_constant_jerk_trajectory, assertR.
  destruct (Z.ltb_spec 1 n); cbn [bindR]; [|reflexivity].
  destruct H as [H|H]; [lia|]. now rewrite H.
Qed.

(** dt = 1: the closed forms are the step-by-step integration. *)
Theorem jerk_unit_step (j : Z) (d0 v0 a0 k : R) :
  speed_for_constant_jerk 0 v0 a0 k 1 = v0 /\ dist_for_constant_jerk 0 d0 v0 a0 k 1 = d0 /\
  speed_for_constant_jerk (j + 1) v0 a0 k 1
    = speed_for_constant_jerk j v0 a0 k 1 + accel_for_constant_jerk j a0 k 1 * 1 /\
  dist_for_constant_jerk (j + 1) d0 v0 a0 k 1
    = dist_for_constant_jerk j d0 v0 a0 k 1
      + (speed_for_constant_jerk j v0 a0 k 1 + speed_for_constant_jerk (j + 1) v0 a0 k 1) / 2 * 1.
Proof.
  unfold speed_for_constant_jerk, dist_for_constant_jerk, accel_for_constant_jerk. rewrite !lit_R. unR.
  rewrite ?minus_IZR, ?plus_IZR. repeat split; field.
Qed.
Theorem jerk_other_step (dt : R) :
  dt <> 0 -> dt <> 1 -> exists j v0 a0 k,
  speed_for_constant_jerk (j + 1) v0 a0 k dt
    <> speed_for_constant_jerk j v0 a0 k dt + accel_for_constant_jerk j a0 k dt * dt.
Proof.
  intros H0 H1. exists 1%Z, 0, 0, 1. unfold speed_for_constant_jerk, accel_for_constant_jerk. rewrite !lit_R. unR.
  cbn [Z.add Z.sub Pos.add Z.opp Z.pos_sub Pos.succ]. intros E.
  assert (dt * (dt - 1) = 0) as E2 by (change (1 + 1 - 1)%Z with 1%Z in E; cbn in E; lra).
  apply Rmult_integral in E2. lra.
Qed.

(** ** C14 *)
Section Loop.
  Variables (idx : nat) (v0 a0 k dt : R) (m : nat).
  Hypothesis Hidx : (1 <= idx)%nat.
  Lemma jerk_loop_spec fuel : forall speeds ni v vs' v',
    jerk_loop speeds m idx v0 v a0 k dt ni fuel = (vs', v') -> length speeds = m -> (1 <= ni)%nat ->
    length vs' = m /\
    (forall p, (p < idx - 1 + ni)%nat \/ (idx - 1 + ni + fuel <= p)%nat -> nth_error vs' p = nth_error speeds p) /\
    (forall j, (ni <= j < ni + fuel)%nat -> (idx - 1 + j < m)%nat ->
       nth_error vs' (idx - 1 + j) = Some (nmax (speed_for_constant_jerk (Z.of_nat j) v0 a0 k dt) n0)) /\
    (fuel = O -> v' = v) /\
    ((1 <= fuel)%nat -> (idx - 1 + ni + fuel <= m)%nat ->
       v' = speed_for_constant_jerk (Z.of_nat (ni + fuel - 1)) v0 a0 k dt).
  Proof.
    induction fuel as [|fuel IH]; intros speeds ni v vs' v' H Hm Hni; cbn [jerk_loop] in H.
    - injection H as <- <-. repeat split; auto; intros; lia.
    - destruct (Nat.leb_spec m (idx - 1 + ni)) as [Hle|Hlt].
      + injection H as <- <-. repeat split; auto; intros; lia.
      + set (w := nmax _ n0) in H.
        apply IH in H; [|now rewrite set_nth_length|lia]. destruct H as (E1 & E2 & E3 & E4 & E5).
        split; [exact E1|]. split; [|split; [|split]].
        * intros p Hp. rewrite E2 by lia. apply set_nth_other. lia.
        * intros j Hj Hjl. destruct (Nat.eq_dec j ni) as [->|Hn].
          -- rewrite E2 by lia. apply set_nth_same. lia.
          -- apply E3; lia.
        * discriminate.
        * intros _ Hl. destruct fuel as [|fuel].
          -- rewrite E4 by reflexivity. f_equal. f_equal. lia.
          -- rewrite E5 by lia. f_equal. f_equal. lia.
  Qed.
End Loop.

Theorem jerk_edit (c c' : cyc R) idx n k a0 v v0 :
  modify_by_const_jerk_trajectory c idx n k a0 = Ok (c', v) ->
  length (mps c) = length (time_s c) -> (1 <= idx)%nat -> (0 <= n)%Z ->
  nth_error (mps c) (idx - 1) = Some v0 ->
  time_s c' = time_s c /\ grade c' = grade c /\ road_type c' = road_type c /\
  length (mps c') = length (mps c) /\
  (forall p, (p < idx)%nat \/ (Z.of_nat idx + n <= Z.of_nat p)%Z -> nth_error (mps c') p = nth_error (mps c) p) /\
  (forall j, (1 <= Z.of_nat j <= n)%Z -> (idx + j - 1 < length (mps c))%nat ->
     nth_error (mps c') (idx + j - 1) =
     Some (Rmax 0 (v0 + INR j * a0 * (nth idx (time_s c) 0 - nth (idx - 1) (time_s c) 0)
                   + INR j * (INR j - 1) / 2 * k * (nth idx (time_s c) 0 - nth (idx - 1) (time_s c) 0)))) /\
  ((1 <= n)%Z -> (Z.of_nat idx + n <= Z.of_nat (length (mps c)))%Z ->
     v = speed_for_constant_jerk n v0 a0 k (nth idx (time_s c) 0 - nth (idx - 1) (time_s c) 0)).
Proof.
  intros H Hw Hidx Hn Hv0. unfold modify_by_const_jerk_trajectory in H.
  assert (Hil : (idx - 1 < length (mps c))%nat) by (apply nth_error_Some; congruence).
  assert (Hg : pyget (mps c) (Z.of_nat idx - 1) = Ok v0).
  { replace (Z.of_nat idx - 1)%Z with (Z.of_nat (idx - 1)) by lia. now apply pyget_nonneg. }
  rewrite Hg in H. cbn [bindR] in H.
  destruct (Nat.lt_ge_cases idx (length (time_s c))) as [Hi|Hi].
  2:{ rewrite dt_s_at_i_past in H by assumption. discriminate. }
  rewrite dt_s_at_i_pos in H by assumption. cbn [bindR] in H.
  set (dt := nth idx (time_s c) 0 - nth (idx - 1) (time_s c) 0) in *.
  destruct (jerk_loop (mps c) (length (time_s c)) idx v0 v0 a0 k dt 1 (Z.to_nat n)) as [vs' v'] eqn:E.
  injection H as <- <-.
  destruct (jerk_loop_spec idx v0 a0 k dt (length (time_s c)) Hidx _ _ _ _ _ _ E Hw ltac:(lia)) as (E1 & E2 & E3 & _ & E5).
  cbn [time_s mps grade road_type]. do 3 (split; [reflexivity|]). split; [congruence|].
  split; [|split].
  - intros p Hp. apply E2. lia.
  - intros j Hj Hjl. replace (idx + j - 1)%nat with (idx - 1 + j)%nat by lia.
    rewrite E3 by lia. f_equal. rewrite nmax_R, Rmax_comm. unR. f_equal.
    unfold speed_for_constant_jerk. unR. rewrite minus_IZR, <- INR_IZR_INZ. rewrite lit_R. lra.
  - intros H1 Hl. rewrite E5 by lia. f_equal. lia.
Qed.

Theorem braking_edit (c c' : cyc R) brake i dts v n v0 :
  modify_with_braking_trajectory c brake i dts = Ok (c', v, n) ->
  length (mps c) = length (time_s c) -> (1 <= i)%nat -> (i < length (time_s c))%nat ->
  nth_error (mps c) (i - 1) = Some v0 ->
  brake < 0 /\
  time_s c' = time_s c /\ grade c' = grade c /\ road_type c' = road_type c /\
  length (mps c') = length (mps c) /\
  (forall p, (p < i)%nat \/ (Z.of_nat i + n <= Z.of_nat p)%Z -> nth_error (mps c') p = nth_error (mps c) p) /\
  (forall p u, (i <= p)%nat -> (Z.of_nat p < Z.of_nat i + n)%Z -> nth_error (mps c') p = Some u -> 0 <= u) /\
  (n = 0%Z /\ c' = c \/
   (2 <= n)%Z /\ n = Z.max 2 (nround (- v0 / brake / (nth i (time_s c) 0 - nth (i - 1) (time_s c) 0))) /\
   ((Z.of_nat i + n <= Z.of_nat (length (mps c)))%Z ->
    nth_error (mps c') (Z.to_nat (Z.of_nat i + n - 1)) = Some 0 /\ v = 0)).
Proof.
  intros H Hw Hi1 Hi Hv0. unfold modify_with_braking_trajectory, assertR in H. unR.
  destruct (Rltb_spec brake 0) as [Hb|Hb]; [|discriminate]. cbn [bindR] in H.
  destruct (Nat.leb_spec (length (time_s c)) i); [lia|].
  assert (Hg : pyget (mps c) (Z.of_nat i - 1) = Ok v0).
  { replace (Z.of_nat i - 1)%Z with (Z.of_nat (i - 1)) by lia. now apply pyget_nonneg. }
  rewrite Hg in H. cbn [bindR] in H. rewrite dt_s_at_i_pos in H by assumption. cbn [bindR] in H.
  set (dt := nth i (time_s c) 0 - nth (i - 1) (time_s c) 0) in *.
  split; [assumption|].
  match type of H with (if Rleb ?d 0 then _ else _) = _ => set (D := d) in * end.
  destruct (Rleb_spec D 0) as [HD|HD].
  { injection H as <- <- <-. repeat split; auto; intros; lia. }
  destruct (Reqb_spec dt 0) as [Hdt|Hdt]; [discriminate|].
  set (n' := if Z.ltb _ 2 then 2%Z else _) in H.
  assert (Hn' : n' = Z.max 2 (nround (- v0 / brake / dt))).
  { unfold n'. destruct (Z.ltb_spec (nround (- v0 / brake / dt)) 2); lia. }
  assert (Hn2 : (2 <= n')%Z) by lia.
  destruct (calc_constant_jerk_trajectory n' 0 v0 D 0 dt) as [[k a0]|] eqn:Ec; [|discriminate].
  cbn [bindR fst snd] in H.
  destruct (modify_by_const_jerk_trajectory c i n' k a0) as [[c1 v1]|] eqn:Em; [|discriminate].
  cbn [bindR fst snd] in H. injection H as <- <- <-.
  destruct (jerk_edit c c1 i n' k a0 v1 v0 Em Hw Hi1 ltac:(lia) Hv0) as (T1 & T2 & T3 & T4 & T5 & T6 & T7).
  fold dt in T6, T7.
  repeat (split; [assumption|]). split.
  { intros p u Hp1 Hp2 Hu.
    assert (Hpl : (p < length (mps c))%nat) by (rewrite <- T4; apply nth_error_Some; congruence).
    specialize (T6 (p - i + 1)%nat ltac:(lia) ltac:(lia)).
    replace (i + (p - i + 1) - 1)%nat with p in T6 by lia. rewrite Hu in T6. injection T6 as ->. apply Rmax_l. }
  right. split; [assumption|]. split; [assumption|]. intros Hfit.
  assert (Hspd : speed_for_constant_jerk n' v0 a0 k dt = 0).
  { destruct (Req_dec dt ((IZR n' + 4) / 3)) as [Hs|Hs].
    - rewrite (jerk_singular n' 0 v0 D 0 dt) in Ec by (lia || lra || auto). discriminate.
    - destruct (jerk_rendezvous n' 0 v0 D 0 dt ltac:(lia) ltac:(lra) Hdt Hs) as (k' & a' & E & Hs1 & _).
      rewrite E in Ec. injection Ec as <- <-. assumption. }
  specialize (T6 (Z.to_nat n') ltac:(lia) ltac:(lia)).
  replace (i + Z.to_nat n' - 1)%nat with (Z.to_nat (Z.of_nat i + n' - 1)) in T6 by lia.
  split.
  - rewrite T6. f_equal.
    unfold speed_for_constant_jerk in Hspd. unR. rewrite lit_R, minus_IZR in Hspd.
    rewrite INR_IZR_INZ, Z2Nat.id by lia.
    match goal with |- Rmax 0 ?e = 0 => replace e with 0 by lra end. apply Rmax_left. lra.
  - rewrite T7 by lia. exact Hspd.
Qed.
Theorem braking_rejects (c : cyc R) brake i dts :
  0 <= brake -> modify_with_braking_trajectory c brake i dts = Err AssertionError.
Proof.
  intros H. unfold modify_with_braking_trajectory, assertR. unR. destruct (Rltb_spec brake 0); [lra|]. reflexivity.
Qed.
Theorem braking_past_end (c : cyc R) brake i dts v r :
  brake < 0 -> (length (time_s c) <= i)%nat -> mps c = v :: r ->
  modify_with_braking_trajectory c brake i dts = Ok (c, last (v :: r) v, 0%Z).
Proof.
  intros H Hi Hm. unfold modify_with_braking_trajectory, assertR. unR. destruct (Rltb_spec brake 0); [|lra].
  cbn [bindR]. destruct (Nat.leb_spec (length (time_s c)) i); [|lia]. rewrite Hm, pyget_last. reflexivity.
Qed.

(** ** C15 *)

Lemma step_to (c : cyc R) idx d v v0 dt :
  length (mps c) = length (time_s c) -> (idx < length (time_s c))%nat ->
  d = trapezoid c 0 (idx - 1) -> v = nth idx (mps c) 0 -> ((1 <= idx)%nat -> v0 = nth (idx - 1) (mps c) 0) ->
  dt_s_at_i c idx = Ok dt -> d + (v + v0) * (1 / 2) * dt = trapezoid c 0 idx.
Proof.
  intros Hw Hi -> -> Hv0 Hdt. destruct idx as [|j].
  - cbn in Hdt. injection Hdt as <-. cbn. unR. change (@n0 R RNum) with 0. lra.
  - rewrite dt_s_at_i_pos in Hdt by lia. injection Hdt as <-. rewrite (Hv0 ltac:(lia)).
    cbn [Nat.sub]. rewrite Nat.sub_0_r, trapezoid_snoc. unfold seg. cbn [Nat.add]. lra.
Qed.
Lemma dt_ok (c : cyc R) i : (i < length (time_s c))%nat -> exists dt, dt_s_at_i c i = Ok dt.
Proof. intros H. destruct i; [cbn; eauto|]. rewrite dt_s_at_i_pos by lia. eauto. Qed.

Section Passing.
  Variables (c c0 : cyc R) (i : nat) (tol : R).
  Hypothesis (Hw : length (mps c) = length (time_s c)) (Hw0 : length (mps c0) = length (time_s c0)).
  Hypothesis (Hlen : length (time_s c0) = length (time_s c)) (Hi : (i < length (time_s c))%nat).

  Lemma passing_loop_spec fuel : forall di v0 v0_lv d d_lv,
    (i + di + fuel = length (time_s c))%nat ->
    d = trapezoid c 0 (i + di - 1) -> d_lv = trapezoid c0 0 (i + di - 1) ->
    ((1 <= i + di)%nat -> v0 = nth (i + di - 1) (mps c) 0) ->
    ((1 <= i + di)%nat -> v0_lv = nth (i + di - 1) (mps c0) 0) ->
    (forall j, (i <= j < i + di)%nat -> 1 / 1000000 < nth j (mps c) 0) ->
    (forall j, (i < j < i + di)%nat -> - tol <= gap_at c c0 j) ->
    (exists idx, first_overtake c c0 i tol idx /\
       passing_loop c c0 i di fuel v0 v0_lv d d_lv tol
       = Ok (Some (idx, S (idx - i), trapezoid c0 0 idx, nth idx (mps c0) 0))) \/
    (~ (exists idx, first_overtake c c0 i tol idx) /\
       passing_loop c c0 i di fuel v0 v0_lv d d_lv tol = Ok None).
  Proof.
    induction fuel as [|fuel IH]; intros di v0 v0_lv d d_lv Hf Hd Hdl Hv Hvl Hmv Hgap; cbn [passing_loop].
    - right. split; [|reflexivity]. intros (idx & (H1 & H2 & H3 & H4)).
      assert (idx < i + di)%nat by lia. specialize (Hgap idx ltac:(lia)). lra.
    - set (idx := (i + di)%nat) in *.
      assert (Hidx : (idx < length (time_s c))%nat) by lia.
      rewrite (pyget_nth _ idx 0) by lia. cbn [bindR]. rewrite (pyget_nth _ idx 0) by lia. cbn [bindR].
      destruct (dt_ok c idx Hidx) as [dt Hdt]. destruct (dt_ok c0 idx ltac:(lia)) as [dt0 Hdt0].
      rewrite Hdt, Hdt0. cbn [bindR]. rewrite lit_R. unR.
      rewrite (step_to c idx d (nth idx (mps c) 0) v0 dt) by (assumption || reflexivity || lia).
      rewrite (step_to c0 idx d_lv (nth idx (mps c0) 0) v0_lv dt0) by (assumption || reflexivity || lia).
      fold (gap_at c c0 idx). change (@tol6 R RNum) with (1 / 1000000).
      destruct (Nat.ltb_spec 0 di) as [Hdi|Hdi]; cbn [andb].
      + destruct (Rltb_spec (gap_at c c0 idx) (- tol)) as [Hg|Hg].
        * left. exists idx. split.
          -- split; [lia|]. split; [assumption|]. split; [assumption|]. assumption.
          -- do 3 f_equal. f_equal. f_equal. unfold idx. lia.
        * destruct (Rleb_spec (nth idx (mps c) 0) (1 / 1000000)) as [Hs|Hs].
          -- right. split; [|reflexivity]. intros (x & (H1 & H2 & H3 & H4)).
             destruct (Nat.lt_trichotomy x idx) as [Hx|[->|Hx]].
             ++ specialize (Hgap x ltac:(lia)). lra.
             ++ lra.
             ++ specialize (H3 idx ltac:(lia)). lra.
          -- replace (i + di)%nat with idx by reflexivity.
             destruct (IH (S di) (nth idx (mps c) 0) (nth idx (mps c0) 0) (trapezoid c 0 idx) (trapezoid c0 0 idx)) as [H|H];
               try (replace (i + S di - 1)%nat with idx by lia); auto; try lia.
             ++ intros j Hj. destruct (Nat.eq_dec j idx) as [->|]; [lra|]. apply Hmv. lia.
             ++ intros j Hj. destruct (Nat.eq_dec j idx) as [->|]; [lra|]. apply Hgap. lia.
      + destruct (Rleb_spec (nth idx (mps c) 0) (1 / 1000000)) as [Hs|Hs].
        * right. split; [|reflexivity]. intros (x & (H1 & H2 & H3 & H4)).
          specialize (H3 idx ltac:(lia)). lra.
        * destruct (IH (S di) (nth idx (mps c) 0) (nth idx (mps c0) 0) (trapezoid c 0 idx) (trapezoid c0 0 idx)) as [H|H];
               try (replace (i + S di - 1)%nat with idx by lia); auto; try lia.
          intros j Hj. destruct (Nat.eq_dec j idx) as [->|]; [lra|]. apply Hmv. lia.
  Qed.

  Lemma detect_passing_spec :
    (1 <= i)%nat ->
    (exists idx, first_overtake c c0 i tol idx /\
       detect_passing c c0 i tol = Ok
         {| has_collision := Rltb (trapezoid c 0 (i - 1)) (trapezoid c0 0 idx);
            pi_idx := idx; num_steps := S (idx - i);
            start_distance_m := trapezoid c 0 (i - 1); distance_m := trapezoid c0 0 idx;
            start_speed := nth (i - 1) (mps c) 0; pi_speed := nth idx (mps c0) 0;
            time_step_duration := nth i (time_s c) 0 - nth (i - 1) (time_s c) 0 |}) \/
    (~ (exists idx, first_overtake c c0 i tol idx) /\
       detect_passing c c0 i tol = Ok
         {| has_collision := false; pi_idx := 0; num_steps := 0;
            start_distance_m := trapezoid c 0 (i - 1); distance_m := 0;
            start_speed := nth (i - 1) (mps c) 0; pi_speed := 0;
            time_step_duration := nth i (time_s c) 0 - nth (i - 1) (time_s c) 0 |}).
  Proof.
    intros Hi1. unfold detect_passing. destruct (Nat.leb_spec (length (time_s c)) i); [lia|].
    rewrite (pyget_pred _ i 0) by lia. cbn [bindR].
    rewrite start_distance by lia. cbn [bindR]. rewrite (pyget_pred _ i 0) by lia. cbn [bindR].
    rewrite start_distance by lia. cbn [bindR].
    destruct (passing_loop_spec (length (mps c) - i) 0 (nth (i - 1) (mps c) 0) (nth (i - 1) (mps c0) 0)
                (trapezoid c 0 (i - 1)) (trapezoid c0 0 (i - 1))) as [(idx & H1 & H2)|(H1 & H2)];
      try (rewrite Nat.add_0_r); auto; try lia; try (intros; lia).
    - left. exists idx. split; [assumption|]. rewrite H2. cbn [bindR].
      rewrite dt_s_at_i_pos by lia. reflexivity.
    - right. split; [assumption|]. rewrite H2. cbn [bindR]. rewrite dt_s_at_i_pos by lia. reflexivity.
  Qed.
End Passing.
