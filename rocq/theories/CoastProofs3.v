(** Planned coasts: when planning succeeds, and braking at once. *)
From Coq Require Import Lia Lra.
From Verif Require Import Num Numpy ListFacts CycleModel CycleSpec RateProofs DistProofs JerkProofs CycleProofs2 VehModel SimModel
  SimState WalkModel FrameProofs WalkProofs StepProofs SimSpec SimProofs1 WalkSpec CoastSpec CoastProofs CoastProofs2.
Local Open Scope R_scope.

Lemma mod_jerk_total (c : cyc R) i n k a : length (mps c) = length (time_s c) -> (1 <= i < length (time_s c))%nat ->
  exists r, modify_by_const_jerk_trajectory c i n k a = Ok r.
Proof.
  intros W HI. unfold modify_by_const_jerk_trajectory.
  destruct (nth_error (mps c) (i - 1)) as [v|] eqn:E; [|apply nth_error_None in E; lia].
  assert (Hg : pyget (mps c) (Z.of_nat i - 1) = Ok v).
  { replace (Z.of_nat i - 1)%Z with (Z.of_nat (i - 1)) by lia. now apply pyget_nonneg. }
  rewrite Hg. cbn [bindR]. rewrite dt_s_at_i_pos by lia. cbn [bindR]. destruct (jerk_loop _ _ _ _ _ _ _ _ _ _). eauto.
Qed.
Lemma brake_total (c : cyc R) ab i dts : length (mps c) = length (time_s c) -> ab < 0 -> (1 <= i)%nat -> time_s c <> [] ->
  ((i < length (time_s c))%nat -> nth i (time_s c) 0 - nth (i - 1) (time_s c) 0 = 1) ->
  exists r, modify_with_braking_trajectory c ab i dts = Ok r.
Proof.
  intros W AB HI NE U. unfold modify_with_braking_trajectory, assertR. unR. destruct (Rltb_spec ab 0) as [_|Q]; [|lra]. cbn [bindR].
  destruct (Nat.leb_spec (length (time_s c)) i) as [L|L].
  - destruct (mps c) as [|a l]; [destruct (time_s c); [congruence|discriminate]|]. rewrite pyget_last. cbn [bindR]. eauto.
  - destruct (nth_error (mps c) (i - 1)) as [v|] eqn:E; [|apply nth_error_None in E; lia].
    assert (Hg : pyget (mps c) (Z.of_nat i - 1) = Ok v).
    { replace (Z.of_nat i - 1)%Z with (Z.of_nat (i - 1)) by lia. now apply pyget_nonneg. }
    rewrite Hg. cbn [bindR]. rewrite dt_s_at_i_pos by lia. cbn [bindR]. rewrite U by exact L.
    match goal with |- context [Rleb ?e 0] => set (D := e); destruct (Rleb_spec D 0) as [HD|HD]; [eauto|] end.
    destruct (Reqb_spec 1 0) as [Q10|_]; [lra|]. set (nn := if Z.ltb _ 2 then 2%Z else _).
    assert (Hn2 : (2 <= nn)%Z) by (unfold nn; destruct (Z.ltb_spec (nround (- v / ab / 1)) 2); lia).
    destruct (jerk_rendezvous nn 0 v D 0 1) as (k & a & EQ & _); [lia|lra|lra| |].
    { intros Z. assert (IZR nn = -1) by lra. assert (2 <= IZR nn) by (now apply (IZR_le 2)). lra. }
    rewrite EQ. cbn [bindR fst snd]. destruct (mod_jerk_total c i nn k a W ltac:(lia)) as (rr & ER). rewrite ER. cbn [bindR]. eauto.
Qed.

Lemma inner_total (d : sdrive R) g : forall n v va gr dt x k vn, exists r, coast_inner d (Some g) n v va gr dt x k vn = Ok r.
Proof.
  induction n as [|n IH]; intros v va gr dt x k vn; cbn [coast_inner]; [eauto|].
  destruct (favor_grade_accuracy (d_sp d)); cbn [bindR]; apply IH.
Qed.
Lemma loop_total (d : sdrive R) g d0 dmax stop vb ab : length (d_rows d) = length (time_s (d_cyc0 d)) ->
  forall f v x acc iter idx, (1 <= idx)%nat -> exists r, coast_loop f d (Some g) d0 dmax stop vb ab v x acc iter idx = Ok r.
Proof.
  intros L. induction f as [|f IH]; intros v x acc iter idx HI; cbn [coast_loop]; [eauto|].
  match goal with |- context [if ?b then _ else _] => destruct b eqn:C end; [|eauto].
  apply Bool.andb_true_iff in C as [_ C]. apply Nat.ltb_lt in C.
  rewrite dt_s_at_i_pos by lia. cbn [bindR].
  destruct (inner_total d g (if favor_grade_accuracy (d_sp d) then 2 else 1) v
    (nmul (lit 1 2) (nadd v (coast_next v (calc_dvdd d v g) (nth idx (time_s (d_cyc0 d)) 0 - nth (idx - 1) (time_s (d_cyc0 d)) 0)))) g
    (nth idx (time_s (d_cyc0 d)) 0 - nth (idx - 1) (time_s (d_cyc0 d)) 0) (nadd x d0) (calc_dvdd d v g)
    (coast_next v (calc_dvdd d v g) (nth idx (time_s (d_cyc0 d)) 0 - nth (idx - 1) (time_s (d_cyc0 d)) 0))) as (r & E).
  cbv zeta. rewrite E. cbn [bindR].
  match goal with |- context [if ?b then _ else _] => destruct b end; [eauto|].
  match goal with |- context [if ?b then _ else _] => destruct b end; [eauto|].
  match goal with |- context [if ?b then _ else _] => destruct b end; [eauto|].
  apply IH. lia.
Qed.
Lemma coast_loop_len (d : sdrive R) ug d0 dmax stop vb ab : forall f v x acc iter idx v' x' sp iter' idx',
  coast_loop f d ug d0 dmax stop vb ab v x acc iter idx = Ok (CoastEnd v' x' sp iter' idx') ->
  (idx + length sp <= S idx' + length acc)%nat.
Proof.
  induction f as [|f IH]; intros v x acc iter idx v' x' sp iter' idx' H; cbn [coast_loop] in H.
  { assert (sp = rev acc /\ idx' = idx) as [-> ->] by (injection H; auto). rewrite rev_length. lia. }
  match type of H with (if ?b then _ else _) = _ => destruct b end.
  2:{ assert (sp = rev acc /\ idx' = idx) as [-> ->] by (injection H; auto). rewrite rev_length. lia. }
  apply bind_ok in H as (dt & _ & H). apply bind_ok in H as (gr & _ & H). cbv zeta in H. apply bind_ok in H as (kv & _ & H).
  match type of H with (if ?b then _ else _) = _ => destruct b end; [discriminate|].
  match type of H with (if ?b then _ else _) = _ => destruct b end.
  { assert (sp = rev acc /\ idx' = idx) as [-> ->] by (injection H; auto). rewrite rev_length. lia. }
  match type of H with (if ?b then _ else _) = _ => destruct b end.
  { assert (sp = rev (snd kv :: acc) /\ idx' = idx) as [-> ->] by (injection H; auto). rewrite rev_length. cbn. lia. }
  apply IH in H. cbn in H. lia.
Qed.
Lemma argmax_b_bound (l : list bool) : l <> [] -> (argmax_b l < length l)%nat.
Proof.
  unfold argmax_b. intros NE. assert (P : forall i, first_true l = Some i -> (i < length l)%nat).
  { clear NE. induction l as [|b l IH]; intros i H; [discriminate|]. cbn [first_true] in H. destruct b; [injection H as <-; cbn; lia|].
    destruct (first_true l) as [j|]; [|discriminate]. cbn in H. injection H as <-. specialize (IH j eq_refl). cbn. lia. }
  destruct (first_true l) as [i|]; [now apply P|]. destruct l; [congruence|cbn; lia].
Qed.
Lemma next_stop_total (c : cyc R) k x : cached_or_not c k -> wf c -> time_s c <> [] -> exists s, calc_distance_to_next_stop_from c x k = Ok s.
Proof.
  intros K W NE. unfold calc_distance_to_next_stop_from.
  set (ds := match k with Some _ => _ | None => _ end). assert (ED : ds = cumsum (trapz_step_distances c)).
  { unfold ds. destruct K as [-> | ->]; reflexivity. }
  assert (LD : length ds = length (time_s c)) by (rewrite ED; apply cum_dist_length; [apply W|exact NE]).
  destruct ds as [|a l]; [destruct (time_s c); [congruence|discriminate]|].
  set (st := match k with Some _ => _ | None => _ end).
  assert (AM : (argmax_b (zipw (fun d s => nltb x d && s)%bool (a :: l) st) < length (a :: l))%nat).
  { assert (ST : st <> []).
    { unfold st. destruct K as [-> | ->]; cbn [cc_stops build_cache]; intros Z; apply map_eq_nil in Z;
        destruct W as (W1 & _); rewrite Z in W1; destruct (time_s c); (congruence || discriminate). }
    destruct st as [|b st]; [congruence|].
    pose proof (argmax_b_bound (zipw (fun d s => nltb x d && s)%bool (a :: l) (b :: st)) ltac:(discriminate)).
    rewrite zipw_length in *. cbn [length] in *. lia. }
  rewrite (pyget_nth _ _ 0) by exact AM. cbn [bindR]. eauto.
Qed.
Lemma coast_total (d : sdrive R) i modify g : wf_sd d -> d_cache d = build_cache (d_cyc0 d) -> (1 <= i < clen (d_cyc d))%nat ->
  length (d_rows d) = clen (d_cyc d) -> coast_brake_accel_m_per_s2 (d_sp d) < 0 -> grade_from (d_cyc0 d) (place d i) g ->
  (forall p, (1 <= p < clen (d_cyc d))%nat -> duration (d_cyc d) p = 1) ->
  exists r, generate_coast_trajectory d i modify = Ok r.
Proof.
  intros W CA HI RL AB G U. unfold generate_coast_trajectory.
  set (ab := coast_brake_accel_m_per_s2 (d_sp d)) in *. set (vb := coast_brake_start_speed_m_per_s (d_sp d)).
  assert (NE := has_samples0 d i W HI). assert (W0 : wf (d_cyc0 d)) by apply W.
  assert (LM : length (mps (d_cyc d)) = length (time_s (d_cyc d))) by apply W.
  assert (LT : length (d_rows d) = length (time_s (d_cyc0 d))) by (rewrite RL; destruct W as (_ & _ & Q); exact Q).
  unfold assertR. unR. destruct (Rleb_spec ab 0) as [_|Q]; [|lra]. cbn [bindR]. rewrite (start_place d i W HI). cbn [bindR].
  match goal with |- context [negb ?b] => destruct (negb b); [eauto|] end.
  assert (UG : unique_grade (ahead_grades d (place d i)) = Some g) by (apply unique_ahead; assumption).
  unfold ahead_grades in UG. unR. rewrite UG.
  match goal with |- context [if Rleb ?a vb then _ else _] => destruct (Rleb a vb) end.
  - destruct modify; [|eexists; reflexivity]. destruct (brake_total (d_cyc d) ab i None LM AB ltac:(lia)) as (r & E).
    { intros Z. unfold clen in HI. rewrite Z in HI. cbn in HI. lia. } { intros _. apply U. exact HI. }
    rewrite E. eexists; reflexivity.
  - destruct (Reqb_spec ab 0) as [Q|_]; [lra|].
    destruct (next_stop_total (d_cyc0 d) (Some (d_cache d)) (place d i)) as (stop & ES); [right; now rewrite CA|exact W0|exact NE|].
    rewrite ES. cbn [bindR].
    match goal with |- context [coast_loop ?f d (Some g) ?a1 ?a2 ?a3 ?a4 ?a5 ?a6 ?a7 ?a8 ?a9 ?a10] =>
      destruct (loop_total d g a1 a2 a3 a4 a5 LT f a6 a7 a8 a9 a10 ltac:(lia)) as (r & EL) end.
    rewrite EL. cbn [bindR]. destruct r as [|v x sp iter idx]; [eauto|].
    destruct (Nat.ltb iter ncoast_max && Nat.ltb idx (length (d_rows d)))%bool eqn:FO; [|eauto].
    apply Bool.andb_true_iff in FO as [_ FO]. apply Nat.ltb_lt in FO.
    destruct modify; [|cbn [bindR]; eauto].
    pose proof (coast_loop_len _ _ _ _ _ _ _ _ _ _ _ _ _ _ _ _ _ _ EL) as FI. cbn [length rev app Nat.add] in FI.
    destruct (write_speeds_spec sp d i ltac:(unfold clen in *; lia) ltac:(lia)) as (A1 & A2 & A3 & A4 & _).
    set (d1 := write_speeds d i sp) in *.
    match goal with |- context [modify_with_braking_trajectory (d_cyc d1) ab ?j ?t] =>
      destruct (brake_total (d_cyc d1) ab j t) as (rr & E); [rewrite A1, A4; exact LM|exact AB|lia| | |] end.
    { rewrite A1. intros Z. unfold clen in HI. rewrite Z in HI. cbn in HI. lia. }
    { rewrite A1. intros Q. apply U. unfold clen. lia. }
    rewrite E. eexists; reflexivity.
Qed.

(** At or below the speed for braking the plan is to brake at once. *)
Lemma coast_brakes (d d' : sdrive R) i x : wf_sd d -> d_cache d = build_cache (d_cyc0 d) -> (1 <= i < clen (d_cyc d))%nat ->
  length (d_rows d) = clen (d_cyc d) -> speed d (i - 1) <= coast_brake_start_speed_m_per_s (d_sp d) ->
  (exists j, (j < length (time_s (d_cyc0 d)))%nat /\ place d i <= trapezoid (d_cyc0 d) 0 j) ->
  generate_coast_trajectory d i true = Ok (d', x) ->
  x = stopping_distance (coast_brake_accel_m_per_s2 (d_sp d)) (speed d (i - 1)) /\
  exists v nb, modify_with_braking_trajectory (d_cyc d) (coast_brake_accel_m_per_s2 (d_sp d)) i None = Ok (d_cyc d', v, Z.of_nat nb) /\
    (forall j, (j < length (d_rows d))%nat -> coast_at d' j = if Nat.ltb j i then coast_at d j else Nat.ltb j (i + nb)) /\
    d_cyc0 d' = d_cyc0 d /\ d_sp d' = d_sp d /\ d_veh d' = d_veh d /\ d_props d' = d_props d /\ d_i d' = d_i d.
Proof.
  intros W CA HI RL V0 (j & HJ & PJ) H. unfold generate_coast_trajectory in H.
  set (vb := coast_brake_start_speed_m_per_s (d_sp d)) in *. set (ab := coast_brake_accel_m_per_s2 (d_sp d)) in *.
  change (mps_ach_at d (i - 1)) with (speed d (i - 1)) in H. set (v0 := speed d (i - 1)) in *.
  apply bind_ok in H as (u & EA & H). unfold assertR in EA. unR. destruct (Rleb_spec ab 0) as [A0|]; [clear EA u|discriminate].
  rewrite (start_place d i W HI) in H. cbn [bindR] in H.
  assert (NE := has_samples0 d i W HI). assert (W0 : wf (d_cyc0 d)) by apply W.
  rewrite CA in H. change (cc_distances (build_cache (d_cyc0 d))) with (cumsum (trapz_step_distances (d_cyc0 d))) in H. rewrite <- CA in H.
  destruct (existsb (fun b => b) (map (fun y => Rleb (place d i) y) (cumsum (trapz_step_distances (d_cyc0 d))))) eqn:EX; cbn [negb] in H.
  2:{ rewrite (mask_none (d_cyc0 d) (place d i) W0 NE) in EX. specialize (EX j HJ). lra. }
  destruct (Rleb_spec v0 vb) as [_|Q]; [|lra].
  apply bind_ok in H as (d2 & ED & H). apply bind_ok in ED as ([[c1 vv] nz] & EM & ED). cbn [fst snd] in *.
  assert (AB : ab <> 0). { intros Z. rewrite Z in EM. unfold modify_with_braking_trajectory, assertR in EM. unR. rcase_in EM; [lra|discriminate]. }
  assert (D3 : d' = set_coast_range (with_cyc d c1) i i (i + Z.to_nat nz)) by (injection H; injection ED; congruence).
  assert (X2 : x = - lit 1 2 * v0 * v0 / ab) by (injection H; unR; congruence). clear H ED.
  split; [rewrite X2, lit_R; unfold stopping_distance; field; exact AB|].
  assert (NN := braking_count _ _ _ _ _ _ _ EM).
  exists vv, (Z.to_nat nz). rewrite Z2Nat.id by exact NN. split; [rewrite D3; exact EM|]. split.
  - intros q Hq. rewrite D3, coast_range_at by exact Hq. destruct (Nat.ltb_spec q i); [reflexivity|].
    destruct (Nat.leb_spec i q); [reflexivity|lia].
  - rewrite D3. repeat split; reflexivity.
Qed.
