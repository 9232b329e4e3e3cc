(** Proofs for C89: which part of the trace is followed after a coast. *)
From Coq Require Import Lia Lra.
From Verif Require Import Num Numpy ListFacts CycleModel CycleSpec ConcatProofs RateProofs DistProofs JerkProofs CycleProofs2 VehModel SimModel
  SimState WalkModel FrameProofs WalkProofs StepProofs SimSpec SimProofs1 SimProofs3 WalkSpec CoastSpec CoastProofs
  CoastProofs2 CoastProofs3 CoastProofs4 CoastProofs5.
Local Open Scope R_scope.

Definition later (x y : R) : bool := if Rlt_dec x y then true else false.
Section Scan.
  Variables (c : cyc R) (i : nat) (x y : R).
  Hypotheses (MO : forall a b, (a <= b)%nat -> (b < length (time_s c))%nat -> trapezoid c 0 a <= trapezoid c 0 b)
    (LM : length (mps c) = length (time_s c)).
  Let N := length (time_s c).
  (* what is known after looking at the samples before [n] *)
  Definition scanned (n : nat) (mind : option R) (delay : option Z) : Prop :=
    match mind with
    | None => delay = None /\ forall k, (k < n)%nat -> ~ stopped c k
    | Some m => exists j, (j < n)%nat /\ delay = Some (Z.of_nat i - Z.of_nat j)%Z /\ stopped c j /\ m = away c x j /\
        (forall k, (k < n)%nat -> stopped c k -> away c x j <= away c x k) /\
        (forall k, (k < n)%nat -> stopped c k -> away c x k = away c x j -> if later x y then (k <= j)%nat else (j <= k)%nat)
    end.
  Definition found (delay : option Z) : Prop :=
    match delay with
    | None => forall k, ~ stopped c k
    | Some z => exists j, z = (Z.of_nat i - Z.of_nat j)%Z /\ nearest_stop c x (later x y) j
    end.
  Lemma scanned_found mind delay : scanned N mind delay -> found delay.
  Proof.
    unfold scanned, found. destruct mind as [m|].
    - intros (j & HJ & -> & S & _ & A & B). exists j. split; [reflexivity|]. constructor; [exact S| |].
      + intros k K. apply A; [apply K|exact K].
      + intros k K. apply B; [apply K|exact K].
    - intros (-> & B) k K. apply (B k); [apply K|exact K].
  Qed.
  Lemma scan_found : forall steps speeds idx dlv mind delay, length steps = length speeds -> (idx + length steps = N)%nat ->
    (forall k, (k < length steps)%nat -> nth k (cumsum_from dlv steps) 0 = trapezoid c 0 (idx + k)) ->
    (forall k, (k < length steps)%nat -> nth k speeds 0 = nth (idx + k) (mps c) 0) ->
    scanned idx mind delay ->
    found (delay_scan i idx dlv x y steps speeds mind delay).
  Proof.
    induction steps as [|dd steps IH]; intros speeds idx dlv mind delay L1 L2 P V S; destruct speeds as [|v speeds]; try discriminate L1.
    { cbn [delay_scan]. apply (scanned_found mind). cbn in L2. rewrite Nat.add_0_r in L2. now rewrite <- L2. }
    cbn [delay_scan]. unR. cbn [length] in *.
    pose proof (P 0%nat ltac:(lia)) as P0. pose proof (V 0%nat ltac:(lia)) as V0. cbn [nth cumsum_from] in P0, V0. unR.
    rewrite Nat.add_0_r in P0, V0. rewrite P0, V0, lit_R. change (Rabs (trapezoid c 0 idx - x)) with (away c x idx).
    set (hit := (Rltb (nth idx (mps c) 0) (1 / 100) && _)%bool).
    set (delay' := if (hit && _)%bool then _ else delay).
    set (mind' := if hit then Some (away c x idx) else mind).
    assert (ST : stopped c idx <-> Rltb (nth idx (mps c) 0) (1 / 100) = true).
    { rewrite Rltb_true. unfold stopped. fold N. split; [intros [_ Q]; exact Q|intros Q; split; [lia|exact Q]]. }
    assert (S' : scanned (Datatypes.S idx) mind' delay').
    { unfold mind', delay', hit. destruct (Rltb (nth idx (mps c) 0) (1 / 100)) eqn:EV; cbn [andb].
      - assert (SI : stopped c idx) by (now apply ST). destruct mind as [m|]; cbn [scanned] in S.
        + destruct S as (j & HJ & ED & SJ & EM & A & B). rewrite EM.
          destruct (Rleb_spec (away c x idx) (away c x j)) as [LE|GT]; cbn [andb].
          * assert (ALL : forall k, (k < Datatypes.S idx)%nat -> stopped c k -> away c x idx <= away c x k).
            { intros k Hk K. destruct (Nat.eq_dec k idx) as [->|NE]; [lra|]. specialize (A k ltac:(lia) K). lra. }
            destruct (Rltb_spec (away c x idx) (away c x j)) as [LT|GE]; cbn [orb].
            -- cbn [scanned]. exists idx. split; [lia|]. split; [reflexivity|]. split; [exact SI|]. split; [reflexivity|]. split; [exact ALL|].
               intros k Hk K E. destruct (Nat.eq_dec k idx) as [->|NE]; [destruct (later x y); lia|]. specialize (A k ltac:(lia) K). lra.
            -- assert (EQ : away c x j = away c x idx) by lra. unR.
               destruct (Reqb_spec (away c x j) (away c x idx)) as [_|Q]; [|lra]. rewrite Bool.andb_true_r.
               destruct (Rltb_spec x y) as [XY|XY]; cbn [scanned].
               ++ exists idx. split; [lia|]. split; [reflexivity|]. split; [exact SI|]. split; [reflexivity|]. split; [exact ALL|].
                  intros k Hk K E. unfold later. destruct (Rlt_dec x y); [lia|lra].
               ++ exists j. split; [lia|]. split; [exact ED|]. split; [exact SJ|]. split; [symmetry; exact EQ|]. split.
                  ** intros k Hk K. rewrite EQ. apply ALL; assumption.
                  ** intros k Hk K E. unfold later. destruct (Rlt_dec x y) as [Q|Q]; [lra|]. destruct (Nat.eq_dec k idx) as [->|NE]; [lia|].
                     specialize (B k ltac:(lia) K E). unfold later in B. destruct (Rlt_dec x y); [lra|exact B].
          * cbn [scanned]. exists j. split; [lia|]. split; [exact ED|]. split; [exact SJ|]. split; [reflexivity|]. split.
            -- intros k Hk K. destruct (Nat.eq_dec k idx) as [->|NE]; [lra|]. apply A; [lia|exact K].
            -- intros k Hk K E. destruct (Nat.eq_dec k idx) as [->|NE]; [lra|]. apply B; [lia|exact K|exact E].
        + destruct S as (_ & A). cbn [scanned]. exists idx. split; [lia|]. split; [reflexivity|]. split; [exact SI|]. split; [reflexivity|]. split.
          * intros k Hk K. destruct (Nat.eq_dec k idx) as [->|NE]; [lra|]. elim (A k); [lia|exact K].
          * intros k Hk K _. destruct (Nat.eq_dec k idx) as [->|NE]; [destruct (later x y); lia|]. elim (A k); [lia|exact K].
      - assert (NS : ~ stopped c idx) by (rewrite ST; discriminate). destruct mind as [m|]; cbn [scanned] in *.
        + destruct S as (j & HJ & ED & SJ & EM & A & B). exists j. split; [lia|]. split; [exact ED|]. split; [exact SJ|]. split; [exact EM|]. split.
          * intros k Hk K. destruct (Nat.eq_dec k idx) as [->|NE]; [contradiction|]. apply A; [lia|exact K].
          * intros k Hk K E. destruct (Nat.eq_dec k idx) as [->|NE]; [contradiction|]. apply B; [lia|exact K|exact E].
        + destruct S as (ED & A). split; [exact ED|]. intros k Hk. destruct (Nat.eq_dec k idx) as [->|NE]; [exact NS|]. apply A. lia. }
    assert (IH' : found (delay_scan i (Datatypes.S idx) (trapezoid c 0 idx) x y steps speeds mind' delay')).
    { apply IH; [lia|lia| | |exact S'].
      - intros k Hk. specialize (P (Datatypes.S k) ltac:(lia)). cbn [nth cumsum_from] in P. unR. rewrite P0 in P.
        rewrite P. f_equal. lia.
      - intros k Hk. specialize (V (Datatypes.S k) ltac:(lia)). cbn [nth] in V. rewrite V. f_equal. lia. }
    destruct mind' as [m|]; [|exact IH']. destruct (Rltb_spec m (away c x idx)) as [FAR|NEAR]; [|exact IH'].
    (* no later sample can be nearer *)
    cbn [scanned] in S'. destruct S' as (j & HJ & -> & SJ & EM & A & B). cbn [found].
    assert (LATER : forall k, stopped c k -> (idx < k)%nat -> away c x j < away c x k).
    { intros k [K _] Hk. pose proof (MO idx k ltac:(lia) K) as M1. fold N in K. pose proof (MO j idx ltac:(lia) ltac:(unfold N in *; lia)) as M2.
      rewrite EM in FAR. unfold away, Rabs in *.
      destruct (Rcase_abs (trapezoid c 0 j - x)), (Rcase_abs (trapezoid c 0 idx - x)), (Rcase_abs (trapezoid c 0 k - x)); lra. }
    exists j. split; [reflexivity|]. constructor; [exact SJ| |].
    - intros k K. destruct (Nat.lt_ge_cases idx k) as [Q|Q]; [apply Rlt_le, LATER; assumption|]. apply A; [lia|exact K].
    - intros k K E. destruct (Nat.lt_ge_cases idx k) as [Q|Q]; [specialize (LATER k K Q); lra|]. apply B; [lia|exact K|exact E].
  Qed.
End Scan.

Lemma delay_at (d : sdrive R) (f : nat -> Z) i j : (j < length (d_rows d))%nat ->
  coast_delay_index (ctl (row_at (upd_ctl_rows d (fun q c => if Nat.ltb q i then c else ctl_delay (f q) c)) j)) =
  if Nat.ltb j i then coast_delay_index (ctl (row_at d j)) else f j.
Proof.
  intros Hp. unfold row_at, upd_ctl_rows, with_rows. cbn [d_rows].
  rewrite (mapi_from_nth _ _ 0 j zero_row) by exact Hp. cbn [Nat.add]. unfold row_ctl. cbn [ctl].
  destruct (Nat.ltb j i); reflexivity.
Qed.
(** What the vehicle follows after it has stopped. *)
Lemma coast_delay (d d' : sdrive R) i : wf_sd d -> d_cache d = build_cache (d_cyc0 d) -> (1 <= i < clen (d_cyc d))%nat ->
  length (d_rows d) = clen (d_cyc d) -> nondecreasing (time_s (d_cyc0 d)) -> nonneg (mps (d_cyc0 d)) ->
  set_coast_delay d i = Ok d' ->
  same_run d d' /\ d_cyc d' = d_cyc d /\ (forall j, coast_at d' j = coast_at d j) /\
  (forall j, (j < i)%nat -> row_at d' j = row_at d j) /\
  ((forall j, (i <= j < clen (d_cyc d))%nat -> delayed_speed d' j = trace_at (d_cyc0 d) j) \/
   (idm_allow (d_sp d) = false /\ nth i (mps (d_cyc d)) 0 < 1 / 100 /\
    1 / 10 < Rabs (trapezoid (d_cyc0 d) 0 (i - 1) - place d i) /\
    exists idx, nearest_stop (d_cyc0 d) (place d i) (if Rlt_dec (place d i) (trapezoid (d_cyc0 d) 0 (i - 1)) then true else false) idx /\
      forall j, (i <= j < clen (d_cyc d))%nat -> delayed_speed d' j = trace_at (d_cyc0 d) (followed i idx j))) /\
  (idm_allow (d_sp d) = false -> nth i (mps (d_cyc d)) 0 < 1 / 100 ->
   1 / 10 < Rabs (trapezoid (d_cyc0 d) 0 (i - 1) - place d i) -> (exists k, stopped (d_cyc0 d) k) ->
   exists idx, nearest_stop (d_cyc0 d) (place d i) (if Rlt_dec (place d i) (trapezoid (d_cyc0 d) 0 (i - 1)) then true else false) idx /\
      forall j, (i <= j < clen (d_cyc d))%nat -> delayed_speed d' j = trace_at (d_cyc0 d) (followed i idx j)).
Proof.
  intros W CA HI RL T S H.
  assert (NE := has_samples0 d i W HI). assert (W0 : wf (d_cyc0 d)) by apply W.
  assert (LM0 : length (mps (d_cyc0 d)) = length (time_s (d_cyc0 d))) by apply W0.
  assert (LT : length (time_s (d_cyc0 d)) = clen (d_cyc d)) by (symmetry; apply W).
  unfold set_coast_delay in H. apply bind_ok in H as (delay & ED & H).
  set (f := fun j => (match delay with None => 0 | Some z => if Z.ltb z 0 then Z.min 0 (z + (Z.of_nat j - Z.of_nat i)) else z end)%Z) in *.
  assert (E : d' = upd_ctl_rows d (fun q c => if Nat.ltb q i then c else ctl_delay (f q) c)) by (injection H as <-; reflexivity).
  set (x := place d i) in *. set (y := trapezoid (d_cyc0 d) 0 (i - 1)) in *.
  assert (FR : same_run d d' /\ d_cyc d' = d_cyc d /\ (forall j, coast_at d' j = coast_at d j) /\ (forall j, (j < i)%nat -> row_at d' j = row_at d j)).
  { rewrite E. split; [|split; [reflexivity|]].
    - unfold same_run. do 5 (split; [reflexivity|]). split.
      + unfold upd_ctl_rows, with_rows. cbn. apply mapi_from_length.
      + intros p. unfold speed, row_at, upd_ctl_rows, with_rows. cbn [d_rows].
        destruct (Nat.lt_ge_cases p (length (d_rows d))) as [Q|Q]; [|rewrite !nth_overflow by (rewrite ?mapi_from_length; lia); reflexivity].
        rewrite (mapi_from_nth _ _ 0 p zero_row) by exact Q. reflexivity.
    - split; intros p.
      + unfold coast_at, row_at, upd_ctl_rows, with_rows. cbn [d_rows].
        destruct (Nat.lt_ge_cases p (length (d_rows d))) as [Q|Q]; [|rewrite !nth_overflow by (rewrite ?mapi_from_length; lia); reflexivity].
        rewrite (mapi_from_nth _ _ 0 p zero_row) by exact Q. cbn [Nat.add]. unfold row_ctl. cbn [ctl]. destruct (Nat.ltb p i); reflexivity.
      + intros Hp. unfold row_at, upd_ctl_rows, with_rows. cbn [d_rows].
        destruct (Nat.lt_ge_cases p (length (d_rows d))) as [Q|Q]; [|rewrite !nth_overflow by (rewrite ?mapi_from_length; lia); reflexivity].
        rewrite (mapi_from_nth _ _ 0 p zero_row) by exact Q. cbn [Nat.add]. unfold row_ctl. 
        assert (LB : Nat.ltb p i = true) by (now apply Nat.ltb_lt). rewrite LB. destruct (nth p (d_rows d) zero_row). reflexivity. }
  destruct FR as (F1 & F2 & F3 & F4). split; [exact F1|]. split; [exact F2|]. split; [exact F3|]. split; [exact F4|].
  assert (DS : forall j, (i <= j < clen (d_cyc d))%nat -> delayed_speed d' j =
    nth (Z.to_nat (Z.min (Z.max (Z.of_nat j - f j) 0) (Z.of_nat (length (mps (d_cyc0 d))) - 1))) (mps (d_cyc0 d)) 0).
  { intros j Hj. unfold delayed_speed. rewrite E, (delay_at d f i j) by lia. cbn [d_cyc0 upd_ctl_rows with_rows]. destruct (Nat.ltb_spec j i); [lia|].
    reflexivity. }
  assert (PLAIN : delay = None -> forall j, (i <= j < clen (d_cyc d))%nat -> delayed_speed d' j = trace_at (d_cyc0 d) j).
  { intros Q j Hj. rewrite DS by exact Hj. unfold f, trace_at. rewrite Q. f_equal. lia. }
  assert (SHIFT : forall idx, delay = Some (Z.of_nat i - Z.of_nat idx)%Z ->
    forall j, (i <= j < clen (d_cyc d))%nat -> delayed_speed d' j = trace_at (d_cyc0 d) (followed i idx j)).
  { intros idx Q j Hj. rewrite DS by exact Hj. unfold f, trace_at, followed. rewrite Q. f_equal.
    destruct (Z.ltb_spec (Z.of_nat i - Z.of_nat idx) 0), (Nat.leb_spec idx i); lia. }
  unR. rewrite lit_R in ED. change (cmps (d_cyc d) i) with (nth i (mps (d_cyc d)) 0) in ED.
  destruct (idm_allow (d_sp d)); cbn [negb andb] in ED.
  { split; [left; apply PLAIN; congruence|discriminate]. }
  destruct (Rltb_spec (nth i (mps (d_cyc d)) 0) (1 / 100)) as [V|V].
  2:{ split; [left; apply PLAIN; congruence|intros; lra]. }
  rewrite (start_place d i W HI) in ED. cbn [bindR] in ED. fold x in ED.
  rewrite CA in ED. change (cc_distances (build_cache (d_cyc0 d))) with (cumsum (trapz_step_distances (d_cyc0 d))) in ED.
  rewrite cum_dist_nth in ED by lia. fold y in ED. rewrite lit_R in ED.
  destruct (Rltb_spec (1 / 10) (Rabs (y - x))) as [G|G].
  2:{ split; [left; apply PLAIN; congruence|intros; lra]. }
  assert (FO : found (d_cyc0 d) i x y delay).
  { assert (ED' : delay = delay_scan i 0 0 x y (trapz_step_distances (d_cyc0 d)) (mps (d_cyc0 d)) None None) by congruence. rewrite ED'.
    assert (LS : length (trapz_step_distances (d_cyc0 d)) = length (time_s (d_cyc0 d))) by (now apply step_dist_length).
    apply scan_found.
    - intros a b AB B. apply trapezoid_mono; assumption.
    - lia.
    - lia.
    - cbn [Nat.add]. exact LS.
    - intros k Hk. cbn [Nat.add]. change (cumsum_from 0 (trapz_step_distances (d_cyc0 d))) with (cumsum (trapz_step_distances (d_cyc0 d))).
      apply cum_dist_nth; [exact LM0|lia].
    - reflexivity.
    - cbn. split; [reflexivity|]. intros k Hk. lia. }
  destruct delay as [z|]; cbn [found] in FO.
  - destruct FO as (idx & EZ & NS). assert (R := SHIFT idx ltac:(congruence)). split.
    + right. split; [reflexivity|]. split; [exact V|]. split; [exact G|]. exists idx. split; [exact NS|exact R].
    + intros _ _ _ _. exists idx. split; [exact NS|exact R].
  - split; [left; now apply PLAIN|]. intros _ _ _ (k & K). elim (FO k K).
Qed.
