(** Proofs for C91: avoiding collisions. *)
From Coq Require Import Lia Lra.
From Verif Require Import Num Numpy ListFacts CycleModel CycleSpec ConcatProofs RateProofs DistProofs JerkProofs CycleProofs2 VehModel SimModel
  SimState WalkModel FrameProofs WalkProofs TermProofs StepProofs SimSpec SimProofs1 SimProofs3 WalkSpec CoastSpec CoastProofs
  CoastProofs2 CoastProofs3 CoastProofs4 CoastProofs5 CoastProofs6 CoastProofs7.
Local Open Scope R_scope.

(** The spread of the accelerations of a plan, rising or falling. *)
Lemma ramp_spread (a k dt : R) n : (1 <= n)%nat ->
  let acs := map (fun m => accel_for_constant_jerk (Z.of_nat m) a k dt) (seq 0 n) in
  Rabs (amax acs - amin acs) = Rabs (INR (n - 1) * k * dt).
Proof.
  intros N acs.
  assert (IN : forall x, In x acs <-> exists m, (m < n)%nat /\ x = a + INR m * k * dt).
  { intros x. unfold acs. rewrite in_map_iff. split.
    - intros (m & E & I). apply in_seq in I. exists m. split; [lia|]. rewrite <- E. unfold accel_for_constant_jerk. unR.
      rewrite <- INR_IZR_INZ. reflexivity.
    - intros (m & I & E). exists m. split; [|apply in_seq; lia]. rewrite E. unfold accel_for_constant_jerk. unR.
      rewrite <- INR_IZR_INZ. reflexivity. }
  assert (NE : acs <> []). { unfold acs. destruct n; [lia|]. discriminate. }
  assert (I0 : In a acs). { apply IN. exists 0%nat. split; [lia|]. cbn. lra. }
  assert (I1 : In (a + INR (n - 1) * k * dt) acs). { apply IN. exists (n - 1)%nat. split; [lia|reflexivity]. }
  pose proof (amax_ge acs _ I0). pose proof (amax_ge acs _ I1). pose proof (amin_le acs _ I0). pose proof (amin_le acs _ I1).
  destruct (proj1 (IN _) (amax_in acs NE)) as (p & LP & EP). destruct (proj1 (IN _) (amin_in acs NE)) as (q & LQ & EQ).
  assert (INR p <= INR (n - 1)) by (apply le_INR; lia). assert (INR q <= INR (n - 1)) by (apply le_INR; lia).
  pose proof (pos_INR p). pose proof (pos_INR q). rewrite EP, EQ in *.
  replace (INR (n - 1) * k * dt) with (INR (n - 1) * (k * dt)) in * by lra.
  replace (INR p * k * dt) with (INR p * (k * dt)) in * by lra. replace (INR q * k * dt) with (INR q * (k * dt)) in * by lra.
  set (h := k * dt) in *. destruct (Rle_dec 0 h) as [HP|HP].
  - assert (P2 : INR p * h = INR (n - 1) * h) by nra. assert (Q2 : INR q * h = 0) by nra. rewrite P2, Q2. f_equal. lra.
  - assert (P2 : INR p * h = 0) by nra. assert (Q2 : INR q * h = INR (n - 1) * h) by nra. rewrite P2, Q2.
    rewrite <- Rabs_Ropp. f_equal. lra.
Qed.
Lemma cdt_duration (c : cyc R) i : cdt c i = duration c i.
Proof.
  unfold cdt, duration, ctime. destruct i as [|i]; [cbn; unR; lra|reflexivity].
Qed.

Lemma filter_all {A} (g : A -> bool) l : (forall x, In x l -> g x = true) -> filter g l = l.
Proof. induction l as [|x l IH]; intros H; cbn; [reflexivity|]. rewrite (H x (or_introl eq_refl)). f_equal. apply IH. firstorder. Qed.
Lemma zip_all {A} (g h : A -> R) (rel : R -> R -> bool) l :
  forallb (fun b => b) (zipw rel (map g l) (map h l)) = true <-> forall x, In x l -> rel (g x) (h x) = true.
Proof.
  induction l as [|x l IH]; cbn; [split; [intros _ ? []|reflexivity]|]. rewrite Bool.andb_true_iff. fold (zipw rel (map g l) (map h l)).
  split.
  - intros [P Q] y [<-|I]; [exact P|]. now apply IH.
  - intros P. split; [apply P; now left|]. apply IH. intros y I. apply P. now right.
Qed.

Section Avoid.
  Variables (d : sdrive R) (i e : nat) (p : @PassingInfo R).
  Hypotheses (W : wf_sd d) (HI : (1 <= i)%nat) (HE : (i < e < clen (d_cyc d))%nat) (LR : length (d_rows d) = clen (d_cyc d)).
  Hypotheses (PI : pi_idx p = e) (PD : distance_m p = trapezoid (d_cyc0 d) 0 e) (PS : pi_speed p = nth e (mps (d_cyc0 d)) 0)
    (PT : time_step_duration p = duration (d_cyc d) i).
  Let change n k := Rabs (accel_change d i n k).

  (** One candidate. *)
  Lemma candidate_cases f s n r : (i <= s)%nat -> (2 <= n)%nat -> (s + f + n = e + 1)%nat -> coast_at d i = true -> coast_at d s = true ->
    collision_candidate d p f s n = Ok r ->
    match r with
    | Some q => pc_idx q = s /\ pc_n q = n /\ pc_fbs q = f /\ avoid_plan d i e f s n (pc_jerk q) (pc_accel0 q) /\
        pc_spread q = change n (pc_jerk q) /\ forall k a, avoid_plan d i e f s n k a -> k = pc_jerk q /\ a = pc_accel0 q
    | None => forall k a, ~ avoid_plan d i e f s n k a
    end.
  Proof.
    intros S1 S2 S3 CI CS H. unfold collision_candidate in H.
    rewrite (start_place d s W) in H by lia. cbn [bindR] in H.
    rewrite PD, PS, PT, nmax_R in H. change (cmps (d_cyc d) (s - 1)) with (nth (s - 1) (mps (d_cyc d)) 0) in H.
    unfold ctime in H. unR.
    set (T := nth (s - 1 + f) (time_s (d_cyc d)) 0 - nth (s - 1) (time_s (d_cyc d)) 0) in *.
    assert (BK : Rmax (nth (s - 1) (mps (d_cyc d)) 0 + T * coast_brake_accel_m_per_s2 (d_sp d)) 0 = braked d s f).
    { unfold braked. fold T. f_equal. lra. }
    rewrite BK, lit_R in H.
    assert (BW : 1 / 2 * (nth (s - 1) (mps (d_cyc d)) 0 + braked d s f) * T = brake_way d s f) by (unfold brake_way; fold T; lra).
    rewrite BW in H. fold (place d s) in H.
    destruct (Rleb_spec (trapezoid (d_cyc0 d) 0 e) (place d s + brake_way d s f)) as [Q|Q].
    { injection H as <-. intros k a P. pose proof (ap_room _ _ _ _ _ _ _ _ P). lra. }
    apply bind_ok in H as ([k a] & EC & H). destruct (jerk_ok _ _ _ _ _ _ _ _ EC) as (J1 & J2 & J3 & J4 & J5 & J6).
    assert (UN : forall k' a', avoid_plan d i e f s n k' a' -> k' = k /\ a' = a).
    { intros k' a' P. pose proof (ap_speed _ _ _ _ _ _ _ _ P) as P1. pose proof (ap_dist _ _ _ _ _ _ _ _ P) as P2.
      apply (jerk_unique (Z.of_nat n) (place d s + brake_way d s f) (braked d s f) (duration (d_cyc d) i)); auto; congruence. }
    assert (LT : length (time_s (d_cyc d)) = clen (d_cyc d)) by reflexivity.
    assert (FL : filter (fun ni => Nat.ltb (ni + s + f) (length (time_s (d_cyc d)))) (seq 0 n) = seq 0 n).
    { apply filter_all. intros m Hm. apply in_seq in Hm. apply Nat.ltb_lt. lia. }
    rewrite FL in H. cbv zeta in H.
    set (trs := map (fun ni => _ / _) (seq 0 n)) in H. set (acs := map (fun ni => accel_for_constant_jerk _ a k _) (seq 0 n)) in H.
    assert (FA : forallb (fun b => b) (zipw (fun t a => Rleb a t) trs acs) = true <->
      forall m, (m < n)%nat -> a + INR m * k * duration (d_cyc d) i
        <= (nth (s + f + m) (mps (d_cyc d)) 0 - nth (s + f + m - 1) (mps (d_cyc d)) 0) / duration (d_cyc d) (s + f + m - 1)).
    { unfold trs, acs. rewrite zip_all. split.
      - intros Y m Hm. specialize (Y m ltac:(apply in_seq; lia)). apply Rleb_true in Y. unfold accel_for_constant_jerk in Y. unR.
        rewrite <- INR_IZR_INZ, cdt_duration in Y. unfold cmps in Y. 
        replace (m + s + f)%nat with (s + f + m)%nat in Y by lia. replace (m + s - 1 + f)%nat with (s + f + m - 1)%nat in Y by lia. exact Y.
      - intros Y m Hm. apply in_seq in Hm. specialize (Y m ltac:(lia)). apply Rleb_true. unfold accel_for_constant_jerk. unR.
        rewrite <- INR_IZR_INZ, cdt_duration. unfold cmps.
        replace (m + s + f)%nat with (s + f + m)%nat by lia. replace (m + s - 1 + f)%nat with (s + f + m - 1)%nat by lia. exact Y. }
    destruct (forallb (fun b => b) (zipw (fun t a => Rleb a t) trs acs)) eqn:T1.
    - assert (E : r = Some (mkpcand s n f k a (Rabs (amax acs - amin acs)))) by congruence. rewrite E. cbn [pc_idx pc_n pc_fbs pc_jerk pc_accel0 pc_spread].
      split; [reflexivity|]. split; [reflexivity|]. split; [reflexivity|].
      split; [|split; [unfold change, accel_change; apply ramp_spread; lia|exact UN]].
      constructor; auto. now apply FA.
    - assert (E : r = None) by congruence. rewrite E. intros k' a' P. destruct (UN _ _ P) as [-> ->].
      pose proof (ap_gentle _ _ _ _ _ _ _ _ P) as G. apply FA in G. discriminate.
  Qed.
  Definition best_upto (f m0 : nat) (best : option pcand) : Prop :=
    match best with
    | None => forall s n k a, (s < m0)%nat -> ~ avoid_plan d i e f s n k a
    | Some q => pc_fbs q = f /\ (pc_idx q < m0)%nat /\ avoid_plan d i e f (pc_idx q) (pc_n q) (pc_jerk q) (pc_accel0 q) /\
        pc_spread q = change (pc_n q) (pc_jerk q) /\
        forall s n k a, (s < m0)%nat -> avoid_plan d i e f s n k a ->
          change (pc_n q) (pc_jerk q) <= change n k /\ ((s < pc_idx q)%nat -> change (pc_n q) (pc_jerk q) < change n k)
    end.
  (** The best of all, whatever the step. *)
  Definition best_all (f : nat) (best : option pcand) : Prop :=
    match best with
    | None => forall s n k a, ~ avoid_plan d i e f s n k a
    | Some q => pc_fbs q = f /\ avoid_plan d i e f (pc_idx q) (pc_n q) (pc_jerk q) (pc_accel0 q) /\
        forall s n k a, avoid_plan d i e f s n k a ->
          change (pc_n q) (pc_jerk q) <= change n k /\ ((s < pc_idx q)%nat -> change (pc_n q) (pc_jerk q) < change n k)
    end.
  Lemma upto_all f m0 best : best_upto f m0 best -> (forall s n k a, (m0 <= s)%nat -> ~ avoid_plan d i e f s n k a) -> best_all f best.
  Proof.
    intros B NO. unfold best_upto, best_all in *. destruct best as [q|].
    - destruct B as (B1 & B2 & B3 & B4 & B5). split; [exact B1|]. split; [exact B3|]. intros s n k a P.
      destruct (Nat.lt_ge_cases s m0) as [Q|Q]; [exact (B5 s n k a Q P)|now elim (NO s n k a Q)].
    - intros s n k a. destruct (Nat.lt_ge_cases s m0) as [Q|Q]; [exact (B s n k a Q)|exact (NO s n k a Q)].
  Qed.
  Lemma scan_best f : forall fuel idx best r, (i <= idx)%nat -> (idx = i \/ coast_at d i = true) ->
    (e < idx + fuel)%nat -> best_upto f idx best -> collision_scan fuel d p f i idx best = Ok r -> best_all f r.
  Proof.
    induction fuel as [|fu IH]; intros idx best r LI CI FU B H; cbn [collision_scan] in H.
    { injection H as <-. apply (upto_all f idx); [exact B|]. intros s n k a Q P. pose proof (ap_steps _ _ _ _ _ _ _ _ P). lia. }
    destruct (coast_at d idx) eqn:CS; cbn [negb] in H.
    2:{ assert (NO : forall n k a, ~ avoid_plan d i e f idx n k a).
        { intros n k a P. pose proof (proj2 (ap_coast _ _ _ _ _ _ _ _ P)). congruence. }
        destruct (Nat.eqb_spec idx i) as [EI|NE].
        - injection H as <-. apply (upto_all f idx); [exact B|]. intros s n k a Q P.
          pose proof (proj1 (ap_coast _ _ _ _ _ _ _ _ P)). congruence.
        - apply (IH (S idx) best r); auto; try lia.
          + destruct CI as [CI|CI]; [contradiction|now right].
          + unfold best_upto in *. destruct best as [q|].
            * destruct B as (B1 & B2 & B3 & B4 & B5). repeat (split; [auto; lia|]). intros s n k a Q P.
              destruct (Nat.eq_dec s idx) as [->|NS]; [now elim (NO n k a)|]. apply (B5 s n k a); [lia|exact P].
            * intros s n k a Q P. destruct (Nat.eq_dec s idx) as [->|NS]; [now elim (NO n k a)|]. apply (B s n k a); [lia|exact P]. }
    assert (CI' : coast_at d i = true) by (destruct CI as [->|CI]; assumption).
    rewrite PI in H. cbv zeta in H.
    destruct (Z.ltb_spec (Z.of_nat e - Z.of_nat idx + 1 - Z.of_nat f) 2) as [NZ|NZ].
    { injection H as <-. apply (upto_all f idx); [exact B|]. intros s n k a Q P. pose proof (ap_steps _ _ _ _ _ _ _ _ P). lia. }
    destruct (Nat.leb_spec (length (time_s (d_cyc d))) (idx - 1 + f)) as [Q|_].
    { change (length (time_s (d_cyc d))) with (clen (d_cyc d)) in Q. lia. }
    set (n := Z.to_nat (Z.of_nat e - Z.of_nat idx + 1 - Z.of_nat f)) in *.
    apply bind_ok in H as (rr & EC & H).
    pose proof (candidate_cases f idx n rr LI ltac:(lia) ltac:(lia) CI' CS EC) as CC.
    revert H. apply IH; [lia|now right|lia|].
    assert (NN : forall s m k a, avoid_plan d i e f s m k a -> s = idx -> m = n).
    { intros s m k a P ->. pose proof (ap_steps _ _ _ _ _ _ _ _ P). lia. }
    destruct rr as [q|].
    - destruct CC as (C1 & C2 & C3 & C4 & C5 & C6). unfold best_upto in *. destruct best as [b|].
      + destruct B as (B1 & B2 & B3 & B4 & B5). unR. destruct (Rltb_spec (pc_spread q) (pc_spread b)) as [Q|Q].
        * rewrite C1, C2, C3. split; [reflexivity|]. split; [lia|]. split; [exact C4|]. split; [exact C5|].
          intros s m k a L P. destruct (Nat.eq_dec s idx) as [ES|NS].
          -- assert (m = n) by eauto. subst s m. destruct (C6 k a P) as [-> ->]. split; [lra|lia].
          -- destruct (B5 s m k a ltac:(lia) P) as [U1 U2]. rewrite C5, B4 in Q. split; [lra|]. intros _. lra.
        * split; [exact B1|]. split; [lia|]. split; [exact B3|]. split; [exact B4|]. intros s m k a L P.
          destruct (Nat.eq_dec s idx) as [ES|NS].
          -- assert (m = n) by eauto. subst s m. destruct (C6 k a P) as [-> ->]. rewrite C5, B4 in Q. split; [lra|lia].
          -- apply (B5 s m k a); [lia|exact P].
      + rewrite C1, C2, C3. split; [reflexivity|]. split; [lia|]. split; [exact C4|]. split; [exact C5|].
        intros s m k a L P. destruct (Nat.eq_dec s idx) as [ES|NS]; [|elim (B s m k a); [lia|exact P]].
        assert (m = n) by eauto. subst s m. destruct (C6 k a P) as [-> ->]. split; [lra|lia].
    - unfold best_upto in *. destruct best as [b|].
      + destruct B as (B1 & B2 & B3 & B4 & B5). split; [exact B1|]. split; [lia|]. split; [exact B3|]. split; [exact B4|]. intros s m k a L P.
        destruct (Nat.eq_dec s idx) as [ES|NS]; [|apply (B5 s m k a); [lia|exact P]].
        assert (m = n) by eauto. subst s m. now elim (CC k a).
      + intros s m k a L P. destruct (Nat.eq_dec s idx) as [ES|NS]; [|elim (B s m k a); [lia|exact P]].
        assert (m = n) by eauto. subst s m. now elim (CC k a).
  Qed.
  Lemma search_best : forall k f0 r, collision_search (seq f0 k) d p i = Ok r ->
    match r with
    | None => forall f s n j a, (f0 <= f < f0 + k)%nat -> ~ avoid_plan d i e f s n j a
    | Some q => (f0 <= pc_fbs q < f0 + k)%nat /\ best_all (pc_fbs q) (Some q) /\
        forall f s n j a, (f0 <= f < pc_fbs q)%nat -> ~ avoid_plan d i e f s n j a
    end.
  Proof.
    induction k as [|k IH]; intros f0 r H; cbn [seq collision_search] in H.
    { injection H as <-. intros. lia. }
    apply bind_ok in H as (b & ES & H).
    assert (BB : best_all f0 b).
    { apply (scan_best f0 _ i None b) in ES; auto; [lia|]. intros s n j a Q P. pose proof (ap_steps _ _ _ _ _ _ _ _ P). lia. }
    destruct b as [q|].
    - injection H as <-. assert (EF : pc_fbs q = f0) by apply BB. rewrite EF. split; [lia|]. split; [exact BB|]. intros. lia.
    - apply IH in H. destruct r as [q|].
      + destruct H as (H1 & H2 & H3). split; [lia|]. split; [exact H2|]. intros f s n j a Q P.
        destruct (Nat.eq_dec f f0) as [->|NE]; [exact (BB s n j a P)|]. apply (H3 f s n j a); [lia|exact P].
      + intros f s n j a Q P. destruct (Nat.eq_dec f f0) as [->|NE]; [exact (BB s n j a P)|]. apply (H f s n j a); [lia|exact P].
  Qed.
End Avoid.
