(** Lemmas on the repair of a coasting plan in the two implementations. *)
From Coq Require Import Lia Lra FunctionalExtensionality.
From Verif Require Import Num Numpy ListFacts CycleModel CycleSpec RateProofs DistProofs JerkProofs CycleProofs2 VehModel SimModel
  SimState WalkModel FrameProofs WalkProofs StepProofs SimSpec SimProofs1 SimProofs3 WalkSpec CoastSpec CoastProofs CoastProofs2 CoastProofs4
  RustModel RustWalkModel RustCycModel RustModsModel RustSpec RustCycSpec RustCycProofs RustCycProofs2 RustCoastSpec RustCoastProofs.
Local Open Scope R_scope.

(** ** The reaction to another speed than planned *)
Lemma mapi_two (f g h : nat -> row R -> row R) l : (forall j r, g j (f j r) = h j r) -> forall k, mapi_from g k (mapi_from f k l) = mapi_from h k l.
Proof. intros E. induction l as [|r l IH]; intros k; [reflexivity|]. cbn. now rewrite E, IH. Qed.
Lemma flags_two i n m j (c : ctl_row R) :
  (if Nat.ltb j (i + n) then (if Nat.ltb j i then c else ctl_coast (Nat.leb i j && Nat.ltb j (i + n))%bool c)
   else ctl_coast (Nat.ltb j (i + n + m)) (if Nat.ltb j i then c else ctl_coast (Nat.leb i j && Nat.ltb j (i + n))%bool c)) =
  (let u := if Nat.ltb j i then c else ctl_coast (Nat.leb i j && Nat.ltb j (i + n))%bool c in
   if (Nat.leb (i + n) j && Nat.ltb j (i + n + m))%bool then ctl_coast true u else u).
Proof.
  cbv zeta. destruct (Nat.ltb_spec j (i + n)); destruct (Nat.leb_spec (i + n) j); try lia; cbn [andb]; [reflexivity|].
  destruct (Nat.ltb_spec j (i + n + m)); [reflexivity|]. destruct (Nat.ltb_spec j i); [lia|]. rewrite Bool.andb_false_r. reflexivity.
Qed.
Lemma until_add (e : sdrive R) c i n m : 
  r_coast_until (with_cyc (set_coast_range e i i (i + n)) c) (i + n) (i + n + m) = add_coast_range (with_cyc (set_coast_range e i i (i + n)) c) (i + n) (i + n + m).
Proof.
  unfold r_coast_until, add_coast_range, set_coast_range, upd_ctl_rows, with_cyc, with_rows.
  cbn [d_veh d_props d_sp d_cyc d_cyc0 d_cache d_i d_rows d_hev_sim_count]. f_equal.
  erewrite mapi_two by (intros; reflexivity). erewrite mapi_two by (intros; reflexivity). apply mapi_ext. intros j r.
  unfold row_ctl. cbn [misc lims pwr spd hyb forced dec fc ctl]. f_equal. apply flags_two.
Qed.
Lemma rdv_steps (dt L amn amx horizon v0 vb : R) d i : (1 <= i)%nat -> forall fuel idx plan best r, (i <= idx)%nat ->
  (forall q, best = Some q -> (1 <= rv_n q)%nat) ->
  rdv_loop fuel d i idx plan horizon v0 vb dt L amn amx best = Ok r -> forall q, r = Some q -> (1 <= rv_n q)%nat.
Proof.
  intros I1. induction fuel as [|f IH]; intros idx plan best r LI HB H; cbn [rdv_loop] in H; [injection H as <-; exact HB|].
  if_in H; [|injection H as <-; exact HB]. apply bind_ok in H as (dti & _ & H). cbv zeta in H.
  destruct (Nat.eqb _ 1).
  { if_in H; [injection H as <-; intros q [= <-]; cbn; lia|]. eapply IH; [| |exact H]; [lia|exact HB]. }
  apply bind_ok in H as (b' & EB & H). eapply IH; [| |exact H]; [lia|]. intros q ->.
  if_in EB; [|injection EB as EB; now apply HB]. apply bind_ok in EB as ([k a] & _ & EB). if_in EB; [|injection EB as EB; now apply HB].
  cbv zeta in EB. injection EB as EB. match type of EB with (if ?b then _ else _) = _ => destruct b end; [injection EB as <-; cbn; lia|now apply HB].
Qed.
Lemma rendezvous_steps (d : sdrive R) i mn mx q : (1 <= i)%nat -> calc_next_rendezvous_trajectory d i mn mx = Ok (Some q) -> (1 <= rv_n q)%nat.
Proof.
  intros I1 H. unfold calc_next_rendezvous_trajectory in H. if_in H; [discriminate|]. match type of H with (let '(_, _) := ?a in _) = _ => destruct a as [amn amx] end.
  inv_ok H. inv_ok H. if_in H; [discriminate|]. inv_ok H. if_in H; [discriminate|]. if_in H; [discriminate|].
  eapply rdv_steps; [exact I1| | |exact H|reflexivity]; [lia|discriminate].
Qed.
Section Adjust.
  Variables (d : sdrive R) (i : nat) (stop : R) (C : coast_setting d i stop).
  Lemma adjust_same accel d' b : 0 < duration (d_cyc d) i < 2 -> adjust_coast d i accel = Ok (d', b) -> smooth_plan d d' i ->
    r_adjust_coast d i accel = Ok (d', b).
  Proof.
    intros DT H SP. unfold adjust_coast in H. unfold r_adjust_coast. pose proof (cs_i _ _ _ C) as HI. pose proof (proj1 (cs_cyc _ _ _ C)) as WL. unfold clen in HI.
    change (cmps (d_cyc d) i) with (nth i (mps (d_cyc d)) 0) in H. change n0 with 0 in *.
    destruct (nth i (mps (d_cyc d)) 0 <? coast_brake_start_speed_m_per_s (d_sp d) - lit 1 10)%num.
    - apply bind_ok in H as ([[c' v] n] & EB & H). cbn [fst snd] in H. injection H as <- <-.
      destruct (brake_frame _ _ _ _ _ _ _ EB) as (_ & _ & _ & _ & FR). specialize (FR (i - 1)%nat ltac:(lia)). unfold cmps in FR. change n0 with 0 in FR.
      destruct (SP i (le_n i)) as (V & A). cbn in V, A. rewrite FR in V, A.
      rewrite (braking_same d i stop C _ i None eq_refl WL (proj1 HI) V A _ _ _ EB). cbn [bindR fst snd]. now rewrite until_range.
    - rewrite (rendezvous_same d i stop C) by exact DT.
      apply bind_ok in H as (t & ER & H). rewrite ER. cbn [bindR]. destruct t as [q|]; cbn [option_map]; [|exact H]. unfold rv_of.
      pose proof (rendezvous_steps _ _ _ _ _ (proj1 HI) ER) as N1.
      rewrite r_jerk_same by (assumption || lia). apply bind_ok in H as ([c1 v1] & EJ & H). rewrite EJ. cbn [bindR fst snd] in *.
      rewrite until_range. destruct (nabs (v1 - _) <? lit 1 10)%num; [|exact H].
      apply bind_ok in H as ([[c' v] n] & EB & H). cbn [fst snd] in H. injection H as <- <-. cbn [set_coast_range upd_ctl_rows with_rows with_cyc d_cyc] in EB |- *.
      destruct (brake_frame _ _ _ _ _ _ _ EB) as (_ & _ & _ & _ & FR). specialize (FR (i + rv_n q - 1)%nat ltac:(lia)). unfold cmps in FR. change n0 with 0 in FR.
      destruct (jerk_frame _ _ _ _ _ _ _ EJ) as (JT & _ & _ & JL & _).
      destruct (SP (i + rv_n q)%nat ltac:(lia)) as (V & A). cbn in V, A. rewrite FR in V, A.
      assert (L1 : length (mps c1) = length (time_s c1)) by (rewrite JL, JT; exact WL). assert (P1 : (1 <= i + rv_n q)%nat) by lia.
      rewrite (braking_same d i stop C c1 (i + rv_n q) None JT L1 P1 V A _ _ _ EB). cbn [bindR fst snd].
      do 2 f_equal. apply (until_add (with_cyc d c1) c' i (rv_n q) (Z.to_nat n)).
  Qed.
End Adjust.

(** ** Keeping behind the trace *)
Lemma nis_same n a l : filter (fun ni => Nat.ltb (ni + a) l) (seq 0 n) = seq 0 (Nat.min n (l - a)).
Proof.
  induction n as [|n IH]; [reflexivity|]. rewrite seq_S, filter_app, IH. cbn [filter Nat.add].
  destruct (Nat.ltb_spec (n + a) l).
  - replace (Nat.min (S n) (l - a)) with (S n) by lia. replace (Nat.min n (l - a)) with n by lia. now rewrite seq_S.
  - rewrite app_nil_r. f_equal. lia.
Qed.
Section Avoid.
  Variables (d : sdrive R) (i : nat) (h : R) (A : avoid_setting d i h).
  Lemma av_wl : length (mps (d_cyc d)) = length (time_s (d_cyc d)).
  Proof. apply A. Qed.
  Lemma passing_same tol : 0 <= tol -> r_detect_passing (d_cyc d) (d_cyc0 d) i tol = detect_passing (d_cyc d) (d_cyc0 d) i tol.
  Proof.
    intros T0. pose proof (av_cyc _ _ _ A) as W. pose proof (av_cyc0 _ _ _ A) as W0. pose proof (av_len _ _ _ A) as L. pose proof (av_i _ _ _ A) as I. unfold clen in *.
    rewrite r_passing_spec by (apply W || apply W0 || exact L || lia).
    destruct (detect_passing_spec (d_cyc d) (d_cyc0 d) i tol) as [(e & FO & E)|(NO & E)]; try (apply W || apply W0 || exact L || lia).
    - rewrite E. cbn [bindR num_steps pi_idx start_distance_m distance_m start_speed pi_speed time_step_duration Nat.eqb negb].
      destruct (av_room _ _ _ A _ _ T0 FO) as (_ & Q). do 2 f_equal. symmetry. now apply Rltb_true.
    - rewrite E. reflexivity.
  Qed.
  Lemma passing_figures tol p : 0 <= tol -> detect_passing (d_cyc d) (d_cyc0 d) i tol = Ok p -> has_collision p = true ->
    time_step_duration p = h /\ (i + 2 <= pi_idx p < clen (d_cyc d))%nat.
  Proof.
    pose proof (av_cyc _ _ _ A) as W. pose proof (av_cyc0 _ _ _ A) as W0. pose proof (av_len _ _ _ A) as L. pose proof (av_i _ _ _ A) as I.
    intros T0 H Q. destruct (detect_passing_spec (d_cyc d) (d_cyc0 d) i tol) as [(e & FO & E)|(NO & E)]; try (unfold clen in *; apply W || apply W0 || exact L || lia).
    - rewrite E in H. injection H as <-. cbn. split; [apply (av_steps _ _ _ A); lia|]. destruct (av_room _ _ _ A _ _ T0 FO) as (R2 & _). destruct FO as (F & _). unfold clen. lia.
    - rewrite E in H. injection H as <-. discriminate.
  Qed.
  Section Search.
    Variables (p : @PassingInfo R) (PT : time_step_duration p = h) (PI : (i + 2 <= pi_idx p < clen (d_cyc d))%nat).
    Definition cand_of (fbs idx n : nat) (t : R * R * R) : @pcand R := let '(k, a0, sp) := t in mkpcand idx n fbs k a0 sp.
    Lemma candidate_same fbs idx : (i <= idx)%nat -> (idx + fbs < pi_idx p)%nat -> let n := (pi_idx p - idx + 1 - fbs)%nat in
      collision_candidate d p fbs idx n = do t <- r_collision_candidate d p fbs idx n; Ok (option_map (cand_of fbs idx n) t).
    Proof.
      intros LI LP n. pose proof (av_i _ _ _ A) as I. pose proof av_wl as WL. pose proof (av_h _ _ _ A) as HH. unfold clen in *. unfold collision_candidate, r_collision_candidate.
      rewrite !(r_get_ok _ _ 0) by lia. cbn [bindR]. rewrite r_start, start_distance by (assumption || lia). cbn [bindR].
      unfold cmps, ctime. change n0 with 0. cbv zeta.
      match goal with |- (if ?b then _ else _) = _ => destruct b eqn:EB end; [reflexivity|].
      assert (N2 : (2 <= n)%nat) by (unfold n; lia). assert (2 <= INR n) by (apply (le_INR 2); lia).
      rewrite PT. rewrite r_plan_same; [|lia|unR; apply Rleb_false in EB; exact EB|lra|lra].
      destruct (calc_constant_jerk_trajectory _ _ _ _ _ _) as [[k a0]|]; [|reflexivity]. cbn [bindR].
      rewrite (map_ext (fun m => r_accel_for_constant_jerk m a0 k h) (fun m => accel_for_constant_jerk (Z.of_nat m) a0 k h)) by (intros; apply r_accel_same).
      assert (EN : filter (fun ni => Nat.ltb (ni + idx + fbs) (length (time_s (d_cyc d)))) (seq 0 n) = seq 0 (Nat.min n (length (time_s (d_cyc d)) - (idx + fbs)))).
      { rewrite <- nis_same. apply filter_ext. intros m. now rewrite Nat.add_assoc. }
      rewrite EN. set (M := Nat.min n _). assert (1 <= M)%nat by (unfold M, n; lia).
      assert (ET : map (fun ni => ((nth (ni + idx + fbs) (mps (d_cyc d)) 0 - nth (ni + idx - 1 + fbs) (mps (d_cyc d)) 0) / nth (ni + idx + fbs) (r_dt_s (d_cyc d)) 0)%num) (seq 0 M) =
                   map (fun ni => ((nth (ni + idx + fbs) (mps (d_cyc d)) 0 - nth (ni + idx - 1 + fbs) (mps (d_cyc d)) 0) / cdt (d_cyc d) (ni + idx - 1 + fbs))%num) (seq 0 M)).
      { apply map_ext_in. intros m HM. apply in_seq in HM. f_equal.
        rewrite r_dt_nth by lia. unfold cdt, ctime. destruct (Nat.ltb_spec (m + idx - 1 + fbs) 1); [lia|]. change n0 with 0.
        assert (E1 : duration (d_cyc d) (m + idx + fbs) = h) by (apply (av_steps _ _ _ A); unfold clen; lia).
        assert (E2 : duration (d_cyc d) (m + idx - 1 + fbs) = h) by (apply (av_steps _ _ _ A); unfold clen; lia).
        unfold duration in E1, E2. unR. rewrite E2, <- E1. destruct (m + idx + fbs)%nat as [|w] eqn:EW; [lia|]. now rewrite Nat.sub_succ, Nat.sub_0_r. }
      rewrite ET. set (trs := map _ (seq 0 M)). set (acs := map (fun m => accel_for_constant_jerk (Z.of_nat m) a0 k h) (seq 0 M)).
      destruct acs as [|a r] eqn:EA; [apply (f_equal (@length R)) in EA; unfold acs in EA; rewrite map_length, seq_length in EA; cbn in EA; lia|].
      cbn [bindR]. match goal with |- (if ?b then _ else _) = _ => destruct b end; reflexivity.
    Qed.
    Lemma none_later fbs : forall fuel idx best, (i < idx)%nat -> (forall k, (idx <= k)%nat -> coast_at d k = false) ->
      r_collision_scan fuel d p fbs i idx best = Ok best /\ collision_scan fuel d p fbs i idx best = Ok best.
    Proof.
      induction fuel as [|f IH]; intros idx best LI NC; [split; reflexivity|]. cbn [r_collision_scan collision_scan]. rewrite NC by lia. cbn [negb].
      destruct (Nat.eqb_spec idx i); [lia|]. apply IH; [lia|]. intros k HK. apply NC. lia.
    Qed.
    Definition fits (q : @pcand R) : Prop := (i <= pc_idx q)%nat /\ (pc_idx q + pc_fbs q < clen (d_cyc d))%nat /\ (2 <= pc_n q)%nat.
    Lemma scan_same fbs : (fbs <= 3)%nat -> forall fuel idx best, (i <= idx)%nat -> (idx + fbs <= pi_idx p + 1)%nat -> (idx <= pi_idx p)%nat ->
      (forall q, best = Some q -> fits q) ->
      r_collision_scan fuel d p fbs i idx best = collision_scan fuel d p fbs i idx best /\
      forall q, collision_scan fuel d p fbs i idx best = Ok (Some q) -> fits q.
    Proof.
      intros F3. induction fuel as [|f IH]; intros idx best LI LP LX HB; [split; [reflexivity|]; cbn; intros q [= ->]; now apply HB|].
      cbn [r_collision_scan collision_scan]. destruct (coast_at d idx) eqn:CO; cbn [negb].
      - destruct (Nat.ltb_spec (pi_idx p) idx); [lia|].
        destruct (Nat.ltb_spec (pi_idx p - idx + 1) fbs); [lia|].
        destruct (Z.ltb_spec (Z.of_nat (pi_idx p) - Z.of_nat idx + 1 - Z.of_nat fbs) 2) as [Z2|Z2]; destruct (Nat.ltb_spec (pi_idx p - idx + 1 - fbs) 2) as [N2|N2]; try lia.
        { split; [reflexivity|]. intros q [= ->]. now apply HB. }
        unfold clen in PI. destruct (Nat.leb_spec (length (time_s (d_cyc d))) (idx - 1 + fbs)); [lia|].
        replace (Z.to_nat (Z.of_nat (pi_idx p) - Z.of_nat idx + 1 - Z.of_nat fbs)) with (pi_idx p - idx + 1 - fbs)%nat by lia.
        rewrite candidate_same by lia. destruct (r_collision_candidate _ _ _ _ _) as [t|]; [|split; [reflexivity|discriminate]]. cbn [bindR].
        set (n := (pi_idx p - idx + 1 - fbs)%nat) in *.
        assert (FT : fits (mkpcand idx n fbs 0 0 0)) by (unfold fits, clen; cbn; lia).
        destruct t as [[[k a0] sp]|]; cbn [option_map cand_of]; [|apply IH; [lia|lia|lia|exact HB]].
        destruct best as [b|]; cbn [pc_spread].
        + destruct (sp <? pc_spread b)%num; apply IH; try lia; [intros q [= <-]; exact FT|exact HB].
        + apply IH; try lia. intros q [= <-]; exact FT.
      - destruct (Nat.eqb_spec idx i); [split; [reflexivity|]; intros q [= ->]; now apply HB|].
        destruct (none_later fbs f (S idx) best) as (-> & ->); [lia| |split; [reflexivity|]; intros q [= ->]; now apply HB].
        intros k HK. destruct (coast_at d k) eqn:CK; [|reflexivity]. rewrite (av_flags _ _ _ A idx k) in CO by (lia || exact CK). discriminate.
    Qed.
    Lemma search_same : forall fbss, (forall f, In f fbss -> (f <= 3)%nat) ->
      r_collision_search fbss d p i = collision_search fbss d p i /\ forall q, collision_search fbss d p i = Ok (Some q) -> fits q.
    Proof.
      induction fbss as [|f l IH]; intros HF; [split; [reflexivity|discriminate]|]. cbn [r_collision_search collision_search].
      assert (F3 : (f <= 3)%nat) by (apply HF; now left).
      destruct (scan_same f F3 (length (d_rows d) - i) i None) as (E & Q); [lia|lia|lia|discriminate|]. rewrite E.
      destruct (collision_scan _ _ _ _ _ _ _) as [[q|]|]; cbn [bindR].
      - split; [reflexivity|]. intros q' [= <-]. now apply Q.
      - apply IH. intros f' HF'. apply HF. now right.
      - split; [reflexivity|discriminate].
    Qed.
  End Search.
  Lemma brake_writes idx : forall ks (e : sdrive R), (forall k, In k ks -> (idx + k < clen (d_cyc e))%nat) ->
    r_full_brake e idx ks = full_brake e idx ks /\ time_s (d_cyc (full_brake e idx ks)) = time_s (d_cyc e) /\ length (mps (d_cyc (full_brake e idx ks))) = length (mps (d_cyc e)).
  Proof.
    induction ks as [|k ks IH]; intros e HK; [auto|]. cbn [r_full_brake full_brake]. unfold clen in HK.
    destruct (Nat.leb_spec (length (time_s (d_cyc e))) (idx + k)) as [Q|Q]; [specialize (HK k (or_introl eq_refl)); lia|].
    unfold cmps, ctime. match goal with |- r_full_brake ?x _ _ = _ /\ _ => set (B := x) end.
    destruct (IH B) as (E & T & L). { intros k' HK'. unfold clen. change (time_s (d_cyc B)) with (time_s (d_cyc e)). apply HK. now right. }
    split; [exact E|]. split; [rewrite T; reflexivity|]. rewrite L. unfold B. cbn. now rewrite set_nth_length.
  Qed.
  Lemma apply_same q : fits q -> r_apply_collision d q = apply_collision d q.
  Proof.
    intros (F1 & F2 & F3). pose proof (av_i _ _ _ A) as I. unfold r_apply_collision, apply_collision.
    destruct (brake_writes (pc_idx q) (seq 0 (pc_fbs q)) d) as (E & T & L). { intros k HK. apply in_seq in HK. lia. }
    rewrite E. rewrite r_jerk_same; [reflexivity| | |lia].
    - rewrite L, T. exact av_wl.
    - rewrite T. unfold clen in *. lia.
  Qed.
  Lemma prevent_same : forall fuel tol, 0 <= tol -> r_prevent_collisions fuel d i tol = prevent_collisions_f fuel d i tol.
  Proof.
    induction fuel as [|f IH]; intros tol T0; [reflexivity|]. cbn [r_prevent_collisions prevent_collisions_f]. rewrite passing_same by exact T0.
    destruct (detect_passing (d_cyc d) (d_cyc0 d) i tol) as [p|] eqn:EP; [|reflexivity]. cbn [bindR].
    destruct (has_collision p) eqn:HC; [|reflexivity]. cbn [negb]. unfold assertR. change (coast_brake_accel_m_per_s2 (d_sp d) <? n0)%num with (Rltb (coast_brake_accel_m_per_s2 (d_sp d)) 0). rewrite (proj2 (Rltb_true _ _) (av_brake _ _ _ A)). cbn [negb bindR].
    destruct (passing_figures _ _ T0 EP HC) as (PT & PI).
    destruct (search_same p PT PI [0; 1; 2; 3]%nat) as (ES & Q). { cbn. intros k HK. lia. }
    rewrite ES. destruct (collision_search _ _ _ _) as [[q|]|]; cbn [bindR]; [|destruct (_ >? _)%num; [reflexivity|apply IH]|reflexivity]; [|unR; destruct (Rltb_spec tol 10); change (IZR 10) with 10; change (IZR 5) with 5; lra].
    rewrite apply_same by (apply Q; reflexivity). reflexivity.
  Qed.
End Avoid.

(** ** The start of a coast *)
Lemma scan_none (d : sdrive R) p fbs i fuel : coast_at d i = false -> collision_scan fuel d p fbs i i None = Ok None.
Proof. intros E. destruct fuel; [reflexivity|]. cbn [collision_scan]. rewrite E, Nat.eqb_refl. reflexivity. Qed.
Lemma search_none (d : sdrive R) p i : coast_at d i = false -> forall l, collision_search l d p i = Ok None.
Proof. intros E. induction l as [|f l IH]; [reflexivity|]. cbn [collision_search]. rewrite scan_none by exact E. exact IH. Qed.
Lemma prevent_idle (d : sdrive R) i : wf_sd d -> (1 <= i < clen (d_cyc d))%nat -> coast_brake_accel_m_per_s2 (d_sp d) < 0 -> coast_at d i = false ->
  forall fuel tol, (1 <= fuel)%nat -> 60 < (if Rltb tol 10 then 5 else tol) + 5 * INR fuel -> prevent_collisions_f fuel d i tol = Ok (d, false).
Proof.
  intros (W & W0 & L) HI B E. induction fuel as [|f IH]; intros tol F1 T; [lia|]. cbn [prevent_collisions_f].
  assert (exists p, detect_passing (d_cyc d) (d_cyc0 d) i tol = Ok p) as (p & ->).
  { destruct (detect_passing_spec (d_cyc d) (d_cyc0 d) i tol) as [(e & _ & ->)|(_ & ->)]; try (unfold clen in *; apply W || apply W0 || exact L || lia); eauto. }
  cbn [bindR]. destruct (has_collision p); [|reflexivity]. cbn [negb]. unfold assertR.
  change (coast_brake_accel_m_per_s2 (d_sp d) <? n0)%num with (Rltb (coast_brake_accel_m_per_s2 (d_sp d)) 0). rewrite (proj2 (Rltb_true _ _) B). cbn [bindR].
  rewrite search_none by exact E. cbn [bindR]. unR. change (IZR 10) with 10. change (IZR 5) with 5. change (IZR 60) with 60.
  rewrite S_INR in T. destruct (Rltb_spec tol 10) as [Q|Q].
  - destruct (Rltb_spec 60 10); [lra|]. assert (F : (11 <= f)%nat). { destruct (le_lt_dec 11 f) as [G|G]; [exact G|]. apply le_S_n in G. apply le_INR in G. cbn in G. lra. }
    apply IH; [lia|]. destruct (Rltb_spec 10 10); [lra|]. apply le_INR in F. cbn in F. lra.
  - destruct (Rltb_spec 60 (tol + 5)); [reflexivity|]. destruct f as [|f]; [cbn in T; lra|]. apply IH; [lia|]. destruct (Rltb_spec (tol + 5) 10); lra.
Qed.
Lemma clear_idle (d : sdrive R) i : (forall k, (i <= k)%nat -> coast_at d k = false) -> clear_coast d i = d.
Proof.
  intros H. unfold clear_coast, set_coast_range, upd_ctl_rows.
  assert (E : mapi_from (fun j r => row_ctl (fun c => if Nat.ltb j i then c else ctl_coast (Nat.leb 0 j && Nat.ltb j 0)%bool c) r) 0 (d_rows d) = d_rows d).
  { assert (G : forall l k, (forall j, (i <= k + j)%nat -> impose_coast (ctl (nth j l zero_row)) = false) ->
      mapi_from (fun j r => row_ctl (fun c => if Nat.ltb j i then c else ctl_coast (Nat.leb 0 j && Nat.ltb j 0)%bool c) r) k l = l).
    { clear. induction l as [|r l IH]; intros k H; [reflexivity|]. cbn [mapi_from]. f_equal.
      - unfold row_ctl. destruct (Nat.ltb_spec k i); [now destruct r|]. specialize (H 0%nat ltac:(lia)). cbn in H. destruct r as [? ? ? ? ? ? ? ? c]. cbn in *. destruct c. cbn in *. subst. reflexivity.
      - apply IH. intros j Hj. apply (H (S j)). lia. }
    apply G. intros j Hj. apply H. exact Hj. }
  rewrite E. destruct d. reflexivity.
Qed.
Lemma start_same (d : sdrive R) i stop d' x : coast_setting d i stop -> generate_coast_trajectory d i true = Ok (d', x) -> ordinary_plan d d' i x ->
  (speed d (i - 1) <= coast_brake_start_speed_m_per_s (d_sp d) -> brakes_alike d (speed d (i - 1)) i) ->
  (forall k, (i <= k)%nat -> coast_at d k = false) ->
  (coast_allow_passing (d_sp d) = false -> 0 <= x -> exists h, avoid_setting d' i h) ->
  r_start_coast d i = start_coast d i.
Proof.
  intros C G OP BA NC AV. unfold r_start_coast, start_coast. destruct ((mps_ach_at d (i - 1) >? lit 1 1000000)%num && negb (coast_at d i))%bool eqn:ES; [|reflexivity].
  rewrite (decide_same d i stop C). 2:{ intros _. right. eauto. }
  destruct (should_impose_coast d i) as [[|]|]; [|reflexivity|reflexivity]. cbn [bindR]. rewrite G. cbn [bindR fst snd].
  apply Bool.andb_true_iff in ES as [EV _]. rewrite lit_R in EV. change (Rltb (1 / IZR (Zpos 1000000)) (mps_ach_at d (i - 1)) = true) in EV. apply Rltb_true in EV. rewrite mps_ach_speed in EV.
  assert (exists t, r_generate_coast_trajectory d i = Ok t /\
      match t with None => d' = d /\ x = -1 | Some q => rt_start q = i /\ rt_dist q = x /\ 0 <= x /\ r_apply_coast_trajectory d q = Ok d' end) as (t & -> & T).
  { destruct (Rlt_le_dec (coast_brake_start_speed_m_per_s (d_sp d)) (speed d (i - 1))) as [V|V]; [exact (plan_same d i stop C d' x V G OP)|].
    destruct (brake_same d i stop C d' x) as (q & E & Q); [lra|exact G|exact (BA V)|]. exists (Some q). auto. }
  cbn [bindR]. destruct t as [q|].
  - destruct T as (_ & -> & X0 & ->). change (x <? n0)%num with (Rltb x 0). destruct (Rltb_spec x 0); [lra|]. cbn [bindR].
    destruct (coast_allow_passing (d_sp d)); [reflexivity|]. destruct (AV eq_refl X0) as (h & A). unfold prevent_collisions. rewrite (prevent_same d' i h A) by (unR; lra). reflexivity.
  - destruct T as (-> & ->). change (-1 <? n0)%num with (Rltb (-1) 0). destruct (Rltb_spec (-1) 0); [|lra]. rewrite clear_idle by exact NC.
    destruct (coast_allow_passing (d_sp d)); [reflexivity|]. unfold prevent_collisions.
    rewrite prevent_idle; [reflexivity|exact (cs_wf d i stop C)|apply C|apply C|apply NC; lia|lia|].
    unR. destruct (Rltb_spec 1 10); [|lra]. cbn. lra.
Qed.
