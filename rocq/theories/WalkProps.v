(** Properties C32-C38 and C40 of whole runs (python/fastsim/simdrive.py).  Each group of theorems is
    followed by concrete cases that meet its hypotheses ([_run]: the model executed in binary64;
    [_case]: an instance over the reals). *)
From Coq Require Import Floats Sorting.Sorted Lia.
From Verif Require Import Num FloatNum Numpy ListFacts CycleModel CycleSpec ConcatProofs DistProofs VehModel SimModel SimState
  WalkModel FrameProofs WalkProofs StepProofs SimSpec SimProofs1 SimProofs3 SimDemo SimProps WalkSpec WalkProofs2 WalkProofs3
  TermProofs.
Local Open Scope R_scope.
Local Set Warnings "-inexact-float".

(** ** C32 *)
Theorem C32_given : forall (d0 : sdrive R) (l : list R) (d : sdrive R) (i : nat),
  is_step d0 (Some l) d i -> length l = length (d_rows d) ->
  (exists j, (i <= j < length (d_rows d))%nat /\ nth j l 0 <> 0) -> aux_load d i = nth i l 0.
Proof. intros d0 l d i S1 L Z. exact (aux_given d0 (Some l) d i S1 l eq_refl L Z). Qed.
Theorem C32_zero_tail : forall (d0 : sdrive R) (l : list R) (d : sdrive R) (i : nat),
  is_step d0 (Some l) d i -> length l = length (d_rows d) ->
  (forall j, (i <= j < length (d_rows d))%nat -> nth j l 0 = 0) -> aux_load d i = own_load (d_veh d0).
Proof. intros d0 l d i S1 L Z. exact (aux_trailing d0 (Some l) d i S1 l eq_refl L Z). Qed.
Theorem C32_no_override : forall (d0 : sdrive R) (ovr : option (list R)) (d : sdrive R) (i : nat),
  is_step d0 ovr d i -> (forall l, ovr = Some l -> length l <> length (d_rows d)) -> aux_load d i = own_load (d_veh d0).
Proof. exact aux_none. Qed.
(** The object keeps the caller's array as its aux_in_kw channel, so this is also what the caller finds in
    it after the run. *)
Theorem C32_array_kept : forall (d0 : sdrive R) (l : list R) (d : sdrive R),
  wf_sd d0 -> run d0 (Some l) d -> length l = length (d_rows d) -> last l 0 <> 0 ->
  map (fun r => aux_in_kw (misc r)) (d_rows d) = l.
Proof. exact aux_whole. Qed.
Definition aux_after (v : vehicle float) (l : list float) : list float :=
  match sim_drive_walk (demo_sd v demo_trip) 0.5%float (Some l) with
  | Ok d => map (fun r => aux_in_kw (misc r)) (d_rows d) | Err _ => [] end.
(** An override with trailing zeros is not used as given. *)
Theorem C32_as_given_refuted : exists (d0 d : sdrive float) (l : list float),
  sim_drive_walk d0 0.5%float (Some l) = Ok d /\ length l = length (d_rows d) /\
  PrimFloat.eqb (nth 4 l 0%float) 0%float = true /\ PrimFloat.eqb (aux_in_kw (misc (row_at d 4))) 0%float = false.
Proof.
  destruct (ok_witness (sim_drive_walk (demo_sd demo_hev demo_trip) 0.5%float (Some [0; 2; 0; 3; 0]%float))
    (fun d => (Nat.eqb 5 (length (d_rows d)) && negb (PrimFloat.eqb (aux_in_kw (misc (row_at d 4))) 0%float))%bool)) as (d & E & Q).
  { vm_compute. reflexivity. }
  apply Bool.andb_true_iff in Q. destruct Q as [Q1 Q2]. apply Nat.eqb_eq in Q1. apply Bool.negb_true_iff in Q2.
  exists (demo_sd demo_hev demo_trip), d, [0; 2; 0; 3; 0]%float. split; [exact E|]. split; [exact Q1|]. split; [reflexivity|exact Q2].
Qed.
Example C32_run : aux_after demo_hev [0; 2; 0; 3; 0]%float = [0; 2; 0; 3; 0.3]%float /\
  aux_after demo_conv [0; 2; 0; 0; 0]%float = [0; 2; 0.7; 0.7; 0.7]%float /\
  aux_after demo_hev [1; 0; 0; 0; 5]%float = [1; 0; 0; 0; 5]%float /\
  aux_after demo_hev [1; 2; 3]%float = [0; 0.3; 0.3; 0.3; 0.3]%float.
Proof. vm_compute. repeat split. Qed.
Lemma hev_trip_walk ovr s : 1/5 <= s <= 4/5 -> exists d, wf_sd hev_trip /\ run hev_trip ovr d /\ length (d_rows d) = 5%nat.
Proof.
  intros S. destruct (walk_total hev_trip s ovr) as (d & E).
  - cbn. lia.
  - reflexivity.
  - right. unR. rewrite !Rltb_false. revert S. unfold hev_trip. demo_num.
  - assert (W : wf_sd hev_trip) by (split; [exact demo_trip_wf|split; [exact demo_trip_wf|reflexivity]]).
    exists d. split; [exact W|]. split; [left; eauto|]. rewrite (wk_len _ _ _ _ (walk_walked _ _ _ _ W E)). reflexivity.
Qed.
Example C32_case : exists d, is_step hev_trip (Some [0; 2; 0; 3; 0]) d 2 /\ aux_load d 2 = 0 /\ aux_load d 4 = 3/10.
Proof.
  destruct (hev_trip_walk (Some [0; 2; 0; 3; 0]) (1/2)) as (d & W & RN & L); [lra|].
  assert (S : forall i, (1 <= i < 5)%nat -> is_step hev_trip (Some [0; 2; 0; 3; 0]) d i).
  { intros i Hi. split; [exact W|]. split; [exact RN|]. now rewrite L. }
  exists d. split; [apply S; lia|]. split.
  - rewrite (C32_given _ _ _ _ (S 2%nat ltac:(lia))); rewrite ?L; auto. exists 3%nat. split; [lia|]. cbn. lra.
  - assert (Z : aux_load d 4 = own_load (d_veh hev_trip)).
    { apply (C32_zero_tail _ _ _ _ (S 4%nat ltac:(lia))); rewrite ?L; auto.
      intros j Hj. assert (j = 4%nat) as -> by lia. reflexivity. }
    rewrite Z. unfold own_load. change (no_elec_aux (d_veh hev_trip)) with false. cbn iota. unfold hev_trip. demo_num.
Qed.

(** ** C33 *)
(** What sim_drive does with a hybrid: walks until the battery is balanced against the fuel or the
    allowed number is used up, then one more walk, which it reports. *)
Theorem C33_balance : forall (d0 : sdrive R) (ovr : option (list R)) (d : sdrive R),
  wf_sd d0 -> veh_pt_type (d_veh d0) = HEV ->
  sim_drive d0 None ovr = Ok d <->
  exists k dk sk, balancing d0 ovr k dk sk /\ balance_done d0 k dk /\ sim_drive_walk dk sk ovr = Ok d.
Proof. exact hev_run. Qed.
Theorem C33_bounded : forall (d0 : sdrive R) (ovr : option (list R)) k d s,
  wf_sd d0 -> balancing d0 ovr k d s -> (k <= sim_count_max (d_sp d0))%nat.
Proof. exact balancing_cap. Qed.
(** It always returns, and it raises only what one of the walks raises. *)
Theorem C33_error : forall (d0 : sdrive R) (ovr : option (list R)) e,
  wf_sd d0 -> veh_pt_type (d_veh d0) = HEV -> sim_drive d0 None ovr = Err e ->
  exists k dk sk n, balancing d0 ovr k dk sk /\ sim_drive_walk (with_count dk n) sk ovr = Err e.
Proof. exact hev_error. Qed.
(** The reported walk need not be balanced. *)
Theorem C33_reported_balanced_refuted : exists (d0 d : sdrive float),
  veh_pt_type (d_veh d0) = HEV /\ sim_drive d0 None None = Ok d /\
  PrimFloat.ltb (ess_to_fuel_ok_error (d_veh d0)) (ess_2fuel d) = true.
Proof.
  destruct (ok_witness (sim_drive (demo_sd demo_hev demo_trip) None None)
    (fun d => PrimFloat.ltb 0.005%float (ess_2fuel d))) as (d & E & Q); [vm_compute; reflexivity|].
  exists (demo_sd demo_hev demo_trip), d. split; [reflexivity|]. split; [exact E|exact Q].
Qed.
(** Settings with another limit on balancing walks, and with other car-following targets. *)
Definition sp_count {F} (s : simparams F) (n : nat) : simparams F :=
  match s with mksimparams a b c d e f g h i _ k l m o p q r t u v w x y z0 z1 z2 z3 z4 z5 z6 =>
    mksimparams a b c d e f g h i n k l m o p q r t u v w x y z0 z1 z2 z3 z4 z5 z6 end.
Definition sp_idm {F} (s : simparams F) (tbl : option (list (F * F))) : simparams F :=
  match s with mksimparams a b c d e f g h i j k l m o p q r t u v w x y z0 z1 z2 z3 z4 _ z6 =>
    mksimparams a b c d e f g h i j k l m o p q r t u v w x y z0 z1 z2 z3 z4 tbl z6 end.
Definition short_of_walks {F} {N : Num F} (n : nat) : sdrive F :=
  with_sp (demo_sd demo_hev demo_trip) (sp_count (demo_sp false false false) n).
Definition counted (r : Res (sdrive float)) : nat * float * float :=
  match r with Ok d => (d_hev_sim_count d, soc_first d, soc_last d) | Err _ => (0%nat, 0, 0)%float end.
Example C33_run : counted (sim_drive (short_of_walks 30) None None) = (30%nat, 0.69062885142437036, 0.69698314647184934)%float /\
  (* no balancing walk allowed: the mid-window walk is reported; one: the second walk starts where it ended *)
  fst (counted (sim_drive (short_of_walks 0) None None)) = (0%nat, 0.5)%float /\
  (let '(_, _, e) := counted (sim_drive (short_of_walks 0) None None) in
   let '(n, b, _) := counted (sim_drive (short_of_walks 1) None None) in Nat.eqb n 1 && PrimFloat.eqb b e)%bool = true.
Proof. vm_compute. repeat split. Qed.
(** A hybrid that may not balance is walked once from the middle of its window. *)
Definition hev_once : sdrive R := short_of_walks 0.
Example C33_case : exists d, sim_drive hev_once None None = Ok d /\
  exists k dk sk, balancing hev_once None k dk sk /\ balance_done hev_once k dk /\ (k <= 0)%nat.
Proof.
  assert (W : wf_sd hev_once) by (split; [exact demo_trip_wf|split; [exact demo_trip_wf|reflexivity]]).
  destruct (walk_total (with_count hev_once 0) ((max_soc (d_veh hev_once) + min_soc (d_veh hev_once)) / 2) None) as (d & E).
  - cbn. lia.
  - reflexivity.
  - right. unR. rewrite !Rltb_false. unfold hev_once, short_of_walks. demo_num.
  - exists d. assert (B := bal_start hev_once None).
    assert (D : balance_done hev_once 0 (with_count hev_once 0)) by (left; cbn; lia).
    assert (H : sim_drive hev_once None None = Ok d).
    { apply C33_balance; auto. exists 0%nat, (with_count hev_once 0), ((max_soc (d_veh hev_once) + min_soc (d_veh hev_once)) / 2).
      auto. }
    split; [exact H|]. apply C33_balance in H; auto. destruct H as (k & dk & sk & K1 & K2 & _).
    exists k, dk, sk. split; [exact K1|]. split; [exact K2|]. exact (C33_bounded _ _ _ _ _ W K1).
Qed.

(** ** C34 *)
Theorem C34_window : forall (d : sdrive R) (s : R) (ovr : option (list R)), (0 < clen (d_cyc d))%nat ->
  (veh_pt_type (d_veh d) <> CONV /\ (s < min_soc (d_veh d) \/ max_soc (d_veh d) < s) /\ init_for_step d s ovr = Err ValueError) \/
  ((veh_pt_type (d_veh d) = CONV \/ min_soc (d_veh d) <= s <= max_soc (d_veh d)) /\ exists d1, init_for_step d s ovr = Ok d1).
Proof. exact init_result. Qed.
Theorem C34_rejected : forall (d : sdrive R) (s : R) (ovr : option (list R)),
  veh_pt_type (d_veh d) <> CONV -> s < min_soc (d_veh d) \/ max_soc (d_veh d) < s ->
  init_for_step d s ovr = Err ValueError /\ sim_drive_walk d s ovr = Err ValueError /\ sim_drive d (Some s) ovr = Err ValueError.
Proof. exact soc_rejected. Qed.
(** The state of charge a run starts from. *)
Theorem C34_start : forall (d0 : sdrive R) (ovr : option (list R)) (d : sdrive R), wf_sd d0 ->
  (forall s, sim_drive d0 (Some s) ovr = Ok d -> soc (dec (row_at d 0)) = s) /\
  (sim_drive d0 None ovr = Ok d ->
     (veh_pt_type (d_veh d0) = CONV -> soc (dec (row_at d 0)) = (max_soc (d_veh d0) + min_soc (d_veh d0)) / 2) /\
     (veh_pt_type (d_veh d0) = PHEV \/ veh_pt_type (d_veh d0) = BEV -> soc (dec (row_at d 0)) = max_soc (d_veh d0))).
Proof. exact soc_started. Qed.
Example C34_case : init_for_step hev_trip (81/100) None = Err ValueError /\ init_for_step hev_trip (19/100) None = Err ValueError /\
  (exists d1, init_for_step hev_trip (8/10) None = Ok d1) /\ (exists d1, init_for_step conv_trip 2 None = Ok d1).
Proof.
  assert (MX : max_soc (d_veh hev_trip) = 8/10) by (unfold hev_trip; demo_num).
  assert (MN : min_soc (d_veh hev_trip) = 2/10) by (unfold hev_trip; demo_num).
  split; [|split; [|split]].
  - apply C34_rejected; [discriminate|]. rewrite MX. lra.
  - apply C34_rejected; [discriminate|]. rewrite MN. lra.
  - destruct (C34_window hev_trip (8/10) None) as [(_ & Q & _)|(_ & Q)]; auto; [cbn; lia|]. rewrite MX, MN in Q. lra.
  - destruct (C34_window conv_trip 2 None) as [(Q & _)|(_ & Q)]; auto; [cbn; lia|]. now destruct Q.
Qed.
Example C34_run : (match init_for_step (demo_sd demo_hev demo_trip) 0.80000001%float None with Err ValueError => true | _ => false end
  && match init_for_step (demo_sd demo_hev demo_trip) 0.8%float None with Ok _ => true | _ => false end
  && match init_for_step (demo_sd demo_conv demo_trip) 7%float None with Ok _ => true | _ => false end
  && match sim_drive (demo_sd demo_bev demo_trip) None None with Ok d => PrimFloat.eqb (soc_first d) 0.8%float | _ => false end
  && match sim_drive (demo_sd demo_conv demo_trip) None None with Ok d => PrimFloat.eqb (soc_first d) 0.5%float | _ => false end)%bool = true.
Proof. vm_compute. reflexivity. Qed.

(** ** C35 *)
(** After a completed run, any further run gives what it would have given on the fresh object. *)
Theorem C35_repeatable : forall (d0 : sdrive R) (ovr : option (list R)) (d : sdrive R), wf_sd d0 -> run d0 ovr d ->
  forall s ovr', sim_drive d s ovr' = sim_drive d0 s ovr'.
Proof. exact run_again. Qed.
Theorem C35_walk_repeatable : forall (d0 : sdrive R) s (ovr : option (list R)) (d : sdrive R),
  wf_sd d0 -> sim_drive_walk d0 s ovr = Ok d -> forall s' ovr', sim_drive_walk d s' ovr' = sim_drive_walk d0 s' ovr'.
Proof. exact walk_again. Qed.
Theorem C35_inputs_kept : forall (d0 : sdrive R) (ovr : option (list R)) (d : sdrive R), wf_sd d0 -> run d0 ovr d ->
  d_cyc0 d = d_cyc0 d0 /\ d_veh d = d_veh d0 /\ d_sp d = d_sp d0 /\ d_props d = d_props d0 /\
  clen (d_cyc d) = clen (d_cyc d0) /\ (changes_cycle (d_sp d0) = false -> d_cyc d = d_cyc d0).
Proof. exact run_keeps. Qed.
Definition speeds_of (d : sdrive float) : list float := map (fun r => mps_ach (spd r)) (d_rows d).
(** A run with an option that changes the cycle affects a later run without: the same object with the same
    settings, once used for a coasting run before and once fresh. *)
Theorem C35_history_refuted : exists (d0 d d1 d2 : sdrive float) (sp : simparams float),
  sim_drive_walk d0 0.5%float None = Ok d /\ changes_cycle sp = false /\
  sim_drive_walk (with_sp d0 sp) 0.5%float None = Ok d1 /\ sim_drive_walk (with_sp d sp) 0.5%float None = Ok d2 /\
  PrimFloat.eqb (nth 17 (speeds_of d1) 0%float) 18%float = true /\ PrimFloat.ltb (nth 17 (speeds_of d2) 0%float) 13%float = true.
Proof.
  destruct (ok_witness (sim_drive_walk (coasting demo_conv) 0.5%float None) (fun d =>
    match sim_drive_walk (with_sp d (demo_sp false false false)) 0.5%float None with
    | Ok d2 => PrimFloat.ltb (nth 17 (speeds_of d2) 0%float) 13%float | Err _ => false end)) as (d & E & Q); [vm_compute; reflexivity|].
  destruct (sim_drive_walk (with_sp d (demo_sp false false false)) 0.5%float None) as [d2|] eqn:E2; [|discriminate].
  destruct (ok_witness (sim_drive_walk (with_sp (coasting demo_conv) (demo_sp false false false)) 0.5%float None) (fun d =>
    PrimFloat.eqb (nth 17 (speeds_of d) 0%float) 18%float)) as (d1 & E1 & Q1); [vm_compute; reflexivity|].
  exists (coasting demo_conv), d, d1, d2, (demo_sp false false false).
  split; [exact E|]. split; [reflexivity|]. split; [exact E1|]. split; [exact E2|]. split; [exact Q1|exact Q].
Qed.
Example C35_case : exists d, sim_drive_walk hev_trip (1/2) None = Ok d /\ sim_drive_walk d (1/2) None = Ok d /\
  d_cyc0 d = demo_trip /\ d_cyc d = demo_trip.
Proof.
  destruct (demo_step demo_hev demo_trip (1/2) 1 demo_trip_wf) as (d & E & (W & RN & _) & _).
  - cbn. lia.
  - exact demo_trip_inc.
  - right. demo_num.
  - exists d. split; [exact E|]. split; [|split].
    + rewrite (C35_walk_repeatable _ _ _ _ W E). exact E.
    + now destruct (C35_inputs_kept _ _ _ W RN) as (-> & _).
    + destruct (C35_inputs_kept _ _ _ W RN) as (_ & _ & _ & _ & _ & Q). now rewrite Q.
Qed.

(** ** C36 *)
Theorem C36_walk_is_steps : forall (d : sdrive R) s (ovr : option (list R)) (d' : sdrive R),
  wf_sd d -> sim_drive_walk d s ovr = Ok d' ->
  exists d1 d2, init_for_step d s ovr = Ok d1 /\ calls (clen (d_cyc d) - 1) d1 d2 /\
    d_i d2 = clen (d_cyc d) /\ same_object d2 d'.
Proof. exact walk_calls. Qed.
Theorem C36_steps_are_walk : forall (d : sdrive R) s (ovr : option (list R)) (d1 d2 : sdrive R),
  wf_sd d -> init_for_step d s ovr = Ok d1 -> calls (clen (d_cyc d) - 1) d1 d2 ->
  exists d', sim_drive_walk d s ovr = Ok d' /\ same_object d2 d'.
Proof. exact calls_walk. Qed.
Example C36_case : exists d1 d2, init_for_step hev_trip (1/2) None = Ok d1 /\ calls 4 d1 d2 /\ d_i d2 = 5%nat.
Proof.
  destruct (demo_step demo_hev demo_trip (1/2) 1 demo_trip_wf) as (d & E & (W & _ & _) & _).
  - cbn. lia.
  - exact demo_trip_inc.
  - right. demo_num.
  - destruct (C36_walk_is_steps _ _ _ _ W E) as (d1 & d2 & A & B & C & _). exists d1, d2. auto.
Qed.
Example C36_run : match init_for_step (demo_sd demo_hev demo_trip) 0.5%float None with
  | Ok d1 => match sim_drive_step d1 with Ok d2 => match sim_drive_step d2 with Ok d3 => match sim_drive_step d3 with Ok d4 =>
      match sim_drive_step d4 with Ok d5 =>
        match sim_drive_walk (demo_sd demo_hev demo_trip) 0.5%float None with
        | Ok d => (Nat.eqb (d_i d5) 5 && forallb (fun b => b) (zipw PrimFloat.eqb (speeds_of d5) (speeds_of d))
                   && PrimFloat.eqb (soc_last d5) (soc_last d))%bool
        | Err _ => false end
      | Err _ => false end | Err _ => false end | Err _ => false end | Err _ => false end
  | Err _ => false end = true.
Proof. vm_compute. reflexivity. Qed.

(** ** C37 *)
Theorem C37_correction : forall (i : nat) (d : sdrive R),
  (1 <= i < length (d_rows d))%nat -> (i < length (time_s (d_cyc d)))%nat ->
  exists d' ts, set_time_dilation d i = Ok d' /\ stretched i ts d d' /\ Forall (within (d_sp d)) ts /\
    (ts = [] <-> on_place d i \/ nth i (mps (d_cyc d)) 0 = 0) /\
    (ts = [] -> d' = d) /\
    (length ts <= Nat.max 2 (max_trace_miss_iters (d_sp d) - trace_miss_iters (ctl (row_at d i))))%nat /\
    (forall t, hd_error ts = Some t -> t = clamp_dilation (d_sp d)
        ((trace_dist d i - driven_dist d i) / step_dt (with_cyc d (d_cyc0 d)) i / speed d i)) /\
    (ts <> [] -> stops (d_sp d) d' i (last ts 0) \/
      (max_trace_miss_iters (d_sp d) <= trace_miss_iters (ctl (row_at d' i)) /\ 2 <= length ts)%nat).
Proof. exact dilation_total. Qed.
Theorem C37_forward : forall i ts (d d' : sdrive R), (1 <= i)%nat -> stretched i ts d d' -> Forall (within (d_sp d)) ts ->
  -1 < min_time_dilation (d_sp d) -> -1 < max_time_dilation (d_sp d) ->
  increasing (time_s (d_cyc d)) -> increasing (time_s (d_cyc d')).
Proof. intros i ts d d' H S W A B. apply (stretched_increasing i ts d d' H S). exact (growth_pos _ _ W A B). Qed.
(** Over a whole run: every step's duration is that of the trace times the factors of its corrections. *)
Theorem C37_run_steps : forall (d0 : sdrive R) (ovr : option (list R)) (d : sdrive R) (i : nat),
  is_step d0 ovr d i -> exists ts, Forall (within (d_sp d0)) ts /\
    (length ts <= Nat.max 2 (max_trace_miss_iters (d_sp d0)))%nat /\
    (missed_trace_correction (d_sp d0) = false -> ts = []) /\ step_dt d i = ref_dt d0 i * growth ts /\
    trace_miss_iters (ctl (row_at d i)) = length ts.
Proof. exact run_steps. Qed.
Theorem C37_run_forward : forall (d0 : sdrive R) (ovr : option (list R)) (d : sdrive R), wf_sd d0 -> run d0 ovr d ->
  -1 < min_time_dilation (d_sp d0) -> -1 < max_time_dilation (d_sp d0) ->
  increasing (time_s (if changes_cycle (d_sp d0) then d_cyc0 d0 else d_cyc d0)) -> increasing (time_s (d_cyc d)).
Proof. exact run_increasing. Qed.
Definition dilating (v : vehicle float) (c : cyc float) : sdrive float := new_sd v demo_props (demo_sp true false false) c.
(** max_time_dilation does not bound the stretch of a step: here it is 1, so a step of 1 s should last at
    most 2 s, but lasts 3.69 s. *)
Theorem C37_total_stretch_refuted : exists (d0 d : sdrive float),
  sim_drive_walk d0 0.5%float None = Ok d /\
  PrimFloat.ltb ((1 + max_time_dilation (d_sp d0)) * (nth 2 (time_s (d_cyc d0)) 0 - nth 1 (time_s (d_cyc d0)) 0))%float
    (nth 2 (time_s (d_cyc d)) 0 - nth 1 (time_s (d_cyc d)) 0)%float = true.
Proof.
  destruct (ok_witness (sim_drive_walk (dilating demo_conv demo_dash) 0.5%float None)
    (fun d => PrimFloat.ltb 2%float (nth 2 (time_s (d_cyc d)) 0 - nth 1 (time_s (d_cyc d)) 0)%float)) as (d & E & Q);
    [vm_compute; reflexivity|].
  exists (dilating demo_conv demo_dash), d. split; [exact E|exact Q].
Qed.
Definition dilated (v : vehicle float) (c : cyc float) : list float * list nat * list float :=
  match sim_drive_walk (dilating v c) 0.5%float None with
  | Ok d => (time_s (d_cyc d), map (fun r => trace_miss_iters (ctl r)) (d_rows d), speeds_of d) | Err _ => ([], [], []) end.
Example C37_run : dilated demo_conv demo_dash = ([0; 2; 5.694206426105529], [0%nat; 0%nat; 3%nat], [0; 6; 16])%float /\
  dilated demo_hev demo_dash = ([0; 2; 6.0060118083826364], [0%nat; 0%nat; 3%nat], [0; 6; 16])%float /\
  dilated demo_hev demo_trip = ([0; 2; 4; 5; 8], [0%nat; 0%nat; 0%nat; 0%nat; 0%nat], [0; 6; 9; 9; 0])%float.
Proof. vm_compute. repeat split. Qed.
(** A hybrid on the dash, with time dilation switched on, over the reals. *)
Definition dash : sdrive R := new_sd demo_hev demo_props (demo_sp true false false) demo_dash.
Example C37_case : exists d, sim_drive_walk dash (1/2) None = Ok d /\ increasing (time_s (d_cyc d)) /\
  exists ts, step_dt d 2 = 1 * growth ts /\ (length ts <= 5)%nat.
Proof.
  assert (WC : wf (demo_dash (F := R))) by (repeat split).
  assert (W : wf_sd dash) by (split; [exact WC|split; [exact WC|reflexivity]]).
  assert (E : exists d, sim_drive_walk dash (1/2) None = Ok d).
  { unfold sim_drive_walk. destruct (C34_window dash (1/2) None) as [(_ & Q & _)|(_ & d1 & I)]; [cbn; lia| |].
    { exfalso. revert Q. unfold dash. demo_num. }
    destruct (init_shape _ _ _ _ W I) as (A & B & C & D). destruct (init_rows _ _ _ _ I) as (_ & _ & SP & _).
    rewrite I. cbn [bindR].
    assert (G : forall n (x : sdrive R), (1 <= d_i x)%nat -> length (d_rows x) = length (time_s (d_cyc x)) ->
      (length (time_s (d_cyc x)) <= d_i x + n)%nat -> replans (d_sp x) = false -> exists y, walk_loop n x = Ok y).
    { induction n as [|n IH]; intros x H1 HR HN NR; cbn [walk_loop]; destruct (Nat.ltb_spec (d_i x) (length (time_s (d_cyc x)))) as [L|L];
        eauto; [lia|].
      assert (ST : exists x1, sim_drive_step x = Ok x1).
      { rewrite step_is_plan. unfold plan. unfold replans in NR. apply Bool.orb_false_iff in NR. destruct NR as [NC NI].
        rewrite NC, NI. cbn [bindR orb]. destruct (_ && _)%bool; [|cbn [bindR]; eauto].
        pose proof (solve_step_solved (d_i x) x ltac:(lia)) as SV.
        destruct (dilation_total (d_i x) (solve_step x (d_i x))) as (y & ts & Q & _).
        - rewrite (sv_len _ _ _ SV). lia.
        - rewrite (sv_cyc _ _ _ SV). lia.
        - rewrite Q. cbn [bindR]. eauto. }
      destruct ST as (x1 & ST). rewrite ST. cbn [bindR]. pose proof (step_stepped x x1 ltac:(lia) ST) as SS.
      apply IH; rewrite ?(st_i _ _ _ SS), ?(st_len _ _ _ SS), ?(st_tlen _ _ _ SS), ?(st_sp _ _ _ SS); auto; lia. }
    destruct (G (length (time_s (d_cyc d1))) d1) as (y & Y); try lia; [now rewrite SP|]. rewrite Y. cbn [bindR]. eauto. }
  destruct E as (d & E). exists d. split; [exact E|]. assert (RN : run dash None d) by (left; eauto). split.
  - apply (C37_run_forward dash None d W RN); try (unfold dash; demo_num).
    apply increasing_SS. unfold dash, demo_dash, z. cbn [changes_cycle d_sp new_sd init_arrays demo_sp missed_trace_correction orb d_cyc0 time_s map].
    unR. repeat constructor; lra.
  - destruct (C37_run_steps dash None d 2) as (ts & _ & L & _ & D & _).
    { split; [exact W|]. split; [exact RN|]. rewrite (wk_len _ _ _ _ (walk_walked _ _ _ _ W E)). cbn. lia. }
    exists ts. split; [|exact L]. rewrite D. f_equal. unfold ref_dt, dash, demo_dash, z. cbn -[IZR]. unR. lra.
Qed.

(** ** C38 *)
(** [Err OutOfFuel] is what the model returns when a bound on one of its loops is reached; no exception of
    the code corresponds to it.  The recursion of _prevent_collisions is bounded by 12 calls and a larger
    bound makes no difference. *)
Theorem C38_prevent_ends : forall (d : sdrive R) (i : nat) (tol : R),
  prevent_collisions_f 12 d i tol <> Err OutOfFuel /\
  forall n, (12 <= n)%nat -> prevent_collisions_f n d i tol = prevent_collisions_f 12 d i tol.
Proof. intros d i tol. split; [apply prevent_12|]. intros n L. apply prevent_more; [apply prevent_12|exact L]. Qed.
(** Each retry widens the tolerance. *)
Theorem C38_retry : forall f (d : sdrive R) (i : nat) (tol : R) p,
  detect_passing (d_cyc d) (d_cyc0 d) i tol = Ok p -> has_collision p = true ->
  coast_brake_accel_m_per_s2 (d_sp d) < 0 -> collision_search [0; 1; 2; 3]%nat d p i = Ok None ->
  prevent_collisions_f (S f) d i tol =
  if Rlt_dec 60 (Rmax 10 (tol + 5)) then Ok (d, false) else prevent_collisions_f f d i (if Rlt_dec tol 10 then 10 else tol + 5).
Proof. exact prevent_retry. Qed.
Theorem C38_no_effect : forall (d : sdrive R) (i : nat) tol d', prevent_collisions d i tol = Ok (d', false) -> d' = d.
Proof. intros d i tol d'. apply prevent_false. Qed.
(** A change leaves the times, the grades and everything before the step alone. *)
Theorem C38_effect : forall (d : sdrive R) (i : nat) tol d' b, prevent_collisions d i tol = Ok (d', b) ->
  time_s (d_cyc d') = time_s (d_cyc d) /\ grade (d_cyc d') = grade (d_cyc d) /\
  (forall j, (j < i)%nat -> nth j (mps (d_cyc d')) 0 = nth j (mps (d_cyc d)) 0 /\ row_at d' j = row_at d j) /\
  d_cyc0 d' = d_cyc0 d.
Proof.
  intros d i tol d' b H. apply prevent_frame in H. split; [apply H|]. split; [apply H|]. split; [|apply (fr_fixed _ _ _ H)].
  intros j Hj. split; [apply (fr_mps _ _ _ H); exact Hj|apply (fr_below _ _ _ H); exact Hj].
Qed.
(** So every run, with whatever options, ends: with a result or with an exception of the code. *)
Theorem C38_runs_end : forall (d : sdrive R) (ovr : option (list R)), wf_sd d ->
  (forall s, sim_drive_walk d s ovr <> Err OutOfFuel) /\ (forall s, sim_drive d s ovr <> Err OutOfFuel).
Proof. intros d ovr W. split; intros s; [apply walk_nf|apply drive_nf]; exact W. Qed.
Example C38_case : sim_drive hev_trip None None <> Err OutOfFuel /\ sim_drive dash None None <> Err OutOfFuel.
Proof.
  split; apply C38_runs_end; (split; [repeat split|split; [repeat split|reflexivity]]).
Qed.
Example C38_run : match sim_drive_walk (coasting demo_conv) 0.5%float None with
  | Ok d => match prevent_collisions d 9 None with Ok (_, b) => negb b | Err _ => false end | Err _ => false end = true.
Proof. vm_compute. reflexivity. Qed.

(** ** C40 *)
Theorem C40_bounds : forall (a b h s0 vdes delta v vl gap dt : R), 0 <= v -> 0 <= dt ->
  0 <= idm_speed a b h s0 vdes delta v vl gap dt <= v + Rabs a * dt.
Proof. exact idm_bounds. Qed.
Theorem C40_no_desire : forall (a b h s0 vdes delta v vl gap dt : R), vdes <= 0 -> idm_speed a b h s0 vdes delta v vl gap dt = 0.
Proof. exact idm_stop. Qed.
Theorem C40_model : forall (a b h s0 vdes delta v vl gap dt : R), 0 < vdes ->
  idm_speed a b h s0 vdes delta v vl gap dt =
  Rmax 0 (v + idm_acceleration (Rabs a) (Rabs b) (Rmax 0 h) (Rmax 0 s0) vdes delta v vl (Rmax gap (1 / 100)) * dt).
Proof. exact idm_textbook. Qed.
(** What it is applied to: own and lead vehicle at the previous sample, and the gap between them. *)
Theorem C40_applied : forall (d d' : sdrive R) (i : nat), wf_sd d -> d_cache d = build_cache (d_cyc0 d) -> (1 <= i < clen (d_cyc d))%nat ->
  set_speed_for_target_gap d i = Ok d' ->
  let s := d_sp d in let tgt := idm_target_speed_m_per_s (ctl (row_at d i)) in
  exists vdes, (0 < tgt -> vdes = tgt) /\
    (tgt <= 0 -> In vdes (mps (d_cyc0 d)) /\ forall x, In x (mps (d_cyc0 d)) -> x <= vdes) /\
    nth i (mps (d_cyc d')) 0 =
      idm_speed (idm_accel_m_per_s2 s) (idm_decel_m_per_s2 s) (idm_dt_headway_s s) (idm_minimum_gap_m s) vdes
        (idm_delta s) (speed d (i - 1)) (nth (i - 1) (mps (d_cyc0 d)) 0)
        (trapezoid (d_cyc0 d) 0 (i - 1) + Rmax 0 (idm_minimum_gap_m s) - trapezoid (d_cyc d) 0 (i - 1)) (step_dt d i) /\
    (forall j, j <> i -> nth j (mps (d_cyc d')) 0 = nth j (mps (d_cyc d)) 0) /\
    time_s (d_cyc d') = time_s (d_cyc d) /\ grade (d_cyc d') = grade (d_cyc d) /\ d_rows d' = d_rows d.
Proof. exact gap_speed_full. Qed.
(** The desired speed at the distance driven so far. *)
Theorem C40_target : forall (d : sdrive R) (i : nat),
  let x := Rsum (firstn i (dist_m (d_cyc d))) in
  (idm_v_desired_by_distance (d_sp d) = None -> idm_target d i = Ok (idm_v_desired_m_per_s (d_sp d))) /\
  (forall tbl k dk v, idm_v_desired_by_distance (d_sp d) = Some tbl ->
     StronglySorted (fun e e' : R * R => fst e <= fst e') tbl -> nth_error tbl k = Some (dk, v) -> dk <= x ->
     (forall j e, (k < j)%nat -> nth_error tbl j = Some e -> x < fst e) -> idm_target d i = Ok v) /\
  (forall e0 v0 r, idm_v_desired_by_distance (d_sp d) = Some ((e0, v0) :: r) -> x < e0 -> idm_target d i = Ok v0) /\
  (idm_v_desired_by_distance (d_sp d) = Some [] -> idm_target d i = Err IndexError).
Proof.
  intros d i x. split; [apply target_fixed|]. split; [intros tbl k dk v; apply target_table|]. split; [|apply target_empty].
  intros e0 v0 r. apply target_before.
Qed.
Example C40_case : 0 <= idm_speed 1 (3/2) 1 2 30 4 10 8 (-5) 1 <= 11 /\ idm_speed 1 (3/2) 1 2 0 4 10 8 20 1 = 0.
Proof.
  split; [|apply C40_no_desire; lra]. pose proof (C40_bounds 1 (3/2) 1 2 30 4 10 8 (-5) 1 ltac:(lra) ltac:(lra)) as Q.
  rewrite Rabs_right in Q by lra. lra.
Qed.
Example C40_case_applied : exists d', set_speed_for_target_gap hev_trip 1 = Ok d' /\
  nth 1 (mps (d_cyc d')) 0 = idm_speed 1 (3/2) 1 2 9 4 0 0 2 2.
Proof.
  assert (WC : wf (demo_trip (F := R))) by (repeat split).
  assert (W : wf_sd hev_trip) by (split; [exact WC|split; [exact WC|reflexivity]]).
  assert (E : exists d', set_speed_for_target_gap hev_trip 1 = Ok d').
  { unfold set_speed_for_target_gap, next_speed_by_idm. rewrite start_distance by (cbn; auto; lia). cbn [bindR]. eauto. }
  destruct E as (d' & E). exists d'. split; [exact E|].
  destruct (C40_applied hev_trip d' 1 W eq_refl ltac:(cbn; lia) E) as (vd & _ & V & -> & _).
  destruct V as (V1 & V2); [cbn; unR; lra|].
  assert (vd = 9) as ->.
  { specialize (V2 9). cbn in V1, V2. unfold z in V1, V2. revert V1 V2. unR. intros V1 V2.
    specialize (V2 (or_intror (or_intror (or_introl eq_refl)))). lra. }
  assert (A : idm_accel_m_per_s2 (d_sp hev_trip) = 1) by (unfold hev_trip; demo_num).
  assert (B : idm_decel_m_per_s2 (d_sp hev_trip) = 3/2) by (unfold hev_trip; demo_num).
  assert (C : idm_minimum_gap_m (d_sp hev_trip) = 2) by (unfold hev_trip; demo_num).
  assert (D : idm_dt_headway_s (d_sp hev_trip) = 1) by (unfold hev_trip; demo_num).
  assert (G : idm_delta (d_sp hev_trip) = 4) by (unfold hev_trip; demo_num).
  assert (T : step_dt hev_trip 1 = 2) by (unfold step_dt, hev_trip, demo_sd, new_sd, demo_trip, z; cbn -[IZR]; unR; lra).
  assert (V : speed hev_trip 0 = 0) by (unfold speed; cbn; reflexivity).
  assert (X : nth 0 (mps (d_cyc0 hev_trip)) 0 = 0) by reflexivity.
  rewrite A, B, C, D, G, T. cbn [Nat.sub trapezoid]. rewrite V, X. f_equal. rewrite Rmax_right by lra. lra.
Qed.
Definition follow (tbl : option (list (float * float))) : list float * list float :=
  match sim_drive_walk (let d := new_sd demo_conv demo_props (demo_sp false false true) demo_trip in
                        with_sp d (sp_idm (d_sp d) tbl)) 0.5%float None with
  | Ok d => (mps (d_cyc d), map (fun r => idm_target_speed_m_per_s (ctl r)) (d_rows d)) | Err _ => ([], []) end.
Example C40_run : follow None = ([0; 0; 1.875; 2.8660267131088464; 5.8502845786035325],
    [0; 33.33; 33.33; 33.33; 33.33])%float /\
  snd (follow (Some [(0, 20); (3.75, 25); (5, 15); (100, 40)]%float)) = [0; 20; 20; 25; 15]%float /\
  map (fun g => idm_speed 1 1.5 1 2 33.33 4 10 8 g 1)%float [-5; 0; 0.005; 10; 20; 50; 1000]%float =
    [0; 0; 0; 6.9256382982966267; 9.9753321439665346; 10.82924642075411; 10.991490133343749]%float.
Proof. vm_compute. repeat split. Qed.
