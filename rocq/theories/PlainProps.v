(** Properties C100-C104: what the results of a run depend on (python/fastsim/simdrive.py).  Each group of
    theorems is followed by concrete cases that meet its hypotheses ([_run]: the model executed in
    binary64; [_case]: an instance over the reals). *)
From Coq Require Import Floats Lia.
From Verif Require Import Num FloatNum Numpy ListFacts CycleModel CycleSpec VehModel SimModel SimState
  WalkModel FrameProofs WalkProofs SimSpec SimDemo SimProps WalkSpec WalkProofs2 PlainSpec PlainProofs PlainProofs2 PlainProofs3
  PlainProofs4
  PlainProofs5 PostModel.
Local Open Scope R_scope.
Local Set Warnings "-inexact-float".

(** ** C100: the future of the trace does not change the past of a run *)
Theorem C100_causal : forall (v : vehicle R) pr sp (c c' : cyc R) (k : nat) s d d',
  wf c -> wf c' -> changes_cycle sp = false -> same_until k c c' ->
  sim_drive_walk (new_sd v pr sp c) s None = Ok d -> sim_drive_walk (new_sd v pr sp c') s None = Ok d' ->
  forall i, (i < k)%nat -> row_at d i = row_at d' i.
Proof. intros v pr sp c c' k s d d' W W' C U X Y. exact (causal_walk v pr sp c c' k s None None d d' W W' C U (same_aux_none _ _ _) X Y). Qed.
Theorem C100_drive : forall (v : vehicle R) pr sp (c c' : cyc R) (k : nat) (init_soc : option R) d d',
  wf c -> wf c' -> changes_cycle sp = false -> same_until k c c' ->
  init_soc <> None \/ veh_pt_type v <> HEV ->
  sim_drive (new_sd v pr sp c) init_soc None = Ok d -> sim_drive (new_sd v pr sp c') init_soc None = Ok d' ->
  forall i, (i < k)%nat -> row_at d i = row_at d' i.
Proof.
  intros v pr sp c c' k si d d' W W' C U H X Y.
  rewrite drive_is_walk in X by exact H. rewrite drive_is_walk in Y by exact H. rewrite new_count in X, Y.
  exact (causal_walk v pr sp c c' k _ None None d d' W W' C U (same_aux_none _ _ _) X Y).
Qed.
(** With load overrides of the right lengths that are still going to be used after sample [k]. *)
Theorem C100_override : forall (v : vehicle R) pr sp (c c' : cyc R) (k : nat) s (l l' : list R) d d',
  wf c -> wf c' -> changes_cycle sp = false -> same_until k c c' ->
  length l = length (time_s c) -> length l' = length (time_s c') -> firstn k l = firstn k l' ->
  (exists j, (k <= j < length l)%nat /\ nth j l 0 <> 0) -> (exists j, (k <= j < length l')%nat /\ nth j l' 0 <> 0) ->
  sim_drive_walk (new_sd v pr sp c) s (Some l) = Ok d -> sim_drive_walk (new_sd v pr sp c') s (Some l') = Ok d' ->
  forall i, (i < k)%nat -> row_at d i = row_at d' i.
Proof.
  intros v pr sp c c' k s l l' d d' W W' C U L L' E (j & Hj & Nj) (j' & Hj' & Nj') X Y.
  refine (causal_walk v pr sp c c' k s (Some l) (Some l') d d' W W' C U _ X Y).
  assert (G : forall (m : list R) n b i, length m = n -> (k <= b < length m)%nat -> nth b m 0 <> 0 -> (i < k)%nat ->
              aux_start (Some m) n i = nth i m 0 /\ all_zero (map (aux_start (Some m) n) (seq i (n - i))) = false).
  { intros m n b i <- Hb Nb Hi. unfold aux_start, is_override. rewrite Nat.eqb_refl. split; [reflexivity|].
    destruct (all_zero _) eqn:Z; [|reflexivity]. exfalso. apply Nb.
    unfold all_zero in Z. rewrite forallb_forall in Z. specialize (Z (nth b m 0)).
    assert (I : In (nth b m 0) (map (fun i0 : nat => nth i0 m n0) (seq i (length m - i)))).
    { apply in_map_iff. exists b. split; [reflexivity|]. apply in_seq. lia. }
    specialize (Z I). unR. now destruct (Reqb_spec (nth b m 0) 0). }
  intros i Hi. unfold clen. destruct (G l _ j i L Hj Nj Hi) as [-> ->], (G l' _ j' i L' Hj' Nj' Hi) as [-> ->].
  split; [apply (firstn_nth _ _ k); auto|reflexivity].
Qed.
(** An override whose remaining entries are all zero is replaced by the vehicle's own load, so a later
    non-zero entry changes earlier samples. *)
Theorem C100_zero_override_refuted : exists (l l' : list float) (d d' : sdrive float),
  firstn 4 l = firstn 4 l' /\
  sim_drive_walk (demo_sd demo_conv demo_trip) 0.5%float (Some l) = Ok d /\
  sim_drive_walk (demo_sd demo_conv demo_trip) 0.5%float (Some l') = Ok d' /\
  PrimFloat.ltb (fs_kw_out_ach (fc (row_at d' 1))) (fs_kw_out_ach (fc (row_at d 1))) = true.
Proof.
  destruct (ok_witness (do a <- sim_drive_walk (demo_sd demo_conv demo_trip) 0.5%float (Some [0; 0; 0; 0; 0]%float);
      do b <- sim_drive_walk (demo_sd demo_conv demo_trip) 0.5%float (Some [0; 0; 0; 0; 1]%float); Ok (a, b))
    (fun p => PrimFloat.ltb (fs_kw_out_ach (fc (row_at (snd p) 1))) (fs_kw_out_ach (fc (row_at (fst p) 1))))) as ([a b] & E & Q).
  { vm_compute. reflexivity. }
  exists [0; 0; 0; 0; 0]%float, [0; 0; 0; 0; 1]%float.
  destruct (sim_drive_walk _ _ (Some [0; 0; 0; 0; 0]%float)) as [x|]; [|discriminate].
  destruct (sim_drive_walk _ _ (Some [0; 0; 0; 0; 1]%float)) as [y|]; [|discriminate]. cbn in E. inversion E; subst.
  exists a, b. repeat split; auto.
Qed.
(** The charge balancing of a hybrid starts a run where an earlier run over the whole cycle ended. *)
Definition first_three {F} (c : cyc F) : cyc F :=
  mkcyc (firstn 3 (time_s c)) (firstn 3 (mps c)) (firstn 3 (grade c)) (firstn 3 (road_type c)).
Theorem C100_balanced_hybrid_refuted : exists (d d' : sdrive float),
  sim_drive (demo_sd demo_hev demo_trip) None None = Ok d /\
  sim_drive (demo_sd demo_hev (first_three demo_trip)) None None = Ok d' /\
  PrimFloat.eqb (soc (dec (row_at d' 0))) (soc (dec (row_at d 0))) = false.
Proof.
  destruct (ok_witness (do a <- sim_drive (demo_sd demo_hev demo_trip) None None;
      do b <- sim_drive (demo_sd demo_hev (first_three demo_trip)) None None; Ok (a, b))
    (fun p => negb (PrimFloat.eqb (soc (dec (row_at (snd p) 0))) (soc (dec (row_at (fst p) 0)))))) as ([a b] & E & Q).
  { vm_compute. reflexivity. }
  destruct (sim_drive (demo_sd demo_hev demo_trip) None None) as [x|]; [|discriminate].
  destruct (sim_drive (demo_sd demo_hev (first_three demo_trip)) None None) as [y|]; [|discriminate]. cbn in E. inversion E; subst.
  exists a, b. repeat split; auto. now apply Bool.negb_true_iff in Q.
Qed.
Example C100_case : exists d d', sim_drive_walk (demo_sd demo_hev demo_trip) (1/2) None = Ok d /\
  sim_drive_walk (demo_sd demo_hev (first_three demo_trip)) (1/2) None = Ok d' /\
  row_at d 2 = row_at d' 2 /\ length (d_rows d) = 5%nat /\ length (d_rows d') = 3%nat.
Proof.
  assert (S : veh_pt_type (demo_hev (F := R)) = CONV \/ (nltb (max_soc (demo_hev (F := R))) (1/2) = false /\ nltb (1/2) (min_soc (demo_hev (F := R))) = false)).
  { right. unR. rewrite !Rltb_false. demo_num. }
  destruct (walk_total (demo_sd demo_hev demo_trip) (1/2) None) as (d & X); [cbn; lia|reflexivity|exact S|].
  destruct (walk_total (demo_sd demo_hev (first_three demo_trip)) (1/2) None) as (d' & Y); [cbn; lia|reflexivity|exact S|].
  assert (W' : wf (first_three (demo_trip (F := R)))) by (repeat split).
  exists d, d'. split; [exact X|]. split; [exact Y|]. split.
  - refine (C100_causal demo_hev _ (demo_sp false false false) demo_trip (first_three demo_trip) 3 (1/2) d d' demo_trip_wf W' eq_refl _ X Y 2 _); [|lia].
    split; [cbn; lia|]. split; [cbn; lia|]. repeat split.
  - split; [rewrite (wk_len _ _ _ _ (walk_walked _ _ _ _ (new_wf _ _ _ _ demo_trip_wf) X))
           |rewrite (wk_len _ _ _ _ (walk_walked _ _ _ _ (new_wf _ _ _ _ W') Y))]; reflexivity.
Qed.

(** ** C101: when the clock starts does not matter *)
Theorem C101_clock : forall (v : vehicle R) pr sp (c : cyc R) t (init_soc : option R) (ovr : option (list R)),
  wf c -> changes_cycle sp = false ->
  same_outcome (sim_drive (new_sd v pr sp c) init_soc ovr) (sim_drive (new_sd v pr sp (later t c)) init_soc ovr).
Proof. intros. apply twin_same_outcome. now apply shift_twin. Qed.
(** The figures computed after a run agree as well, if it starts at rest and an override starts with 0. *)
Theorem C101_figures : forall (v : vehicle R) pr sp (c : cyc R) t (init_soc : option R) (ovr : option (list R)) d d',
  wf c -> changes_cycle sp = false -> nth 0 (mps c) 0 = 0 ->
  (forall l, ovr = Some l -> length l = length (time_s c) -> nth 0 l 0 = 0) ->
  sim_drive (new_sd v pr sp c) init_soc ovr = Ok d -> sim_drive (new_sd v pr sp (later t c)) init_soc ovr = Ok d' ->
  set_post_scalars d = set_post_scalars d'.
Proof.
  intros v pr sp c t si ovr d d' W C V0 AX X Y. symmetry.
  apply (sh_post v pr sp c t ovr); auto; [right; eauto|right; eauto|].
  pose proof (C101_clock v pr sp c t si ovr W C) as S. now rewrite X, Y in S.
Qed.
(** Otherwise they do not: the time stamp of the first sample counts as the length of a step before it.  An
    override with 1 kW at the first sample has 100 kJ more load on a cycle that begins at 100 s; and a cycle
    that begins with 10 m/s at 100 s is reported as missed although it is met at every sample. *)
Definition starting (t : Z) (v0 : Z) : cyc float :=
  mkcyc (map (fun x => z (t + x)) [0; 1; 2; 3]%Z) (map z [v0; 10; 10; 10]%Z) (repeat 0%float 4) (repeat 0%float 4).
Theorem C101_load_refuted : exists (d d' : sdrive float),
  sim_drive (demo_sd demo_conv (starting 0 0)) None (Some [1; 1; 1; 1]%float) = Ok d /\
  sim_drive (demo_sd demo_conv (starting 100 0)) None (Some [1; 1; 1; 1]%float) = Ok d' /\
  aux_kj (set_post_scalars d) = 3%float /\ aux_kj (set_post_scalars d') = 103%float.
Proof.
  destruct (ok_witness (sim_drive (demo_sd demo_conv (starting 0 0)) None (Some [1; 1; 1; 1]%float))
    (fun d => PrimFloat.eqb (aux_kj (set_post_scalars d)) 3%float)) as (d & X & P); [vm_compute; reflexivity|].
  destruct (ok_witness (sim_drive (demo_sd demo_conv (starting 100 0)) None (Some [1; 1; 1; 1]%float))
    (fun d => PrimFloat.eqb (aux_kj (set_post_scalars d)) 103%float)) as (d' & Y & Q); [vm_compute; reflexivity|].
  exists d, d'. split; [exact X|]. split; [exact Y|].
  vm_compute in X. vm_compute in Y. injection X as <-. injection Y as <-. split; vm_compute; reflexivity.
Qed.
Theorem C101_trace_miss_refuted : exists (d d' : sdrive float),
  sim_drive (demo_sd demo_conv (starting 0 10)) None None = Ok d /\
  sim_drive (demo_sd demo_conv (starting 100 10)) None None = Ok d' /\
  (forallb (fun r => PrimFloat.eqb (mps_ach (spd r)) 10%float) (d_rows d')
   && negb (trace_miss (set_post_scalars d)) && trace_miss (set_post_scalars d'))%bool = true.
Proof.
  destruct (ok_witness (do a <- sim_drive (demo_sd demo_conv (starting 0 10)) None None;
      do b <- sim_drive (demo_sd demo_conv (starting 100 10)) None None; Ok (a, b))
    (fun p => forallb (fun r => PrimFloat.eqb (mps_ach (spd r)) 10%float) (d_rows (snd p))
      && negb (trace_miss (set_post_scalars (fst p))) && trace_miss (set_post_scalars (snd p)))%bool) as ([a b] & E & Q).
  { vm_compute. reflexivity. }
  destruct (sim_drive (demo_sd demo_conv (starting 0 10)) None None) as [x|]; [|discriminate].
  destruct (sim_drive (demo_sd demo_conv (starting 100 10)) None None) as [y|]; [|discriminate]. cbn in E. inversion E; subst.
  exists a, b. repeat split; auto.
Qed.
Example C101_run :
  let shifted := mkcyc [100; 102; 104; 105; 108]%float (mps demo_trip) (grade demo_trip) (road_type demo_trip) in
  match sim_drive (demo_sd demo_hev demo_trip) None None, sim_drive (demo_sd demo_hev shifted) None None with
  | Ok d, Ok d' => map (fun r => fs_kwh_out_ach (fc r)) (d_rows d) = map (fun r => fs_kwh_out_ach (fc r)) (d_rows d') /\
                   map (fun r => soc (dec r)) (d_rows d) = map (fun r => soc (dec r)) (d_rows d')
  | _, _ => False end.
Proof. vm_compute. split; reflexivity. Qed.

(** ** C102: a run reads the derived attributes, not the inputs of the derivation; the tank has no bottom *)
Theorem C102_attributes : forall (v w : vehicle R) pr sp (c : cyc R) (init_soc : option R) (ovr : option (list R)),
  wf c -> changes_cycle sp = false -> drives_alike v w ->
  same_outcome (sim_drive (new_sd v pr sp c) init_soc ovr) (sim_drive (new_sd w pr sp c) init_soc ovr).
Proof. intros. apply twin_same_outcome. now apply alike_twin. Qed.
(** 'No more fuel is used than the tank holds' is false: every run that uses fuel is, with an empty tank,
    the same run. *)
Theorem C102_tank : forall (v : vehicle R) pr sp (c : cyc R) (init_soc : option R) (ovr : option (list R)) d,
  wf c -> changes_cycle sp = false -> sim_drive (new_sd v pr sp c) init_soc ovr = Ok d -> 0 < fuel_used_kwh d ->
  exists d', sim_drive (new_sd (with_tank v 0) pr sp c) init_soc ovr = Ok d' /\ fuel_used_kwh d' = fuel_used_kwh d /\
             fs_kwh (with_tank v 0) < fuel_used_kwh d'.
Proof.
  intros v pr sp c si ovr d W C X P.
  pose proof (C102_attributes v (with_tank v 0) pr sp c si ovr W C (tank_alike v 0)) as S. rewrite X in S. cbn in S.
  destruct (sim_drive (new_sd (with_tank v 0) pr sp c) si ovr) as [d'|]; [|contradiction]. exists d'. split; [reflexivity|].
  unfold fuel_used_kwh in *. rewrite <- S. split; [reflexivity|exact P].
Qed.
Theorem C102_within_tank_refuted : exists (d : sdrive float),
  sim_drive (demo_sd (with_tank demo_conv 0x1p-10%float) demo_trip) None None = Ok d /\
  PrimFloat.ltb (fs_kwh (d_veh d)) (fs_kwh_out_ach (fc (row_at d 1))) = true.
Proof. apply ok_witness. vm_compute. reflexivity. Qed.
Example C102_run : match sim_drive (demo_sd demo_conv demo_trip) None None, sim_drive (demo_sd (with_tank demo_conv 0%float) demo_trip) None None with
  | Ok d, Ok d' => map (fun r => fs_kwh_out_ach (fc r)) (d_rows d') = map (fun r => fs_kwh_out_ach (fc r)) (d_rows d) /\
                   PrimFloat.ltb 0%float (fs_kwh_out_ach (fc (row_at d 1))) = true
  | _, _ => False end.
Proof. vm_compute. split; reflexivity. Qed.
Example C102_case : drives_alike (demo_hev (F := R)) (with_tank demo_hev 7) /\ with_tank demo_hev 7 <> demo_hev (F := R).
Proof.
  split; [apply tank_alike|]. intros E. apply (f_equal fs_kwh) in E. revert E. cbn. unfold z. unR. lra.
Qed.

(** ** C103: an engine-only vehicle ignores the initial state of charge *)
Theorem C103_initial_soc : forall (v : vehicle R) pr sp (c : cyc R) s s' (ovr : option (list R)) d d',
  wf c -> changes_cycle sp = false -> engine_only v ->
  sim_drive_walk (new_sd v pr sp c) s ovr = Ok d -> sim_drive_walk (new_sd v pr sp c) s' ovr = Ok d' ->
  (forall i, (1 <= i < length (d_rows d))%nat -> 0 <= aux_load d i) ->
  forall i, (1 <= i < length (d_rows d))%nat -> same_but_flags (row_at d i) (row_at d' i).
Proof. exact engine_rows. Qed.
Theorem C103_fuel : forall (v : vehicle R) pr sp (c : cyc R) s s' (ovr : option (list R)) d d',
  wf c -> changes_cycle sp = false -> engine_only v ->
  sim_drive_walk (new_sd v pr sp c) s ovr = Ok d -> sim_drive_walk (new_sd v pr sp c) s' ovr = Ok d' ->
  (forall i, (1 <= i < length (d_rows d))%nat -> 0 <= aux_load d i) ->
  fuel_used_kwh d = fuel_used_kwh d'.
Proof.
  intros v pr sp c s s' ovr d d' W C EO X Y AX.
  pose proof (engine_rows v pr sp c s s' ovr d d' W C EO X Y AX) as G. pose proof (new_wf v pr sp c W) as WD.
  pose proof (walk_walked _ _ _ _ WD X) as KX. pose proof (walk_walked _ _ _ _ WD Y) as KY.
  unfold fuel_used_kwh. f_equal. apply nth_ext with (d := 0) (d' := 0).
  - now rewrite !map_length, (wk_len _ _ _ _ KX), (wk_len _ _ _ _ KY).
  - intros i Hi. rewrite map_length in Hi.
    assert (E : forall x : sdrive R, nth i (map (fun r => fs_kwh_out_ach (fc r)) (d_rows x)) 0 = fs_kwh_out_ach (fc (row_at x i))).
    { intros x. unfold row_at. now rewrite <- (map_nth (fun r => fs_kwh_out_ach (fc r)) (d_rows x) zero_row). }
    rewrite !E. destruct i as [|i].
    + now rewrite (wk_first _ _ _ _ KX), (wk_first _ _ _ _ KY).
    + destruct (G (S i)) as (_ & _ & _ & _ & _ & _ & -> & _); [lia|reflexivity].
Qed.
(** The flags do differ. *)
Example C103_run : match sim_drive_walk (demo_sd demo_conv demo_trip) 0.1%float None, sim_drive_walk (demo_sd demo_conv demo_trip) 0.9%float None with
  | Ok d, Ok d' => map (fun r => fs_kwh_out_ach (fc r)) (d_rows d') = map (fun r => fs_kwh_out_ach (fc r)) (d_rows d) /\
                   high_acc_fc_on_tag (misc (row_at d 1)) = true /\ high_acc_fc_on_tag (misc (row_at d' 1)) = false /\
                   aux_in_kw (misc (row_at d 1)) = 0.7%float
  | _, _ => False end.
Proof. vm_compute. repeat split; reflexivity. Qed.
Example C103_case : exists d d', engine_only (demo_conv (F := R)) /\ sim_drive_walk conv_trip (1/10) None = Ok d /\
  sim_drive_walk conv_trip 17 None = Ok d' /\ length (d_rows d) = 5%nat /\ fuel_used_kwh d = fuel_used_kwh d' /\
  forall i, (1 <= i < length (d_rows d))%nat -> same_but_flags (row_at d i) (row_at d' i).
Proof.
  assert (EO : engine_only (demo_conv (F := R))).
  { unfold engine_only. repeat split; try reflexivity; [|discriminate]. demo_num. }
  destruct (walk_total conv_trip (1/10) None) as (d & X); [cbn; lia|reflexivity|now left|].
  destruct (walk_total conv_trip 17 None) as (d' & Y); [cbn; lia|reflexivity|now left|].
  assert (WD : wf_sd conv_trip) by exact (new_wf _ _ _ _ demo_trip_wf).
  assert (L : length (d_rows d) = 5%nat) by (rewrite (wk_len _ _ _ _ (walk_walked _ _ _ _ WD X)); reflexivity).
  assert (AX : forall i, (1 <= i < length (d_rows d))%nat -> 0 <= aux_load d i).
  { intros i Hi. rewrite (aux_none conv_trip None d i); [|split; [exact WD|split; [left; eauto|exact Hi]]|discriminate].
    unfold own_load, conv_trip. demo_num. }
  exists d, d'. split; [exact EO|]. split; [exact X|]. split; [exact Y|]. split; [exact L|].
  split.
  - exact (C103_fuel demo_conv demo_props (demo_sp false false false) demo_trip _ _ _ _ _ demo_trip_wf eq_refl EO X Y AX).
  - exact (C103_initial_soc demo_conv demo_props (demo_sp false false false) demo_trip _ _ _ _ _ demo_trip_wf eq_refl EO X Y AX).
Qed.

(** ** C104: a parked vehicle *)
Theorem C104_parked : forall (v : vehicle R) pr sp (c : cyc R) s (ovr : option (list R)) d,
  wf c -> changes_cycle sp = false -> (forall i, nth i (mps c) 0 = 0) ->
  sim_drive_walk (new_sd v pr sp c) s ovr = Ok d ->
  forall i, (i < length (d_rows d))%nat -> (forall j, (1 <= j <= i)%nat -> 0 <= cur_max_trans_kw_out (lims (row_at d j))) ->
  mps_ach (spd (row_at d i)) = 0 /\ dist_m_ach (spd (row_at d i)) = 0 /\ cyc_met (pwr (row_at d i)) = true /\
  let q := pwr (row_at d i) in
  drag_kw q = 0 /\ accel_kw q = 0 /\ ascent_kw q = 0 /\ rr_kw q = 0 /\ cyc_tire_inertia_kw q = 0 /\
  cyc_whl_kw_req q = 0 /\ cyc_regen_brake_kw q = 0 /\ cyc_fric_brake_kw q = 0 /\ trans_kw_out_ach q = 0 /\ trans_kw_in_ach q = 0.
Proof. exact park_rows. Qed.
(** Five samples of standing on a slope. *)
Definition parking {F} {N : Num F} (g : F) : cyc F := mkcyc (map z [0; 1; 2; 3; 4]%Z) (repeat n0 5) (repeat g 5) (repeat n0 5).
(** 'A parked vehicle stays where it is' is false: once the battery of an electric vehicle is below its
    minimum the transmission limit is negative, the zero speed counts as a missed trace, and the search for
    an achievable speed lets the vehicle roll downhill. *)
Theorem C104_stays_refuted : exists (d : sdrive float),
  sim_drive_walk (demo_sd demo_bev (parking (-0.06)%float)) 0.2%float None = Ok d /\
  (PrimFloat.ltb (cur_max_trans_kw_out (lims (row_at d 2))) 0%float && PrimFloat.ltb 0.2%float (mps_ach (spd (row_at d 2)))
   && PrimFloat.ltb 0.2%float (mps_ach (spd (row_at d 3))) && negb (cyc_met (pwr (row_at d 2))))%bool = true.
Proof. apply ok_witness. vm_compute. reflexivity. Qed.
(** A conventional vehicle whose load exceeds its engine rolls as well. *)
Example C104_roll_run : match sim_drive_walk (demo_sd (demo_veh CONV 5 0 0 0 true true 10)%float (parking (-0.06)%float)) 0.2%float None with
  | Ok d => forallb (fun r => PrimFloat.ltb 0.1%float (mps_ach (spd r))) (tl (d_rows d)) = true | Err _ => False end.
Proof. vm_compute. reflexivity. Qed.
Example C104_run : match sim_drive_walk (demo_sd demo_hev (parking (-0.06)%float)) 0.5%float None with
  | Ok d => (forallb (fun r => PrimFloat.leb 0%float (cur_max_trans_kw_out (lims r))) (d_rows d)
             && forallb (fun r => PrimFloat.eqb (mps_ach (spd r)) 0%float) (d_rows d)
             && forallb (fun r => PrimFloat.eqb (trans_kw_in_ach (pwr r)) 0%float) (d_rows d)
             && PrimFloat.ltb 0%float (cur_max_trans_kw_out (lims (row_at d 1))))%bool = true
  | Err _ => False end.
Proof. vm_compute. reflexivity. Qed.
