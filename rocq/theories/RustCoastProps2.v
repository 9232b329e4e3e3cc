(** Property C121: whole runs with eco-coasting in the two implementations. *)
From Coq Require Import Floats Lia Lra.
From Verif Require Import Num FloatNum Numpy ListFacts CycleModel CycleSpec FrameProofs VehModel SimModel SimState WalkModel WalkProofs SimSpec SimDemo CoastSpec ConcatProofs PlainProofs SimProofs1
  RustModel RustWalkModel RustCycModel RustModsModel RustSpec RustCycSpec RustModsSpec RustProofs3 RustModsProofs RustModsProofs2 RustProps RustModsProps
  RustCoastSpec RustCoastProofs3 RustCoastProofs4 RustCoastProofs5 CoastProps RustCoastProps.
Local Open Scope R_scope.
Local Set Warnings "-inexact-float".

(** ** C121 *)
(** A run of Python is the run of Rust, as far as none of its steps is a borderline case. *)
Theorem C121_walk : forall d s ovr dp, coast_run d ovr -> ordinary_run d s ovr -> sim_drive_walk d s ovr = Ok dp ->
  exists dr, r_full_walk d s ovr = Ok dr /\ d_cyc dr = d_cyc dp /\ length (d_rows dr) = length (d_rows dp) /\
    forall j, (j < length (d_rows dp))%nat -> same_but_fuel (row_at dp j) (row_at dr j).
Proof.
  intros d s ovr dp P O E. destruct (coast_walk d s ovr dp P O E) as (dr & R & T). pose proof (e_kin _ _ _ T) as K.
  exists dr. split; [exact R|]. split; [apply K|]. split; [apply K|]. intros j _. apply K.
Qed.
Theorem C121_identical : forall d s ovr dp, coast_run d ovr -> ordinary_run d s ovr -> sim_drive_walk d s ovr = Ok dp -> below_rated dp ->
  r_full_walk d s ovr = Ok dp.
Proof.
  intros d s ovr dp P O E B. destruct (coast_walk d s ovr dp P O E) as (dr & R & T). now rewrite <- (near_equal _ _ _ T B).
Qed.
(** On a trace slower than the speed set for the start of coasts no coast is due: both complete, and agree. *)
Theorem C121_below_start : forall d s ovr, coast_run d ovr -> (0 < clen (d_cyc d))%nat -> soc_ok (d_veh d) s ->
  0 < coast_start_speed_m_per_s (d_sp d) -> (forall v, In v (mps (d_cyc0 d)) -> v < coast_start_speed_m_per_s (d_sp d)) ->
  exists dp dr, sim_drive_walk d s ovr = Ok dp /\ r_full_walk d s ovr = Ok dr /\ d_cyc dr = d_cyc dp /\ length (d_rows dr) = length (d_rows dp) /\
    (forall j, (j < length (d_rows dp))%nat -> same_but_fuel (row_at dp j) (row_at dr j)) /\ (below_rated dp -> dr = dp).
Proof.
  intros d s ovr P L S S0 SB. destruct (init_total d s ovr L (soc_flags _ _ S)) as (d1 & E1). pose proof (idle_init d s ovr d1 P E1) as Z.
  assert (OR : ordinary_run d s ovr). { apply idle_run; [exact P|]. intros e m u _ _ ZU. exact (below_start_due _ _ u S0 SB ZU). }
  destruct (idle_completes _ _ (fun u => below_start_due _ _ u S0 SB) (length (time_s (d_cyc d1))) d1 Z) as (d2 & E2).
  { rewrite (v_len _ (q_live _ (z_coasting _ _ _ Z))). lia. }
  assert (E : sim_drive_walk d s ovr = Ok (post_accel d2)) by (unfold sim_drive_walk; rewrite E1; cbn [bindR]; rewrite E2; reflexivity).
  destruct (C121_walk d s ovr _ P OR E) as (dr & R & A). exists (post_accel d2), dr. split; [exact E|]. split; [exact R|]. split; [apply A|]. split; [apply A|]. split; [apply A|].
  intros B. rewrite (C121_identical d s ovr _ P OR E B) in R. now injection R.
Qed.
(** Without such a speed, a run whose speeds stay below the one at which the brakes are used. *)
Theorem C121_slow : forall d s ovr dp, coast_run d ovr -> sim_drive_walk d s ovr = Ok dp -> coast_start_speed_m_per_s (d_sp d) <= 0 ->
  (forall j, (S j < length (d_rows dp))%nat -> speed dp j < coast_brake_start_speed_m_per_s (d_sp d)) ->
  exists dr, r_full_walk d s ovr = Ok dr /\ d_cyc dr = d_cyc dp /\ length (d_rows dr) = length (d_rows dp) /\
    (forall j, (j < length (d_rows dp))%nat -> same_but_fuel (row_at dp j) (row_at dr j)) /\ (below_rated dp -> dr = dp).
Proof.
  intros d s ovr dp P E S0 SB.
  assert (OR : ordinary_run d s ovr).
  { apply idle_run; [exact P|]. intros d1 m u E1 A Z H. left. rewrite (z_sp _ _ _ Z). split; [exact S0|].
    unfold sim_drive_walk in E. rewrite E1 in E. cbn [bindR] in E. inv_ok E. rename x into d2. injection E as <-.
    pose proof (idle_init d s ovr d1 P E1) as Z1. pose proof (q_live _ (z_coasting _ _ _ Z1)) as L1. pose proof (q_live _ (z_coasting _ _ _ Z)) as LU.
    assert (RW : row_at d2 (d_i u - 1) = row_at u (d_i u - 1)) by (apply (slow_due m d1 u (length (time_s (d_cyc d1))) d2); auto; apply L1).
    assert (LN : length (d_rows d2) = length (d_rows u)).
    { destruct (py_frame _ d1 d2 (v_pos _ L1) (v_len _ L1) E0) as (_ & -> & _). rewrite (v_len _ L1), (v_len _ LU).
      rewrite <- (q_times _ (z_coasting _ _ _ Z1)), <- (q_times _ (z_coasting _ _ _ Z)), (z_cyc0 _ _ _ Z1), (z_cyc0 _ _ _ Z). reflexivity. }
    pose proof (v_pos _ LU) as PU. specialize (SB (d_i u - 1)%nat). rewrite post_accel_len in SB. unfold speed in *. destruct (post_row d2 (d_i u - 1)) as [a RA]. rewrite RA in SB.
    change (mps_ach (spd (row_accel a (row_at d2 (d_i u - 1))))) with (mps_ach (spd (row_at d2 (d_i u - 1)))) in SB. rewrite RW in SB. apply SB. lia. }
  destruct (C121_walk d s ovr _ P OR E) as (dr & R & A). exists dr. split; [exact R|]. split; [apply A|]. split; [apply A|]. split; [apply A|].
  intros B. rewrite (C121_identical d s ovr _ P OR E B) in R. now injection R.
Qed.

(** *** Cases *)
Section Cases.
  Context {F : Type} {N : Num F}.
  (** Coasting allowed from the speed [v] on. *)
  Definition coast_from (v : F) : simparams F :=
    mksimparams true false n1 (- lit 1 2)%num (lit 5 10000) 5 n1 (lit 1 1000) (lit 1 1000) 30
      (lit 9 10) 100 (lit 1 1000000000) (lit 2 1000) true false (z 40) (- lit 25 10)%num (lit 75 10) v (z 20)
      false (lit 3333 100) n1 n2 (z 4) n1 (lit 15 10) None (lit 3 10).
  (** The trip of C118, of at most 9 m/s, with coasts from 10 m/s. *)
  Definition strolling : sdrive F := new_sd demo_conv demo_props (coast_from (z 10)) flat_trip.
  (** A start to 6 m/s. *)
  Definition pulling : sdrive F := new_sd demo_conv demo_props (coast_from n0) (mkcyc (map z [0; 2]%Z) (map z [0; 6]%Z) (repeat n0 2) (repeat n0 2)).
  (** On a level road, coasts from 9 m/s on, to the stop at 67 m. *)
  Definition braking_trip : sdrive F := new_sd demo_conv demo_props (coast_from (z 9)) (hz n0 [0; 4; 8; 10; 10; 10; 10; 10; 5; 0; 0; 0; 0]%Z).
End Cases.
Lemma strolling_run : coast_run strolling None.
Proof.
  constructor; try reflexivity.
  - constructor; try (repeat split; fail); [apply flat_inc|apply demo_comparable|now apply conv_loads|discriminate].
  - intros g G. cbn in G. repeat destruct G as [<-|G]; try contradiction; reflexivity.
Qed.
Lemma pulling_run : coast_run pulling None.
Proof.
  constructor; try reflexivity.
  - constructor; try (repeat split; fail); [|apply demo_comparable|now apply conv_loads|discriminate].
    apply increasing_SS. cbn. unfold z. unR. repeat constructor; lra.
  - intros g G. cbn in G. repeat destruct G as [<-|G]; try contradiction; reflexivity.
Qed.
(** Over the reals: a trip slower than the speed for coasts; a start; and a coast that starts 25 m before a stop. *)
Example C121_case : (exists dp dr, sim_drive_walk strolling (1/2) None = Ok dp /\ r_full_walk strolling (1/2) None = Ok dr /\ d_cyc dr = d_cyc dp) /\
  coast_run pulling None /\ (exists dp, sim_drive_walk pulling (1/2) None = Ok dp /\ length (d_rows dp) = 2%nat /\ speed dp 0 < coast_brake_start_speed_m_per_s (d_sp (pulling (F := R)))) /\
  ordinary_start nearing 4.
Proof.
  split; [|split; [exact pulling_run|split]].
  - destruct (C121_below_start strolling (1/2) None strolling_run) as (dp & dr & E & E' & C & _); eauto.
    + cbn. lia.
    + left. reflexivity.
    + cbn. unfold z. unR. lra.
    + intros v V. cbn in V. unfold z in *. unR. cbn. unfold z. unR. repeat destruct V as [<-|V]; try contradiction; lra.
  - destruct (init_total (pulling (F := R)) (1/2) None) as (d1 & E1); [cbn; lia|left; reflexivity|].
    pose proof (idle_init _ _ _ _ pulling_run E1) as Z. pose proof (v_len _ (q_live _ (z_coasting _ _ _ Z))) as L1.
    destruct (init_rows _ _ _ _ E1) as (i1 & i2 & i3 & i4 & i5 & i6 & i7 & i8 & i9 & i10 & i11 & i12 & i13).
    assert (SP : speed d1 0 = 0) by (unfold speed; rewrite i12; cbn; unfold z; unR; reflexivity).
    assert (BR : coast_brake_start_speed_m_per_s (d_sp (pulling (F := R))) = 75/10) by (cbn; unfold lit; unR; lra).
    assert (LR : length (d_rows d1) = 2%nat) by (rewrite i9; reflexivity).
    destruct (idle_step _ _ d1 Z) as (d2 & E2 & Z2 & I2 & L2).
    { rewrite i7, LR. lia. }
    { left. rewrite i3, i7. change (1 - 1)%nat with 0%nat. rewrite SP, BR. cbn. unR. lra. }
    pose proof (v_len _ (q_live _ (z_coasting _ _ _ Z2))) as L3. exists (post_accel d2). split; [|split].
    + unfold sim_drive_walk. rewrite E1. cbn [bindR]. rewrite <- L1, LR. cbn [walk_loop]. rewrite <- L1, LR, i7. cbn [Nat.ltb Nat.leb]. rewrite E2. cbn [bindR].
      rewrite <- L3, L2, I2, LR, i7. reflexivity.
    + rewrite post_accel_len, L2. exact LR.
    + unfold speed. destruct (post_row d2 0) as [a ->]. change (mps_ach (spd (row_accel a (row_at d2 0)))) with (speed d2 0).
      assert (row_at d2 0 = row_at d1 0) as RW. { assert (HI : (1 <= d_i d1 < length (d_rows d1))%nat) by lia. pose proof (step_stepped d1 d2 HI E2) as ST. apply (st_below _ _ _ ST). lia. }
      unfold speed in *. rewrite RW, SP, BR. lra.
  - destruct near_plan as (d' & x & E & OP). exists 25, d', x. split; [exact near_setting|]. split; [exact E|]. split; [exact OP|].
    assert (V : coast_brake_start_speed_m_per_s (d_sp (nearing (F := R))) < speed nearing (4 - 1)) by (unfold speed; cbn; unfold lit, z; unR; lra).
    split; [lra|]. split; [|discriminate]. intros k _. unfold coast_at, row_at, nearing, at_speed. do 13 (destruct k as [|k]; [reflexivity|]). destruct k; reflexivity.
Qed.
(** A coast and the braking after it in a whole run, the same in both, and 2 s of delay after it. *)
Example C121_run : let f r := (mps_ach (spd r), impose_coast (ctl r), coast_delay_index (ctl r), fs_kw_out_ach (fc r)) in
  shown (sim_drive_walk (braking_trip (F := float)) 0.5%float None) f = shown (r_full_walk braking_trip 0.5%float None) f /\
  option_map (filter (fun b => b)) (shown (r_full_walk (braking_trip (F := float)) 0.5%float None) (fun r => impose_coast (ctl r))) = Some (repeat true 7).
Proof. vm_compute. repeat split. Qed.
