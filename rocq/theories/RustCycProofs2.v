(** Proofs of C117: editing a compiled cycle, and micro-trips. *)
From Verif Require Import Num Numpy ListFacts CycleModel CycleSpec CycleProofs1 CycleProofs2 RateProofs MicrotripProofs TargetProofs
  DistProofs GradeProofs JerkProofs SimModel RustModel RustWalkModel RustPostModel RustCycModel RustCycSpec RustCycProofs.
Local Open Scope R_scope.

(** ** Distances *)
Lemma start_fold (c : cyc R) m : forall j acc,
  fold_left (fun acc k => acc + (nth k (time_s c) n0 - nth (k - 1) (time_s c) n0) * lit 1 2 * (nth k (mps c) n0 + nth (k - 1) (mps c) n0))%num
    (seq (S j) m) acc = acc + trapezoid c j m.
Proof.
  induction m as [|m IH]; intros j acc; [cbn; lra|]. cbn [seq fold_left]. rewrite IH. cbn [trapezoid]. rewrite lit_R. unR.
  replace (S j - 1)%nat with j by lia. change (@n0 R RNum) with 0. lra.
Qed.
Lemma r_start (c : cyc R) i : (i <= length (time_s c))%nat -> r_trapz_step_start_distance c i = Ok (trapezoid c 0 (i - 1)).
Proof.
  intros H. unfold r_trapz_step_start_distance. destruct (Nat.leb_spec i (length (time_s c))); [|lia]. rewrite start_fold. f_equal. change (@n0 R RNum) with 0. lra.
Qed.
Lemma r_get_ok {A} (l : list A) i d : (i < length l)%nat -> r_get l i = Ok (nth i l d).
Proof. intros H. unfold r_get. now rewrite (nth_error_nth' _ d). Qed.
Lemma pyget_ok (l : list R) i : (i < length l)%nat -> pyget l (Z.of_nat i) = r_get l i.
Proof. intros H. rewrite pyget_get by lia. now rewrite Nat2Z.id. Qed.
Lemma pyget_before (l : list R) i : (1 <= i)%nat -> pyget l (Z.of_nat i - 1) = do j <- r_pred i; r_get l j.
Proof. intros H. destruct i as [|j]; [lia|]. rewrite pyget_get by lia. cbn [r_pred bindR]. f_equal. lia. Qed.

(** ** Constant jerk *)
Lemma of_nat_R n : @nofZ R RNum (Z.of_nat n) = INR n.
Proof. unR. now rewrite INR_IZR_INZ. Qed.
Lemma of_nat_R1 n z : @nofZ R RNum (Z.of_nat n - z) = INR n - IZR z.
Proof. unR. now rewrite minus_IZR, INR_IZR_INZ. Qed.
Lemma r_speed_same n (v0 a0 k dt : R) : r_speed_for_constant_jerk n v0 a0 k dt = speed_for_constant_jerk (Z.of_nat n) v0 a0 k dt.
Proof. unfold r_speed_for_constant_jerk, speed_for_constant_jerk. rewrite of_nat_R, of_nat_R1, nofN_R. reflexivity. Qed.
Lemma r_accel_same n (a0 k dt : R) : r_accel_for_constant_jerk n a0 k dt = accel_for_constant_jerk (Z.of_nat n) a0 k dt.
Proof. unfold r_accel_for_constant_jerk, accel_for_constant_jerk. rewrite of_nat_R, nofN_R. reflexivity. Qed.
Lemma r_dist_same n (d0 v0 a0 k dt : R) : r_dist_for_constant_jerk n d0 v0 a0 k dt = dist_for_constant_jerk (Z.of_nat n) d0 v0 a0 k dt.
Proof. unfold r_dist_for_constant_jerk, dist_for_constant_jerk. rewrite of_nat_R, !of_nat_R1, nofN_R. reflexivity. Qed.
Lemma r_plan_same n (D0 v0 Dr vr dt : R) : (1 < n)%nat -> D0 < Dr -> dt <> 0 -> dt <> (INR n + 4) / 3 ->
  r_calc_constant_jerk_trajectory n D0 v0 Dr vr dt = calc_constant_jerk_trajectory (Z.of_nat n) D0 v0 Dr vr dt.
Proof.
  intros Hn HD Hdt Hd.
  assert (exists k a0, calc_constant_jerk_trajectory (Z.of_nat n) D0 v0 Dr vr dt = Ok (k, a0)) as (k & a0 & E).
  { destruct (jerk_rendezvous (Z.of_nat n) D0 v0 Dr vr dt) as (k & a0 & E & _); try assumption; [lia|rewrite <- INR_IZR_INZ; assumption|eauto]. }
  rewrite E. unfold calc_constant_jerk_trajectory, assertR in E. destruct (Z.ltb_spec 1 (Z.of_nat n)); [|lia]. cbn [bindR] in E.
  unfold r_calc_constant_jerk_trajectory. destruct (Nat.ltb_spec 1 n); [|lia]. cbn [andb].
  change (D0 <? Dr)%num with (Rltb D0 Dr) in *. change (Dr >? D0)%num with (Rltb D0 Dr) in *.
  destruct (Rltb_spec D0 Dr); [|lra]. cbn [bindR] in E. rewrite of_nat_R, !of_nat_R1 in E.
  match type of E with (if ?b then _ else _) = _ => destruct b; [discriminate|] end. rewrite <- E. rewrite nofN_R. reflexivity.
Qed.
Lemma jerk_loop_same (i : nat) (v0 a0 k dt : R) fuel : forall speeds m v ni, length speeds = m ->
  r_jerk_loop speeds i v0 v a0 k dt (seq ni fuel) = jerk_loop speeds m i v0 v a0 k dt ni fuel.
Proof.
  induction fuel as [|fuel IH]; intros speeds m v ni L; [reflexivity|]. cbn [seq r_jerk_loop jerk_loop]. rewrite L.
  destruct (Nat.leb m (i - 1 + ni)); [reflexivity|]. rewrite r_speed_same. apply IH. now rewrite set_nth_length.
Qed.
Lemma r_jerk_same (c : cyc R) i n k a0 : length (mps c) = length (time_s c) -> (1 <= i < length (time_s c))%nat -> (1 <= n)%nat ->
  r_modify_by_const_jerk_trajectory c i n k a0 = modify_by_const_jerk_trajectory c i (Z.of_nat n) k a0.
Proof.
  intros W I Hn. unfold r_modify_by_const_jerk_trajectory, modify_by_const_jerk_trajectory.
  destruct (Nat.eqb_spec n 0); [lia|]. destruct (Nat.leb_spec (length (mps c)) i); [lia|].
  rewrite pyget_before by lia. destruct i as [|j]; [lia|]. cbn [r_pred bindR].
  destruct (r_get (mps c) j) as [v0|e]; [|reflexivity]. cbn [bindR]. rewrite r_dt_at_same by lia.
  destruct (dt_s_at_i c (S j)) as [dt|e]; [|reflexivity]. cbn [bindR]. rewrite Nat2Z.id.
  rewrite (jerk_loop_same _ _ _ _ _ _ _ (length (time_s c))) by assumption. reflexivity.
Qed.

(** ** Rounding *)
Lemma half_up (x : R) : no_tie x -> (let f := nfloor x in if (x - nofZ f <? lit 1 2)%num then f else (f + 1)%Z) = nround x.
Proof.
  intros T. unfold nround. cbv zeta. change (@lit R RNum 1 2) with (1 / 2). unR. set (f := Int_part x).
  destruct (Rltb_spec (x - IZR f) (1 / 2)); [reflexivity|]. destruct (Rltb_spec (1 / 2) (x - IZR f)); [reflexivity|].
  exfalso. apply (T f). lra.
Qed.
Lemma nround_unique (x : R) z : no_tie x -> Rabs (x - IZR z) <= 1 / 2 -> nround x = z.
Proof.
  intros T H. apply (nearest_even_unique x); [apply nround_nearest|]. left.
  destruct H as [H|H]; [exact H|exfalso]. destruct (Rcase_abs (x - IZR z)) as [A|A].
  - rewrite Rabs_left in H by assumption. apply (T (z - 1)%Z). rewrite minus_IZR. lra.
  - rewrite Rabs_right in H by assumption. apply (T z). lra.
Qed.
Lemma nround_near (x : R) : Rabs (x - IZR (nround x)) <= 1 / 2.
Proof. destruct (nround_nearest x) as [H|[H _]]; lra. Qed.
Lemma no_tie_opp x : no_tie x -> no_tie (- x).
Proof. intros T z E. apply (T (- z - 1)%Z). rewrite minus_IZR, opp_IZR. lra. Qed.
Lemma r_round_same (x : R) : no_tie x -> r_round_i32 x = nround x.
Proof.
  intros T. unfold r_round_i32. unR. destruct (Rltb_spec x 0) as [H|H].
  - pose proof (half_up (- x) (no_tie_opp x T)) as E. unR. cbv zeta in E. change (@lit R RNum 1 2) with (1/2) in *. unR.
    match type of E with ?a = _ => change (Z.opp a = nround x) end. rewrite E. symmetry. apply nround_unique; [exact T|].
    pose proof (nround_near (- x)) as A. rewrite opp_IZR. rewrite <- Rabs_Ropp in A. replace (x - - IZR (nround (- x))) with (- (- x - IZR (nround (- x)))) by ring. exact A.
  - exact (half_up x T).
Qed.
Lemma nround_pos (x : R) : 0 <= x -> (0 <= nround x)%Z.
Proof.
  intros H. pose proof (nround_near x) as A. pose proof (Rle_abs (x - IZR (nround x))) as B.
  assert (-1 < nround x)%Z; [|lia]. apply lt_IZR. lra.
Qed.
Lemma r_usize_same (x : R) : 0 <= x -> no_tie x -> Z.of_nat (r_round_usize x) = nround x.
Proof.
  intros H T. unfold r_round_usize. unR. destruct (Rltb_spec x 0); [lra|].
  pose proof (half_up x T) as E. cbv zeta in E |- *. unR. rewrite E. apply Z2Nat.id. now apply nround_pos.
Qed.

(** ** Braking *)
Lemma r_braking_same (c : cyc R) brake i dts : length (mps c) = length (time_s c) -> brake < 0 -> (1 <= i < length (time_s c))%nat ->
  0 <= nth (i - 1) (mps c) 0 ->
  (let dt := nth i (time_s c) 0 - nth (i - 1) (time_s c) 0 in 0 < dt < 2 /\ no_tie (- nth (i - 1) (mps c) 0 / brake / dt)) ->
  exists c' v n, r_modify_with_braking_trajectory c brake i dts = Ok (c', v, n) /\
                 modify_with_braking_trajectory c brake i dts = Ok (c', v, Z.of_nat n).
Proof.
  intros W B I V (D & T). unfold r_modify_with_braking_trajectory, modify_with_braking_trajectory, assertR.
  assert (BT : (brake <? n0)%num = true) by (unR; destruct (Rltb_spec brake 0); [reflexivity|lra]). rewrite BT. cbn [negb bindR].
  destruct (Nat.leb_spec (length (time_s c)) i); [lia|].
  rewrite pyget_before by lia. assert (P : r_pred i = Ok (i - 1)%nat) by (destruct i; [lia|]; cbn; now rewrite Nat.sub_0_r).
  rewrite P. cbn [bindR]. rewrite (r_get_ok _ _ 0) by lia. cbn [bindR].
  rewrite r_dt_at_same by lia. rewrite dt_s_at_i_pos by lia. cbn [bindR].
  set (v0 := nth (i - 1) (mps c) 0) in *. set (dt := nth i (time_s c) 0 - nth (i - 1) (time_s c) 0) in *.
  set (calc := (- lit 1 2 * v0 * v0 / brake)%num).
  assert (ED : match dts with Some x => if (x >? n0)%num then x else calc | None => calc end
             = match dts with Some x => if (x <=? n0)%num then calc else x | None => calc end).
  { destruct dts as [x|]; [|reflexivity]. unR. destruct (Rltb_spec 0 x), (Rleb_spec x 0); try reflexivity; lra. }
  rewrite ED. set (d := match dts with None => calc | Some x => if (x <=? n0)%num then calc else x end).
  destruct (d <=? n0)%num eqn:Z0.
  { exists c, v0, 0%nat. split; reflexivity. }
  assert (DZ : (dt =? n0)%num = false) by (unR; destruct (Reqb_spec dt 0); [lra|reflexivity]). rewrite DZ.
  assert (DP : 0 < d) by (unR; destruct (Rleb_spec d 0); [discriminate|lra]).
  set (x := (- v0 / brake / dt)%num). assert (XP : 0 <= x).
  { unfold x. unR. unfold Rdiv. apply Rmult_le_pos; [|apply Rlt_le, Rinv_0_lt_compat; lra].
    replace (- v0 * / brake) with (v0 * / - brake) by (field; lra). apply Rmult_le_pos; [exact V|apply Rlt_le, Rinv_0_lt_compat; lra]. }
  pose proof (r_usize_same x XP T) as RN. set (m := r_round_usize x) in *. rewrite <- RN.
  set (n := if Nat.ltb m 2 then 2%nat else m).
  assert (EN : (if (Z.of_nat m <? 2)%Z then 2%Z else Z.of_nat m) = Z.of_nat n).
  { unfold n. destruct (Nat.ltb_spec m 2), (Z.ltb_spec (Z.of_nat m) 2); lia. }
  rewrite EN. assert (N2 : (2 <= n)%nat) by (unfold n; destruct (Nat.ltb_spec m 2); lia).
  assert (NR : 2 <= INR n) by (apply le_INR in N2; cbn in N2; lra).
  change (@n0 R RNum) with 0.
  assert (Q : dt <> (INR n + 4) / 3) by lra. assert (Q0 : dt <> 0) by lra.
  rewrite (r_plan_same n 0 v0 d 0 dt ltac:(lia) DP Q0 Q).
  destruct (jerk_rendezvous (Z.of_nat n) 0 v0 d 0 dt) as (k & a0 & E & _); [lia|assumption|assumption|rewrite <- INR_IZR_INZ; assumption|].
  rewrite E. cbn [bindR fst snd]. rewrite r_jerk_same by (assumption || lia).
  unfold modify_by_const_jerk_trajectory. rewrite pyget_before by lia. rewrite P. cbn [bindR]. rewrite (r_get_ok _ _ 0) by lia. cbn [bindR].
  rewrite dt_s_at_i_pos by lia. cbn [bindR]. destruct (jerk_loop _ _ _ _ _ _ _ _ _ _) as [vs v]. cbn [bindR fst snd]. eauto.
Qed.

(** ** Passing *)
Lemma passing_loop_same (c c0 : cyc R) i tol fuel : forall di v0 v0_lv d d_lv, (1 <= i)%nat ->
  r_passing_loop c c0 i v0 v0_lv d d_lv tol (seq di fuel) = passing_loop c c0 i di fuel v0 v0_lv d d_lv tol.
Proof.
  induction fuel as [|fuel IH]; intros di v0 v0_lv d d_lv H; [reflexivity|]. cbn [seq r_passing_loop passing_loop].
  rewrite !pyget_get, !Nat2Z.id by lia. destruct (r_get (mps c) (i + di)) as [v|]; [|reflexivity]. cbn [bindR].
  destruct (r_get (mps c0) (i + di)) as [vl|]; [|reflexivity]. cbn [bindR]. rewrite !r_dt_at_same by lia.
  destruct (dt_s_at_i c (i + di)) as [dt|]; [|reflexivity]. cbn [bindR]. destruct (dt_s_at_i c0 (i + di)) as [dtl|]; [|reflexivity]. cbn [bindR].
  rewrite Nat.add_1_r. rewrite IH by assumption. reflexivity.
Qed.
Lemma r_passing_spec (c c0 : cyc R) i tol : length (mps c) = length (time_s c) -> length (mps c0) = length (time_s c0) ->
  length (time_s c) = length (time_s c0) -> (1 <= i < length (time_s c))%nat ->
  r_detect_passing c c0 i tol = do p <- detect_passing c c0 i tol;
    Ok (mkPassing (negb (Nat.eqb (num_steps p) 0)) (pi_idx p) (num_steps p) (start_distance_m p) (distance_m p) (start_speed p) (pi_speed p) (time_step_duration p)).
Proof.
  intros W W0 L I. unfold r_detect_passing, detect_passing. destruct (Nat.leb_spec (length (time_s c)) i); [lia|].
  rewrite !pyget_before by lia. assert (P : r_pred i = Ok (i - 1)%nat) by (destruct i; [lia|]; cbn; now rewrite Nat.sub_0_r). rewrite P.
  cbn [bindR]. rewrite !(r_get_ok _ _ 0) by lia. cbn [bindR]. rewrite !r_start, !start_distance by (assumption || lia). cbn [bindR].
  rewrite passing_loop_same by lia. set (q := passing_loop _ _ _ _ _ _ _ _ _ _).
  assert (QS : forall idx st dl vl, q = Ok (Some (idx, st, dl, vl)) -> (0 < st)%nat).
  { unfold q. intros idx st dl vl. generalize (nth (i - 1) (mps c) 0), (nth (i - 1) (mps c0) 0), (trapezoid c 0 (i - 1)), (trapezoid c0 0 (i - 1)). generalize 0%nat at 1 as di. intros di a b e f. revert di a b e f idx st dl vl. generalize (length (mps c) - i)%nat as fuel.
    clear. induction fuel as [|fuel IH]; intros di a b e f idx st dl vl E; [discriminate|]. cbn [passing_loop] in E.
    destruct (pyget (mps c) _) as [v|]; [|discriminate]. cbn [bindR] in E. destruct (pyget (mps c0) _) as [w|]; [|discriminate]. cbn [bindR] in E.
    destruct (dt_s_at_i c _) as [dt|]; [|discriminate]. cbn [bindR] in E. destruct (dt_s_at_i c0 _) as [dtl|]; [|discriminate]. cbn [bindR] in E.
    destruct (Nat.ltb 0 di && _)%bool; [injection E as _ E _ _; lia|]. destruct (v <=? tol6)%num; [discriminate|]. exact (IH _ _ _ _ _ _ _ _ _ E). }
  destruct q as [r|e]; [|reflexivity]. cbn [bindR]. rewrite r_dt_at_same by lia. destruct (dt_s_at_i c i) as [dt|]; [|reflexivity]. cbn [bindR].
  destruct r as [[[[idx st] dl] vl]|]; cbn [bindR has_collision pi_idx num_steps start_distance_m distance_m start_speed pi_speed time_step_duration Nat.eqb negb]; [|reflexivity].
  pose proof (QS _ _ _ _ eq_refl) as S0. destruct (Nat.eqb_spec st 0); [lia|reflexivity].
Qed.

(** ** Micro-trips *)
Section Any.
  Context {F : Type} {N : Num F}.
  Lemma mt_fold stop rest : forall done mt moving,
    (let '(done, mt, _) := fold_left (r_mt_step stop) rest (done, mt, moving) in
     match mt with [] => done | _ => done ++ [rebase_samples mt] end) = done ++ mt_scan stop mt moving rest.
  Proof.
    induction rest as [|s rest IH]; intros done mt moving; [cbn [fold_left mt_scan]; destruct mt; [now rewrite app_nil_r|reflexivity]|].
    cbn [fold_left mt_scan]. unfold r_mt_step at 2. destruct (_ && _ && Nat.ltb 1 (length mt))%bool.
    - rewrite IH, <- app_assoc. cbn [app]. do 3 f_equal. now rewrite last_nth.
    - apply IH.
  Qed.
  Lemma r_microtrips_same (c : cyc F) stop : r_to_microtrips c stop = to_microtrips c stop.
  Proof.
    unfold r_to_microtrips, to_microtrips. pose proof (mt_fold stop (samples c) [] [] false) as E. cbn [app] in E. rewrite <- E.
    destruct (fold_left (r_mt_step stop) (samples c) ([], [], false)) as [[d m] b]. reflexivity.
  Qed.
End Any.
Lemma moving_fold_seq (c : cyc R) m : forall j acc,
  fold_left (fun acc k => let dt := (nth k (time_s c) n0 - nth (k - 1) (time_s c) n0)%num in
     if ((nth k (mps c) n0 + nth (k - 1) (mps c) n0) / n2 >? n0)%num then (acc + dt)%num else acc) (seq (S j) m) acc
  = acc + fold_right Rplus 0 (map (fun j => if Rlt_dec 0 ((nth (S j) (mps c) 0 + nth j (mps c) 0) / 2)
                                      then nth (S j) (time_s c) 0 - nth j (time_s c) 0 else 0) (seq j m)).
Proof.
  induction m as [|m IH]; intros j acc; [cbn; lra|]. cbn [seq fold_left map fold_right]. rewrite IH. cbv zeta. unR.
  replace (S j - 1)%nat with j by lia. change (@n0 R RNum) with 0. change (@n2 R RNum) with 2.
  destruct (Rltb_spec 0 ((nth (S j) (mps c) 0 + nth j (mps c) 0) / 2)); destruct (Rlt_dec 0 ((nth (S j) (mps c) 0 + nth j (mps c) 0) / 2)); try contradiction; lra.
Qed.
Lemma r_moving_same (m : cyc R) : wf m -> r_time_spent_moving m = time_spent_moving m.
Proof. intros W. rewrite moving_time_eq by assumption. unfold r_time_spent_moving. rewrite moving_fold_seq. unfold moving_time. change (@n0 R RNum) with 0. lra. Qed.
Lemma r_dist_same0 (m : cyc R) : hd 0 (time_s m) = 0 -> r_dist_m m = dist_m m.
Proof. intros H. unfold r_dist_m, dist_m. now rewrite r_dt_same. Qed.
Lemma r_target_fold b ms (mts : list (cyc R)) : (forall m, In m mts -> wf m /\ hd 0 (time_s m) = 0) -> forall start out,
  snd (fold_left (fun st mt => let '(start, out) := st in let d := nsum (r_dist_m mt) in
     if (d >? n0)%num then ((start + d)%num, out ++ [(start, nmax (r_mt_target b mt) ms)]) else (start, out)) mts (start, out))
  = out ++ target_table b ms start mts.
Proof.
  induction mts as [|m mts IH]; intros H start out; [cbn; now rewrite app_nil_r|]. cbn [fold_left target_table].
  destruct (H m (or_introl eq_refl)) as [W Z]. rewrite (r_dist_same0 m Z). fold (mt_dist m). cbv zeta.
  assert (T : r_mt_target b m = mt_target b m).
  { unfold r_mt_target, mt_target. rewrite (r_dist_same0 m Z), (r_moving_same m W). reflexivity. }
  rewrite T. destruct (mt_dist m >? n0)%num.
  - rewrite IH by (intros; apply H; now right). rewrite <- app_assoc. reflexivity.
  - apply IH. intros; apply H; now right.
Qed.
Lemma r_targets_same (c : cyc R) b ms : wf c -> nondecreasing (time_s c) -> nonneg (mps c) ->
  r_create_dist_and_target_speeds_by_microtrip c b ms = create_dist_and_target_speeds_by_microtrip c b ms.
Proof.
  intros W ND NN. unfold r_create_dist_and_target_speeds_by_microtrip, create_dist_and_target_speeds_by_microtrip.
  assert (E : (if (b <? n0)%num then n0 else if (b >? n1)%num then n1 else b) = nmax n0 (nmin n1 b)).
  { rewrite nmax_R, nmin_R. unR. change (@n0 R RNum) with 0. change (@n1 R RNum) with 1.
    destruct (Rltb_spec b 0), (Rltb_spec 1 b); unfold Rmax, Rmin; destruct (Rle_dec 1 b); destruct (Rle_dec 0 _); lra. }
  rewrite E, r_microtrips_same. rewrite r_target_fold; [reflexivity|].
  intros m I. destruct (microtrip_regular c tol6 m W ND NN I) as (A & _ & B & _). tauto.
Qed.

(** ** Extending *)
Lemma r_extend_same (c : cyc R) (nm : string) sec fraction : wf c -> time_s c <> [] -> no_tie (fraction * end_time c) ->
  (0 <= sec + nround (fraction * end_time c)%R)%Z ->
  exists c', r_extend_cycle (mkCycle c nm) (IZR sec) fraction = Ok (mkCycle c' nm) /\ extend_cycle (mkCycle c nm) (IZR sec) fraction = Ok (mkCycle c' ""%string).
Proof.
  intros W NE T P. assert (PR : 0 <= IZR sec + IZR (nround (fraction * end_time c))) by (rewrite <- plus_IZR; now apply IZR_le).
  destruct (extend_cycle_exact c nm (IZR sec) fraction W NE PR) as (n & B & E). rewrite E.
  set (z := nround (fraction * end_time c)) in *.
  assert (EZ : Z.of_nat n = (sec + z)%Z).
  { rewrite INR_IZR_INZ in B. rewrite <- plus_IZR in B. set (q := (sec + z)%Z) in *.
    assert (Z.of_nat n < q + 1)%Z by (apply lt_IZR; rewrite plus_IZR; lra).
    assert (q < Z.of_nat n + 1)%Z by (apply lt_IZR; rewrite plus_IZR; lra). lia. }
  assert (TS : no_tie (IZR sec + fraction * end_time c)).
  { intros k Hk. apply (T (k - sec)%Z). rewrite minus_IZR. lra. }
  assert (RZ : r_round_i32 (IZR sec + fraction * end_time c) = (sec + z)%Z).
  { rewrite r_round_same by assumption. apply nround_unique; [exact TS|]. rewrite plus_IZR.
    replace (IZR sec + fraction * end_time c - (IZR sec + IZR z)) with (fraction * end_time c - IZR z) by ring. apply nround_near. }
  unfold r_extend_cycle. cbn [cdata cname]. rewrite <- pyget_last_of. destruct (time_s c) as [|t0 ts] eqn:ET; [congruence|]. rewrite pyget_last. cbn [bindR].
  assert (EE : last (t0 :: ts) t0 = end_time c) by (unfold end_time; rewrite ET; apply last_default).
  rewrite EE. change (IZR sec + fraction * end_time c)%num with (IZR sec + fraction * end_time c). rewrite RZ.
  eexists. split; [|reflexivity].
  assert (R0 : forall (A : Type) (l : list A), map (fun _ => @n0 R RNum) l = repeat 0 (length l)) by (induction l; [reflexivity|cbn; now f_equal]).
  destruct (Z.eqb_spec (sec + z) 0) as [Q|Q].
  - rewrite Q in EZ. destruct n; [|lia]. cbn [seq map repeat]. rewrite !app_nil_r, <- ET. now destruct c.
  - rewrite <- EZ, Nat2Z.id, !R0, seq_length. do 4 f_equal. apply map_ext. intros k. now rewrite nofN_R.
Qed.
