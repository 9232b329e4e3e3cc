(** C109 (hybrids without a given charge) and C112: the figures reported by the two implementations. *)
From Coq Require Import Floats Sorting.Sorted Lia FunctionalExtensionality.
From Verif Require Import Num FloatNum Numpy ListFacts CycleModel CycleSpec ConcatProofs VehModel SimModel SimState WalkModel PostModel
  FrameProofs WalkProofs WalkSpec WalkProofs2 StepEqs StepProofs SimSpec SimProofs3 SimDemo SimProps SimProps2 VehSpec VehProps
  RustModel RustWalkModel RustPostModel RustSpec RustProofs RustProofs2 PlainProofs PlainProofs2 PlainSpec PlainProofs3 PlainProofs4 RustProofs3 RustProps PlainProps.
Local Open Scope R_scope.
Local Set Warnings "-inexact-float".

(** ** Lemmas *)
Lemma r_dt_same (c : cyc R) : nth 0 (time_s c) 0 = 0 -> r_dt_s c = dt_s c.
Proof.
  unfold r_dt_s, dt_s, diff. destruct (time_s c) as [|a r]; [reflexivity|]. cbn. intros ->. unR. f_equal. lra.
Qed.
Lemma cumsum_from_scale (k : R) l : forall a, cumsum_from (a * k) (map (fun x => x * k) l) = map (fun x => x * k) (cumsum_from a l).
Proof.
  induction l as [|x l IH]; intros a; [reflexivity|]. cbn [map cumsum_from]. rewrite <- IH. unR.
  replace (a * k + x * k) with ((a + x) * k) by lra. reflexivity.
Qed.
Lemma cumsum_scale (k : R) l : cumsum (map (fun x => x * k) l) = map (fun x => x * k) (cumsum l).
Proof. unfold cumsum. rewrite <- cumsum_from_scale. f_equal. unR. lra. Qed.
Lemma zipw_seq {A B C} (f : A -> B -> C) (da : A) (db : B) : forall l l', length l = length l' ->
  zipw f l l' = map (fun i => f (nth i l da) (nth i l' db)) (seq 0 (length l')).
Proof.
  induction l as [|a l IH]; intros [|b l'] H; cbn in *; try lia; [reflexivity|]. f_equal.
  rewrite IH by lia. rewrite <- seq_shift, map_map. reflexivity.
Qed.
Lemma nonneg_sum (l : list R) : (forall x, In x l -> 0 <= x) -> 0 <= nsum l.
Proof.
  rewrite nsum_R. induction l as [|a l IH]; intros H; cbn; [lra|].
  pose proof (H a (or_introl eq_refl)). assert (0 <= fold_right Rplus 0 l) by (apply IH; intros; apply H; now right). lra.
Qed.
Lemma pos_sum (l : list R) i : (forall x, In x l -> 0 <= x) -> (i < length l)%nat -> 0 < nth i l 0 -> 0 < nsum l.
Proof.
  rewrite nsum_R. revert i. induction l as [|a l IH]; intros i H Hi P; cbn in *; [lia|].
  assert (A : 0 <= a) by (apply H; now left). assert (T : 0 <= fold_right Rplus 0 l) by (rewrite <- nsum_R; apply nonneg_sum; intros; apply H; now right).
  destruct i as [|i]; [lra|]. enough (0 < fold_right Rplus 0 l) by lra. apply (IH i); [intros; apply H; now right|lia|exact P].
Qed.
Lemma dpl (p : R) (l : list R) : length (diff_prepend p l) = length l.
Proof. revert p. induction l as [|a l IH]; intros p; cbn; [reflexivity|now rewrite IH]. Qed.
Lemma dpn (l : list R) : forall p i, (i < length l)%nat -> nth i (diff_prepend p l) 0 = nth i l 0 - (match i with O => p | S j => nth j l 0 end).
Proof.
  induction l as [|a l IH]; intros p i H; cbn in *; [lia|]. destruct i as [|i]; [unR; reflexivity|]. rewrite IH by lia. now destruct i.
Qed.
Lemma dt_len (c : cyc R) : length (dt_s c) = length (time_s c).
Proof. apply dpl. Qed.
Lemma dt_nth (c : cyc R) i : (1 <= i < length (time_s c))%nat -> nth i (dt_s c) 0 = cdt c i.
Proof.
  intros H. unfold dt_s. rewrite dpn by lia. unfold cdt, ctime. destruct i as [|i]; [lia|]. cbn [Nat.ltb Nat.leb].
  replace (S i - 1)%nat with i by lia. reflexivity.
Qed.
Lemma zip_nth (l l' : list R) i : length l = length l' -> (i < length l)%nat -> nth i (zipw nmul l l') 0 = nth i l 0 * nth i l' 0.
Proof.
  revert l' i. induction l as [|a l IH]; intros [|b l'] i L H; cbn in *; try lia. destruct i as [|i]; [unR; reflexivity|]. apply IH; lia.
Qed.
Lemma zip_len (l l' : list R) : length l = length l' -> length (zipw (@nmul R _) l l') = length l.
Proof. revert l'. induction l as [|a l IH]; intros [|b l'] L; cbn in *; try lia. rewrite IH; lia. Qed.
(** The prescribed distance is positive exactly on a moving trace. *)
Lemma dist_pos (c : cyc R) : wf c -> increasing (time_s c) -> nth 0 (time_s c) 0 = 0 -> (forall x, In x (mps c) -> 0 <= x) ->
  moves c <-> 0 < nsum (dist_m c).
Proof.
  intros (W1 & W2 & W3) I Z P.
  assert (L : length (mps c) = length (dt_s c)) by (rewrite dt_len; congruence).
  assert (DT0 : nth 0 (dt_s c) 0 = 0). { unfold dt_s. destruct (time_s c) as [|a r]; [reflexivity|]. cbn in *. unR. lra. }
  assert (DT : forall i, (1 <= i < length (mps c))%nat -> 0 < nth i (dt_s c) 0).
  { intros i Hi. rewrite dt_nth by lia. apply inc_dt; [exact I|lia]. }
  assert (E : forall i, (i < length (mps c))%nat -> nth i (dist_m c) 0 = nth i (mps c) 0 * nth i (dt_s c) 0) by (intros; now apply zip_nth).
  assert (LD : length (dist_m c) = length (mps c)) by now apply zip_len.
  assert (NN : forall x, In x (dist_m c) -> 0 <= x).
  { intros x Hx. apply In_nth with (d := 0) in Hx as (i & Hi & <-). rewrite LD in Hi. rewrite E by lia.
    pose proof (P _ (nth_In (mps c) 0 Hi)). destruct i as [|i]; [rewrite DT0; lra|]. pose proof (DT (S i) ltac:(lia)). apply Rmult_le_pos; lra. }
  split.
  - intros [_ (i & Hi & V)]. apply (pos_sum _ i NN); [lia|]. rewrite E by lia. apply Rmult_lt_0_compat; [exact V|now apply DT].
  - intros SM. split; [exact P|]. destruct (Exists_dec (fun i => 0 < nth i (mps c) 0) (seq 1 (length (mps c) - 1))) as [X|X].
    { intros i. destruct (Rlt_dec 0 (nth i (mps c) 0)); [now left|now right]. }
    + apply Exists_exists in X as (i & Hi & V). apply in_seq in Hi. exists i. split; [lia|exact V].
    + exfalso. assert (Q : forall x, In x (dist_m c) -> x = 0).
      { intros x Hx. apply In_nth with (d := 0) in Hx as (i & Hi & <-). rewrite LD in Hi. rewrite E by lia.
        destruct i as [|i]; [rewrite DT0; lra|]. assert (nth (S i) (mps c) 0 = 0); [|rewrite H; lra].
        pose proof (P _ (nth_In (mps c) 0 Hi)). destruct (Rlt_dec 0 (nth (S i) (mps c) 0)) as [V|V]; [|lra].
        exfalso. apply X, Exists_exists. exists (S i). split; [apply in_seq; lia|exact V]. }
      rewrite nsum_R in SM. revert Q SM. generalize (dist_m c). induction l as [|a l IH]; cbn; intros Q SM; [lra|].
      rewrite (Q a (or_introl eq_refl)) in SM. apply IH; [intros; apply Q; now right|lra].
Qed.
(** On a state whose clock starts at zero and whose cycle has kept its times, Rust's report is Python's. *)
Lemma post_same (d : sdrive R) : nth 0 (time_s (d_cyc d)) 0 = 0 -> d_cyc d = d_cyc0 d -> (0 < length (d_rows d))%nat ->
  length (d_rows d) = length (time_s (d_cyc d)) -> wf (d_cyc d) -> missed_trace_correction (d_sp d) = false ->
  r_set_post_scalars d = if Rltb 0 (nsum (dist_m (d_cyc0 d))) then Ok (set_post_scalars d) else Err PlainException.
Proof.
  intros Z C P L (W1 & _) M. unfold r_set_post_scalars. destruct (d_rows d) as [|r0 rs] eqn:RW; [cbn in P; lia|]. rewrite <- RW in *.
  assert (DT : r_dt_s (d_cyc d) = dt_s (d_cyc d)) by now apply r_dt_same.
  unfold r_sum_dt, r_dist_m. rewrite <- C, !DT. fold (dist_m (d_cyc d)). unR. destruct (Rltb_spec 0 (nsum (dist_m (d_cyc d)))) as [G|G]; [|reflexivity].
  unfold set_post_scalars, sum_dt. rewrite !M. cbn [negb andb orb].
  assert (MS : r_miss_speed d = miss_speed d).
  { unfold r_miss_speed, miss_speed. rewrite (zipw_seq _ zero_row 0) by congruence. rewrite W1. reflexivity. }
  assert (MT : r_miss_time_frac d = miss_time_frac d).
  { unfold r_miss_time_frac, miss_time_frac. rewrite <- C. unR. rewrite Rminus_eq_0, Rabs_R0. reflexivity. }
  assert (MD : miss_dist_frac d = Rabs (sum_rows d (fun r => dist_m_ach (spd r)) - nsum (dist_m (d_cyc d))) / nsum (dist_m (d_cyc d))).
  { unfold miss_dist_frac. rewrite <- C. unR. destruct (Rltb_spec 0 (nsum (dist_m (d_cyc d)))); [reflexivity|lra]. }
  assert (CU : r_fs_cumu d = map (fun x => nmul x (lit 1 1000)) (cumsum (zipw nmul (map (fun r => fs_kw_out_ach (fc r)) (d_rows d)) (dt_s (d_cyc d))))).
  { unfold r_fs_cumu. rewrite DT. apply cumsum_scale. }
  assert (DS : Rmult (Ropp 1) (soc_last d - soc_first d) = Ropp (soc_last d - soc_first d)) by lra.
  rewrite MS, MT, MD, CU. change (r_ess_loss_arr d) with (ess_loss_arr d). change (r_post_mpgge d) with (post_mpgge d). unR. rewrite DS. rewrite Bool.orb_false_r. reflexivity.
Qed.
Lemma twins_map {A} dp dr (f : row R -> A) : twins dp dr -> (forall a b, same_but_fuel a b -> f a = f b) -> map f (d_rows dr) = map f (d_rows dp).
Proof.
  intros T H. apply nth_ext with (d := f zero_row) (d' := f zero_row); [rewrite !map_length; apply T|]. intros n _. rewrite !map_nth.
  symmetry. apply H. apply T.
Qed.
Lemma twins_figures dp dr : twins dp dr -> figures_but_fuel (set_post_scalars dr) = figures_but_fuel (set_post_scalars dp).
Proof.
  intros T. pose proof (fun (f : row R -> R) => twins_map dp dr f T) as MM.
  assert (S1 : forall f, (forall a b, same_but_fuel a b -> f a = f b) -> sum_dt dr f = sum_dt dp f).
  { intros f Hf. unfold sum_dt. now rewrite (k_cyc _ _ T), (MM f Hf). }
  assert (S2 : forall f, (forall a b, same_but_fuel a b -> f a = f b) -> sum_rows dr f = sum_rows dp f).
  { intros f Hf. unfold sum_rows. now rewrite (MM f Hf). }
  assert (S3 : forall j, mps_ach_at dr j = mps_ach_at dp j).
  { intros j. unfold mps_ach_at. now rewrite (sf_spd _ _ (k_rows _ _ T j)). }
  assert (SL : soc_last dr = soc_last dp). { unfold soc_last. now rewrite (k_len _ _ T), (sf_dec _ _ (k_rows _ _ T _)). }
  assert (SF : soc_first dr = soc_first dp). { unfold soc_first. now rewrite (sf_dec _ _ (k_rows _ _ T _)). }
  assert (LO : ess_loss_arr dr = ess_loss_arr dp).
  { unfold ess_loss_arr. pose proof (MM (fun x => ess_loss (d_veh dp) (ess_kw_out_ach (dec x)))) as Q. rewrite (k_veh _ _ T).
    assert (Q' : map (fun x : row R => ess_loss (d_veh dp) (ess_kw_out_ach (dec x))) (d_rows dr) = map (fun x : row R => ess_loss (d_veh dp) (ess_kw_out_ach (dec x))) (d_rows dp)).
    { apply Q. intros a b [? ? ? ? ? ? SD]. now rewrite SD. }
    destruct (d_rows dr), (d_rows dp); try discriminate; [reflexivity|]. cbn [map] in Q'. injection Q' as _ Q'. now rewrite Q'. }
  assert (E : forall f, (forall a b, same_but_fuel a b -> f a = f b) -> sum_dt dr f = sum_dt dp f /\ sum_rows dr f = sum_rows dp f) by auto.
  unfold figures_but_fuel, set_post_scalars, miss_dist_frac, miss_time_frac, miss_speed.
  cbn [roadway_chg_kj ess_dischg_kj battery_kwh_per_mi electric_kwh_per_mi drag_kj ascent_kj rr_kj brake_kj trans_kj mc_kj ess_eff_kj aux_kj ke_kj
       trace_miss_dist_frac trace_miss_time_frac trace_miss_speed_mps ess_loss_kw trace_miss].
  rewrite (k_veh _ _ T), (k_sp _ _ T), (k_cyc _ _ T), (k_cyc0 _ _ T), (k_len _ _ T), LO, SL, SF, !S3.
  rewrite !(S1 (fun r => roadway_chg_kw_out_ach (dec r))), !(S1 (fun r => drag_kw (pwr r))), !(S1 (fun r => ascent_kw (pwr r))), !(S1 (fun r => rr_kw (pwr r))),
    !(S1 (fun r => cyc_fric_brake_kw (pwr r))), !(S1 (fun r => nsub (trans_kw_in_ach (pwr r)) (trans_kw_out_ach (pwr r)))),
    !(S1 (fun r => nsub (mc_elec_kw_in_ach (dec r)) (mc_mech_kw_out_ach (dec r)))), !(S1 (fun r => aux_in_kw (misc r))),
    !(S2 (fun r => dist_mi_ach (spd r))), !(S2 (fun r => dist_m_ach (spd r)))
    by (intros a b [Q1 Q2 Q3 Q4 Q5 Q6 Q7 Q8]; rewrite ?Q1, ?Q3, ?Q4, ?Q7; reflexivity).
  rewrite !(map_ext (fun i => nabs (nsub (mps_ach_at dr i) (cmps (d_cyc dp) i))) (fun i => nabs (nsub (mps_ach_at dp i) (cmps (d_cyc dp) i)))) by (intros i; now rewrite S3).
  reflexivity.
Qed.
(** sim_drive is one walk in both programs, except for a hybrid without a given charge. *)
Definition start_soc (d : sdrive R) (s : option R) : R :=
  match s with Some s => s | None => match veh_pt_type (d_veh d) with CONV | HEV => mid_soc (d_veh d) | _ => max_soc (d_veh d) end end.
Lemma r_drive_is_walk (d : sdrive R) s ovr : s <> None \/ veh_pt_type (d_veh d) <> HEV ->
  r_sim_drive d s ovr = r_walk (with_count d 0) (start_soc d s) ovr.
Proof.
  intros H. unfold r_sim_drive, start_soc. cbv zeta. destruct s as [s|]; [reflexivity|].
  destruct (veh_pt_type (d_veh d)) eqn:P; try reflexivity. destruct H; congruence.
Qed.

(** ** C112: the figures reported after a run *)
(** On a fresh object whose trace starts at time zero and moves, Rust reports the figures that Python reports,
    fuel apart; if the engine stays below its rated power, all of them. *)
Theorem C112_figures : forall v pr sp c s ovr dp, let d := new_sd v pr sp c in
  plain_run d ovr -> s <> None \/ veh_pt_type v <> HEV -> nth 0 (time_s c) 0 = 0 -> moves c ->
  sim_drive d s ovr = Ok dp ->
  exists dr p, r_sim_drive_post d s ovr = Ok (dr, p) /\ figures_but_fuel p = figures_but_fuel (set_post_scalars dp) /\
    (below_rated dp -> p = set_post_scalars dp).
Proof.
  intros v pr sp c s ovr dp d P Q Z MV E. rewrite drive_is_walk in E by exact Q. fold (start_soc d s) in E.
  pose proof (plain_run_count d ovr 0 P) as P0. pose proof (run_twin _ (start_soc d s) ovr P0) as R0. rewrite E in R0. destruct R0 as (dr & R1 & T & LV).
  pose proof (cyc_of_walk _ _ _ _ P0 E) as CC. cbn in CC.
  pose proof (walk_walked _ _ _ _ (conj (pr_cyc _ _ P0) (conj (pr_cyc0 _ _ P0) (pr_len _ _ P0))) E) as K.
  pose proof (wk_cyc0 _ _ _ _ K) as C0. cbn in C0. pose proof (wk_pos _ _ _ _ K) as NE. pose proof (v_len _ LV) as LEN. pose proof (wk_sp _ _ _ _ K) as SP. cbn in SP.
  assert (C1 : d_cyc dr = c) by (now rewrite (k_cyc _ _ T)). assert (C2 : d_cyc0 dr = c) by (now rewrite (k_cyc0 _ _ T)).
  assert (PS : r_set_post_scalars dr = Ok (set_post_scalars dr)).
  { rewrite post_same; rewrite ?C1, ?C2, ?(k_len _ _ T), ?(k_sp _ _ T), ?SP; auto.
    - assert (G : 0 < nsum (dist_m c)). { apply dist_pos; auto; try apply P. apply MV. }
      destruct (Rltb_spec 0 (nsum (dist_m c))); [reflexivity|contradiction].
    - now rewrite LEN, CC.
    - apply P.
    - apply P. }
  exists dr, (set_post_scalars dr). split; [|split; [now apply twins_figures|intros B; now rewrite (twins_equal _ _ T B)]].
  unfold r_sim_drive_post. rewrite r_drive_is_walk by exact Q. rewrite R1. cbn [bindR]. rewrite PS. reflexivity.
Qed.
(** A trace that stands still throughout is simulated by both, but Rust's sim_drive then ends with an error. *)
Theorem C112_standing : forall v pr sp c s ovr dp, let d := new_sd v pr sp c in
  plain_run d ovr -> s <> None \/ veh_pt_type v <> HEV -> nth 0 (time_s c) 0 = 0 ->
  (forall x, In x (mps c) -> 0 <= x) -> ~ moves c -> sim_drive d s ovr = Ok dp ->
  (exists dr, r_sim_drive d s ovr = Ok dr) /\ exists x, r_sim_drive_post d s ovr = Err x.
Proof.
  intros v pr sp c s ovr dp d P Q Z NN MV E. rewrite drive_is_walk in E by exact Q. fold (start_soc d s) in E.
  pose proof (plain_run_count d ovr 0 P) as P0. pose proof (run_twin _ (start_soc d s) ovr P0) as R0. rewrite E in R0. destruct R0 as (dr & R1 & T & LV).
  pose proof (cyc_of_walk _ _ _ _ P0 E) as CC. cbn in CC.
  pose proof (walk_walked _ _ _ _ (conj (pr_cyc _ _ P0) (conj (pr_cyc0 _ _ P0) (pr_len _ _ P0))) E) as K.
  pose proof (wk_cyc0 _ _ _ _ K) as C0. cbn in C0. pose proof (wk_pos _ _ _ _ K) as NE. pose proof (v_len _ LV) as LEN. pose proof (wk_sp _ _ _ _ K) as SP. cbn in SP.
  assert (C1 : d_cyc dr = c) by (now rewrite (k_cyc _ _ T)). assert (C2 : d_cyc0 dr = c) by (now rewrite (k_cyc0 _ _ T)).
  unfold r_sim_drive_post. rewrite r_drive_is_walk by exact Q. rewrite R1. cbn [bindR]. split; [eauto|].
  rewrite post_same; rewrite ?C1, ?C2, ?(k_len _ _ T), ?(k_sp _ _ T), ?SP; auto.
  - destruct (Rltb_spec 0 (nsum (dist_m c))) as [G|G]; [|cbn; eauto]. exfalso. apply MV, dist_pos; auto; apply P.
  - now rewrite LEN, CC.
  - apply P.
  - apply P.
Qed.
(** Rust's figures do not depend on when the clock starts (Python's do: C101). *)
Definition shift_sd (t : R) (d : sdrive R) : sdrive R :=
  mksd (d_veh d) (d_props d) (d_sp d) (later t (d_cyc d)) (later t (d_cyc0 d)) (build_cache (later t (d_cyc0 d))) (d_i d) (d_rows d) (d_hev_sim_count d).
Definition map_res {A B} (f : A -> B) (r : Res A) : Res B := match r with Ok x => Ok (f x) | Err e => Err e end.
Lemma shift_env t (d : sdrive R) i : (1 <= i < length (time_s (d_cyc d)))%nat -> r_env_at (shift_sd t d) i = r_env_at d i.
Proof.
  intros H. unfold r_env_at, r_plain_grade, shift_sd. cbn [d_cyc d_cyc0 d_rows later time_s mps grade]. f_equal. unR.
  rewrite !nth_shift by lia. lra.
Qed.
Lemma shift_loop t : forall fuel (d : sdrive R), (1 <= d_i d)%nat ->
  r_walk_loop fuel (shift_sd t d) = map_res (shift_sd t) (r_walk_loop fuel d).
Proof.
  induction fuel as [|f IH]; intros d H; cbn [r_walk_loop]; change (d_i (shift_sd t d)) with (d_i d);
    change (length (time_s (d_cyc (shift_sd t d)))) with (length (map (fun x => x + t) (time_s (d_cyc d)))); rewrite map_length;
    destruct (Nat.ltb_spec (d_i d) (length (time_s (d_cyc d)))) as [L|L]; try reflexivity.
  unfold r_plain_step. change (d_i (shift_sd t d)) with (d_i d). rewrite shift_env by lia.
  change (d_veh (shift_sd t d)) with (d_veh d). change (d_props (shift_sd t d)) with (d_props d). change (d_sp (shift_sd t d)) with (d_sp d).
  change (row_at (shift_sd t d)) with (row_at d).
  destruct (r_solve_row _ _ _ _ _ _) as [r|]; cbn [bindR]; [|reflexivity].
  rewrite <- IH by (cbn; lia). reflexivity.
Qed.
Lemma shift_init t (d : sdrive R) s ovr : changes_cycle (d_sp d) = false ->
  r_init_for_step (shift_sd t d) s ovr = map_res (shift_sd t) (r_init_for_step d s ovr).
Proof.
  intros C. unfold r_init_for_step. cbn [shift_sd d_veh d_sp d_cyc0]. destruct (_ || _)%bool; [|reflexivity].
  cbn [r_init_arrays d_rows shift_sd d_cyc0 d_cyc d_veh d_props d_sp d_hev_sim_count]. unfold clen. cbn [later time_s]. rewrite map_length.
  destruct (r_override _ ovr) as [[|r0 rest]|]; try reflexivity. rewrite C. reflexivity.
Qed.
Lemma walk_i fuel : forall (d d' : sdrive R), (1 <= d_i d)%nat -> r_walk_loop fuel d = Ok d' ->
  d_cyc d' = d_cyc d /\ d_cyc0 d' = d_cyc0 d /\ d_sp d' = d_sp d /\ length (d_rows d') = length (d_rows d) /\ d_hev_sim_count d' = d_hev_sim_count d /\ d_veh d' = d_veh d.
Proof.
  induction fuel as [|f IH]; intros d d' H E; cbn [r_walk_loop] in E; destruct (Nat.ltb _ _); try discriminate; try (injection E as <-; auto 10; fail).
  inv_ok E. unfold r_plain_step in E0. inv_ok E0. injection E0 as <-. apply IH in E as (a & b & c & e & g & h); [|cbn; lia]. cbn in *. rewrite set_nth_length in e. auto 10.
Qed.
Lemma shift_post t (d : sdrive R) : d_cyc d = d_cyc0 d -> length (d_rows d) = length (time_s (d_cyc d)) ->
  r_set_post_scalars (shift_sd t d) = r_set_post_scalars d.
Proof.
  intros C L. assert (DT : r_dt_s (later t (d_cyc d)) = r_dt_s (d_cyc d)).
  { unfold r_dt_s, later. cbn [time_s]. unfold diff. clear L. destruct (time_s (d_cyc d)) as [|a l]; [reflexivity|]. cbn [map]. f_equal.
    revert a. induction l as [|b l IH]; intros a; [reflexivity|]. cbn [map diff_prepend]. f_equal; [unR; lra|apply IH]. }
  assert (MT : r_miss_time_frac (shift_sd t d) = r_miss_time_frac d).
  { unfold r_miss_time_frac. cbn [shift_sd d_cyc d_cyc0]. rewrite <- C. unR. rewrite !Rminus_eq_0. unfold Rdiv. now rewrite !Rmult_0_l. }
  unfold r_set_post_scalars. rewrite MT. unfold r_sum_dt, r_dist_m, r_fs_cumu, r_miss_speed. cbn [shift_sd d_rows d_cyc d_cyc0 d_veh d_sp]. rewrite <- C, !DT.
  reflexivity.
Qed.
Lemma init_keeps (d : sdrive R) s ovr d1 : changes_cycle (d_sp d) = false -> r_init_for_step d s ovr = Ok d1 ->
  d_cyc d1 = d_cyc d /\ d_cyc0 d1 = d_cyc0 d /\ d_i d1 = 1%nat /\ length (d_rows d1) = clen (d_cyc0 d).
Proof.
  intros C E. unfold r_init_for_step in E. destruct (_ || _)%bool; [|discriminate].
  destruct (r_override (d_rows (r_init_arrays d)) ovr) as [[|r0 rest]|] eqn:O; try discriminate. rewrite C in E. injection E as <-.
  cbn. repeat split. unfold r_override in O. destruct ovr as [l|].
  - destruct (Nat.eqb_spec (length l) (length (d_rows (r_init_arrays d)))) as [Q|Q]; [|discriminate]. injection O as O.
    assert (L : length (zipw row_aux l (d_rows (r_init_arrays d))) = length (d_rows (r_init_arrays d))).
    { clear O. revert Q. generalize (d_rows (r_init_arrays d)). induction l as [|x l IH]; intros [|y m] Q; cbn in *; try lia. rewrite IH; lia. }
    change (d_rows (r_init_arrays d)) with (repeat (zero_row (F := R)) (clen (d_cyc0 d))) in *. rewrite O, repeat_length in L. exact L.
  - injection O as O. apply (f_equal (@length _)) in O. cbn in O. rewrite repeat_length in O. congruence.
Qed.
Theorem C112_clock : forall v pr sp c t s ovr d p, s <> None \/ veh_pt_type v <> HEV -> changes_cycle sp = false ->
  r_sim_drive_post (new_sd v pr sp c) s ovr = Ok (d, p) ->
  exists d', r_sim_drive_post (new_sd v pr sp (later t c)) s ovr = Ok (d', p) /\ d_rows d' = d_rows d.
Proof.
  intros v pr sp c t s ovr d p Q C E. unfold r_sim_drive_post in *. rewrite r_drive_is_walk in * by exact Q.
  inv_ok E. rename x into d2. inv_ok E. injection E as <- <-. rename x into p.
  change (start_soc (new_sd v pr sp (later t c)) s) with (start_soc (new_sd v pr sp c) s).
  replace (with_count (new_sd v pr sp (later t c)) 0) with (with_rows (shift_sd t (with_count (new_sd v pr sp c) 0)) (repeat zero_row (clen (later t c)))) by reflexivity.
  set (s0 := start_soc _ s) in *. unfold r_walk in *. inv_ok E0. rename x into d1.
  destruct (init_keeps (with_count (new_sd v pr sp c) 0) _ _ _ C E) as (k1 & k2 & k3 & k4). cbn in k1, k2, k4.
  change (r_init_for_step (with_rows (shift_sd t (with_count (new_sd v pr sp c) 0)) (repeat zero_row (clen (later t c)))) s0 ovr)
    with (r_init_for_step (shift_sd t (with_count (new_sd v pr sp c) 0)) s0 ovr).
  rewrite shift_init, E by exact C. cbn [map_res bindR]. rewrite shift_loop by lia.
  change (length (time_s (d_cyc (shift_sd t d1)))) with (length (map (fun x => x + t) (time_s (d_cyc d1)))). rewrite map_length, E0. cbn [map_res bindR].
  destruct (walk_i _ d1 d2 ltac:(lia) E0) as (w1 & w2 & w3 & w4 & w5 & w6).
  rewrite shift_post; [|congruence|rewrite w4, k4, w1, k1; reflexivity]. rewrite E1. cbn [bindR]. exists (shift_sd t d2). split; reflexivity.
Qed.
(** Rust's missed-time fraction has a sign; Python's is its absolute value.  Rust flags a missed trace only if Python does, and they
    agree unless the driven cycle ends earlier than the given one. *)
Theorem C112_missed_time : forall (d : sdrive R) p, nth 0 (time_s (d_cyc0 d)) 0 = 0 -> wf (d_cyc d) -> length (d_rows d) = length (time_s (d_cyc d)) ->
  0 < last (time_s (d_cyc0 d)) 0 -> r_set_post_scalars d = Ok p ->
  trace_miss_time_frac (set_post_scalars d) = Rabs (trace_miss_time_frac p) /\
  (trace_miss p = true -> trace_miss (set_post_scalars d) = true) /\
  (last (time_s (d_cyc0 d)) 0 <= last (time_s (d_cyc d)) 0 -> trace_miss (set_post_scalars d) = trace_miss p).
Proof.
  intros d p Z (W1 & _) L T0 E. unfold r_set_post_scalars in E. destruct (d_rows d) as [|r0 rs] eqn:RW; [discriminate|]. rewrite <- RW in *.
  unfold r_dist_m in E. rewrite r_dt_same in E by exact Z. fold (dist_m (d_cyc0 d)) in E. cbv zeta in E.
  change (nltb n0 (nsum (dist_m (d_cyc0 d)))) with (Rltb 0 (nsum (dist_m (d_cyc0 d)))) in E.
  destruct (Rltb_spec 0 (nsum (dist_m (d_cyc0 d)))) as [G|G]; [|discriminate]. injection E as <-.
  assert (MS : r_miss_speed d = miss_speed d).
  { unfold r_miss_speed, miss_speed. rewrite (zipw_seq _ zero_row 0) by congruence. rewrite W1. reflexivity. }
  assert (MD : miss_dist_frac d = Rabs (sum_rows d (fun r => dist_m_ach (spd r)) - nsum (dist_m (d_cyc0 d))) / nsum (dist_m (d_cyc0 d))).
  { unfold miss_dist_frac. unR. destruct (Rltb_spec 0 (nsum (dist_m (d_cyc0 d)))); [reflexivity|lra]. }
  assert (MT : miss_time_frac d = Rabs (r_miss_time_frac d)).
  { unfold miss_time_frac, r_miss_time_frac. unR. unfold Rdiv. rewrite Rabs_mult. f_equal. rewrite Rabs_pos_eq; [reflexivity|]. left. now apply Rinv_0_lt_compat. }
  unfold set_post_scalars. cbn [trace_miss trace_miss_time_frac]. rewrite MS, MD, MT. split; [reflexivity|].
  assert (A : forall x, Rltb (trace_miss_time_tol (d_sp d)) x = true -> Rltb (trace_miss_time_tol (d_sp d)) (Rabs x) = true).
  { intros x. pose proof (Rle_abs x). destruct (Rltb_spec (trace_miss_time_tol (d_sp d)) x), (Rltb_spec (trace_miss_time_tol (d_sp d)) (Rabs x)); auto. lra. }
  unR. split.
  - destruct (missed_trace_correction (d_sp d)); cbn [negb andb orb]; rewrite ?Bool.orb_true_iff; intros [H|H]; auto.
  - intros LE. assert (P : 0 <= r_miss_time_frac d).
    { unfold r_miss_time_frac. unR. apply Rmult_le_pos; [lra|]. left. now apply Rinv_0_lt_compat. }
    rewrite (Rabs_pos_eq (r_miss_time_frac d)) by exact P. destruct (missed_trace_correction (d_sp d)); cbn [negb andb orb]; rewrite ?Bool.orb_false_r; reflexivity.
Qed.

(** ** C109, hybrids without a given starting charge *)
Lemma first_dt (d : sdrive R) f : f (row_at d 0) = 0 -> r_sum_dt d f = sum_dt d f.
Proof.
  unfold r_sum_dt, sum_dt, r_dt_s, dt_s, row_at. destruct (d_rows d) as [|r rs]; [reflexivity|]. cbn [nth map]. intros ->.
  destruct (time_s (d_cyc d)) as [|a l]; [reflexivity|]. cbn [diff diff_prepend zipw]. rewrite !nsum_R. cbn [fold_right]. unR. f_equal. lra.
Qed.
Lemma hev_round d s ovr x : plain_run d ovr -> veh_pt_type (d_veh d) = HEV -> sim_drive_walk d s ovr = Ok x ->
  r_ess_2fuel x = ess_2fuel x /\ min_soc (d_veh d) <= s <= max_soc (d_veh d) /\ plain_run x ovr /\ same_setup d x.
Proof.
  intros P H E. assert (W : wf_sd d) by (split; [apply P|split; apply P]).
  pose proof (C75_first_sample d ovr x W (or_introl (ex_intro _ s E))) as FS. cbv zeta in FS.
  destruct (walk_setup _ _ _ _ W E) as (SU & WX). pose proof SU as (a & b & c & e & f & g).
  assert (CH : changes_cycle (d_sp d) = false) by (unfold changes_cycle; now rewrite (pr_trace _ _ P), (pr_coast _ _ P), (pr_idm _ _ P)).
  split; [|split; [|split; [|exact SU]]].
  - unfold r_ess_2fuel, ess_2fuel. rewrite !first_dt by apply FS. reflexivity.
  - destruct (wk_soc_ok _ _ _ _ (walk_walked _ _ _ _ W E)) as [Q|[Q1 Q2]]; [congruence|]. unR.
    destruct (Rltb_spec (max_soc (d_veh d)) s), (Rltb_spec s (min_soc (d_veh d))); try discriminate. lra.
  - specialize (g CH). constructor; rewrite ?g, ?a, ?c, ?e; try apply P. intros l Q. rewrite g. now apply P.
Qed.
Lemma walk_rows_count (d : sdrive R) n s ovr x y : wf_sd d -> changes_cycle (d_sp d) = false ->
  sim_drive_walk d s ovr = Ok x -> sim_drive_walk (with_count d n) s ovr = Ok y -> forall j, row_at y j = row_at x j.
Proof.
  intros W C X Y j. pose proof (walk_walked _ _ _ _ W X) as KX. pose proof (walk_walked (with_count d n) _ _ _ W Y) as KY.
  destruct (Nat.lt_ge_cases j (clen (d_cyc d))) as [L|L].
  - symmetry. eapply (prefix_walk ovr ovr d (with_count d n) s x y (clen (d_cyc d))); eauto.
  - unfold row_at. rewrite !nth_overflow; [reflexivity|rewrite (wk_len _ _ _ _ KX); lia|rewrite (wk_len _ _ _ _ KY); cbn; lia].
Qed.
Lemma clamp_same (lo hi x : R) : 0 <= lo -> lo <= hi -> hi <= 1 -> lo <= Rmin 1 (Rmax 0 x) <= hi -> Rmin hi (Rmax lo x) = Rmin 1 (Rmax 0 x).
Proof. intros A B C. unfold Rmin, Rmax. repeat destruct (Rle_dec _ _); lra. Qed.
(** If no walk from any charge reaches the rated power of the engine, the search for a balanced charge takes the
    same rounds in both programs and ends in the same state. *)
Theorem C109_hybrid : forall (d : sdrive R) ovr dp, plain_run d ovr -> veh_pt_type (d_veh d) = HEV ->
  0 <= min_soc (d_veh d) -> min_soc (d_veh d) <= max_soc (d_veh d) -> max_soc (d_veh d) <= 1 ->
  (forall s x, sim_drive_walk d s ovr = Ok x -> below_rated x) ->
  sim_drive d None ovr = Ok dp -> r_sim_drive d None ovr = Ok dp.
Proof.
  intros d ovr dp P H LO MM HI B E.
  assert (CH : changes_cycle (d_sp d) = false) by (unfold changes_cycle; now rewrite (pr_trace _ _ P), (pr_coast _ _ P), (pr_idm _ _ P)).
  assert (W : wf_sd d) by (split; [apply P|split; apply P]).
  assert (G : forall d' s x, same_setup d d' -> plain_run d' ovr -> sim_drive_walk d' s ovr = Ok x -> r_walk d' s ovr = Ok x).
  { intros d' s x SU P' E'. apply C109_identical; auto. intros j.
    rewrite (walk_ext (with_count d (d_hev_sim_count d')) d') in E' by (auto; exact SU).
    destruct (walk_total d s ovr) as (y & Y); try exact CH.
    - pose proof (wk_len _ _ _ _ (walk_walked (with_count d (d_hev_sim_count d')) s ovr x W E')) as Q1. pose proof (wk_pos _ _ _ _ (walk_walked (with_count d (d_hev_sim_count d')) s ovr x W E')) as Q2. cbn in Q1. lia.
    - exact (wk_soc_ok _ _ _ _ (walk_walked (with_count d (d_hev_sim_count d')) s ovr x W E')).
    - rewrite (walk_rows_count d _ s ovr y x W CH Y E' j).
      rewrite (wk_veh _ _ _ _ (walk_walked (with_count d (d_hev_sim_count d')) s ovr x W E')). cbn [d_veh with_count].
      rewrite <- (wk_veh _ _ _ _ (walk_walked d s ovr y W Y)). apply (B s y Y). }
  unfold sim_drive in E. unfold r_sim_drive. cbv zeta in *. rewrite H in *. inv_ok E. destruct x as [dk sk]. cbn [fst snd] in E.
  assert (BL : forall fuel d' s e dk sk z, same_setup d d' -> plain_run d' ovr -> balance_loop fuel d' ovr s e = Ok (dk, sk) ->
     sim_drive_walk dk sk ovr = Ok z -> r_balance_loop fuel d' ovr s e = Ok (dk, sk) /\ min_soc (d_veh d) <= s <= max_soc (d_veh d) /\ plain_run dk ovr /\ same_setup d dk).
  { induction fuel as [|f IH]; intros d' s e dk' sk' z' SU P' E1 E2; cbn [balance_loop r_balance_loop] in *; destruct (_ && _)%bool; try discriminate.
    - injection E1 as <- <-. split; [reflexivity|]. pose proof SU as (a & _). rewrite <- a. split; [|auto]. apply (hev_round d' s ovr z'); auto. now rewrite a.
    - inv_ok E1. rename x into d1. pose proof SU as (a & _).
      assert (SU' : same_setup d (with_count d' (S (d_hev_sim_count d')))) by exact SU.
      pose proof (plain_run_count d' ovr (S (d_hev_sim_count d')) P') as P1.
      destruct (hev_round (with_count d' (S (d_hev_sim_count d'))) s ovr d1 P1) as (F1 & F2 & F3 & F4); [cbn; congruence|exact E3|].
      assert (SU1 : same_setup d d1) by (eapply setup_trans; [exact SU'|exact F4]).
      destruct (IH d1 (next_soc d1) (ess_2fuel d1) dk' sk' z' SU1 F3 E1 E2) as (I1 & I2 & I3 & I4).
      rewrite (G _ _ _ SU' P1 E3). cbn [bindR]. split; [|split; [cbn in F2; now rewrite <- a|auto]].
      rewrite F1. replace (r_next_soc d1) with (next_soc d1); [exact I1|].
      pose proof SU1 as (a1 & _). unfold r_next_soc. unfold next_soc in *. rewrite a1. rewrite ?nmin_R, ?nmax_R in *. symmetry. apply clamp_same; auto.
    - injection E1 as <- <-. split; [reflexivity|]. pose proof SU as (a & _). rewrite <- a. split; [|auto]. apply (hev_round d' s ovr z'); auto. now rewrite a. }
  destruct (BL (sim_count_max (d_sp d)) (with_count d 0) (mid_soc (d_veh d)) n1 dk sk dp (setup_count d 0) (plain_run_count d ovr 0 P) E0 E) as (I1 & I2 & I3 & I4).
  rewrite I1. cbn [bindR fst snd]. now apply G.
Qed.
(** Hypotheses met: half-second steps leave the engine no time to come up to its rated power. *)
Definition demo_short {F} {N : Num F} : cyc F := mkcyc [n0; lit 1 2; n1] [n0; n2; z 3] [n0; n0; n0] [n0; n0; n0].
Lemma short_wf : wf (demo_short (F := R)).
Proof. repeat split. Qed.
Lemma short_inc : increasing (time_s (demo_short (F := R))).
Proof. apply increasing_SS. unfold demo_short, z. cbn [time_s]. rewrite lit_R. unR. repeat constructor; lra. Qed.
Example C109_hybrid_case : let d := demo_sd (F := R) demo_hev demo_short in
  plain_run d None /\ veh_pt_type (d_veh d) = HEV /\ 0 <= min_soc (d_veh d) <= max_soc (d_veh d) /\ max_soc (d_veh d) <= 1 /\
  (forall s x, sim_drive_walk d s None = Ok x -> below_rated x) /\
  exists x, sim_drive_walk d (1/2) None = Ok x.
Proof.
  intros d. destruct demo_comparable as (_ & V & _). assert (P : plain_run d None).
  { apply demo_plain; auto using short_wf, short_inc; [|discriminate]. intros (Q & _). exfalso. revert Q. unfold demo_hev, demo_veh, demo_veh_of, z. cbn [mc_max_kw]. unR. lra. }
  split; [exact P|]. split; [reflexivity|]. split; [unfold d; demo_num; lra|]. split; [unfold d; demo_num; lra|]. split.
  2:{ apply walk_total; [cbn; lia|reflexivity|]. right. unfold d. demo_num. unR. destruct (Rltb_spec (8/10) (1/2)), (Rltb_spec (1/2) (2/10)); auto; lra. }
  intros s x E. assert (W : wf_sd d) by (split; [apply P|split; apply P]).
  pose proof (walk_walked _ _ _ _ W E) as K. pose proof (cyc_of_walk _ _ _ _ P E) as CC. pose proof (wk_len _ _ _ _ K) as LN. cbn in LN.
  pose proof (wk_veh _ _ _ _ K) as VV. assert (RU : run d None x) by (left; now exists s).
  assert (F60 : fc_max_kw (d_veh d) = 60) by (unfold d; demo_num). assert (F2 : fc_sec_to_peak_pwr (d_veh d) = 2) by (unfold d; demo_num).
  assert (ST : forall i, (1 <= i < 3)%nat -> fc_kw_out_ach (fc (row_at x i)) <= fc_kw_out_ach (fc (row_at x (i - 1))) + 15).
  { intros i Hi. assert (IS : is_step d None x i) by (split; [exact W|]; split; [exact RU|lia]).
    destruct (C21_within _ _ _ _ IS) as (_ & _ & Q); [rewrite CC; apply short_inc|lra|lra|]. rewrite F60, F2 in Q. unfold step_dt in Q. rewrite CC in Q. cbn [d d_cyc demo_sd new_sd init_arrays demo_short time_s] in Q.
    assert (DT : nth i [n0; lit 1 2; n1] 0 - nth (i - 1) [n0; lit 1 2; n1] 0 = 1/2) by (assert (i = 1%nat \/ i = 2%nat) as [-> | ->] by lia; cbn [nth Nat.sub]; rewrite lit_R; unR; lra).
    rewrite DT in Q. lra. }
  assert (R0 : fc_kw_out_ach (fc (row_at x 0)) = 0) by apply (C75_first_sample d None x W RU).
  intros j. left. rewrite VV, F60. destruct j as [|[|[|j]]].
  - lra.
  - pose proof (ST 1%nat ltac:(lia)). cbn [Nat.sub] in H. lra.
  - pose proof (ST 1%nat ltac:(lia)) as H1. pose proof (ST 2%nat ltac:(lia)) as H2. cbn [Nat.sub] in H1, H2. lra.
  - unfold row_at. rewrite nth_overflow by lia. cbn. unR. lra.
Qed.
(** Thirty rounds of the search, in both. *)
Example C109_hybrid_run : let f r := (soc (dec r), fs_kw_out_ach (fc r)) in
  shown (sim_drive (demo_sd demo_hev demo_trip) None None) f = shown (r_sim_drive (demo_sd demo_hev demo_trip) None None) f /\
  shown (r_sim_drive (demo_sd demo_hev demo_trip) None None) (fun r => soc (dec r)) =
    Some [0.69062885142437036; 0.69062885142437036; 0.69062885142437036; 0.68949139889469924; 0.69698314647184934]%float.
Proof. vm_compute. split; reflexivity. Qed.

(** 'Both report the same figures whenever the clock starts' is false: on a trace that begins at 100 s Python counts the load at the first
    sample for 100 s, Rust does not. *)
Theorem C112_late_start_refuted : exists (d : sdrive float) ovr dp dr p,
  sim_drive d None ovr = Ok dp /\ r_sim_drive_post d None ovr = Ok (dr, p) /\
  aux_kj (set_post_scalars dp) = 103%float /\ aux_kj p = 3%float.
Proof.
  set (d := demo_sd demo_conv (starting 100 0)). set (o := Some [1; 1; 1; 1]%float).
  destruct (ok_witness (sim_drive d None o) (fun d => PrimFloat.eqb (aux_kj (set_post_scalars d)) 103%float)) as (dp & X & _); [vm_compute; reflexivity|].
  destruct (ok_witness (r_sim_drive_post d None o) (fun q => PrimFloat.eqb (aux_kj (snd q)) 3%float)) as ((dr & p) & Y & _); [vm_compute; reflexivity|].
  exists d, o, dp, dr, p. split; [exact X|]. split; [exact Y|]. vm_compute in X. vm_compute in Y. injection X as <-. injection Y as <- <-. split; vm_compute; reflexivity.
Qed.
(** 'What Python runs Rust runs' is false for a parked vehicle. *)
Theorem C112_parked_refuted : exists (d : sdrive float) dp, sim_drive d None None = Ok dp /\ mpgge (set_post_scalars dp) = 0%float /\
  fuel_kj (set_post_scalars dp) = 25199.999999999996%float /\ r_sim_drive_post d None None = Err PlainException.
Proof.
  set (d := demo_sd demo_conv demo_park).
  destruct (ok_witness (sim_drive d None None) (fun d => PrimFloat.eqb (mpgge (set_post_scalars d)) 0%float)) as (dp & X & _); [vm_compute; reflexivity|].
  exists d, dp. split; [exact X|]. vm_compute in X. injection X as <-. split; [vm_compute; reflexivity|]. split; vm_compute; reflexivity.
Qed.
Example C112_run : let f (p : post_scalars float) := [mpgge p; fuel_kj p; net_kj p; energy_audit_error p; trace_miss_dist_frac p] in
  match sim_drive (demo_sd demo_conv demo_trip) None None, r_sim_drive_post (demo_sd demo_conv demo_trip) None None with
  | Ok dp, Ok (_, p) => f (set_post_scalars dp) = f p /\ mpgge p = 3.3377854680042267%float
  | _, _ => False end.
Proof. vm_compute. split; reflexivity. Qed.
Lemma trip_moves : moves (demo_trip (F := R)).
Proof.
  split; unfold demo_trip, z; cbn [mps map].
  - intros x [<-|[<-|[<-|[<-|[<-|[]]]]]]; unR; lra.
  - exists 1%nat. cbn. unR. split; [lia|lra].
Qed.
(** The hypotheses of C112_figures, over the reals. *)
Example C112_case : exists dp dr p, plain_run conv_trip None /\ nth 0 (time_s (d_cyc conv_trip)) 0 = 0 /\ moves (d_cyc conv_trip) /\
  sim_drive conv_trip None None = Ok dp /\ r_sim_drive_post conv_trip None None = Ok (dr, p) /\
  drag_kj p = drag_kj (set_post_scalars dp) /\ ~ moves (demo_park (F := R)).
Proof.
  destruct C109_case as (dp0 & _ & P & _). assert (Q : None <> @None R \/ veh_pt_type (demo_conv (F := R)) <> HEV) by (right; discriminate).
  destruct (walk_total (with_count conv_trip 0) (start_soc conv_trip None) None) as (dp & E); [cbn; lia|reflexivity|left; reflexivity|].
  assert (E' : sim_drive conv_trip None None = Ok dp) by (rewrite drive_is_walk by exact Q; exact E).
  assert (Z : nth 0 (time_s (demo_trip (F := R))) 0 = 0) by (unfold demo_trip, z; cbn; unR; reflexivity).
  destruct (C112_figures _ _ _ _ _ _ _ P Q Z trip_moves E') as (dr & p & R1 & R2 & _).
  exists dp, dr, p. split; [exact P|]. split; [exact Z|]. split; [exact trip_moves|]. split; [exact E'|]. split; [exact R1|]. split.
  - unfold figures_but_fuel in R2. injection R2. intros. assumption.
  - intros (_ & i & Hi & V). cbn in Hi. unfold demo_park in V. cbn [mps repeat] in V. destruct i as [|[|[|i]]]; cbn in V; revert V; unR; try lra. lia.
Qed.
