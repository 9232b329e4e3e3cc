(** Proofs of C08 (distance book-keeping), C09 (step durations), C10 (next stop),
    C11 (cache transparency) and C12 (constant grade). *)
From Coq Require Import Sorting.Sorted.
From Verif Require Import Num Numpy ListFacts CycleModel CycleSpec MicrotripProofs ConcatProofs CycleProofs1
  ResampleProofs RateProofs.
Local Open Scope R_scope.

(** ** C09 *)
Lemma dt_s_length {F} {N : Num F} (c : cyc F) : length (dt_s c) = length (time_s c).
Proof. apply diff_prepend_length. Qed.
Lemma dt_s_nth (c : cyc R) i d : (i < length (time_s c))%nat ->
  nth i (dt_s c) d = match i with O => nth 0 (time_s c) 0 | S j => nth i (time_s c) 0 - nth j (time_s c) 0 end.
Proof.
  intros H. unfold dt_s. rewrite diff_prepend_nth by assumption. destruct i; [unR; lra|reflexivity].
Qed.
Lemma dt_s_at_i_pos (c : cyc R) i : (1 <= i)%nat -> (i < length (time_s c))%nat ->
  dt_s_at_i c i = Ok (nth i (time_s c) 0 - nth (i - 1) (time_s c) 0).
Proof.
  intros H1 H. unfold dt_s_at_i. destruct (Nat.ltb_spec i 1); [lia|].
  rewrite (pyget_nth _ i 0) by assumption. cbn [bindR].
  rewrite (pyget_pred _ i 0) by lia. reflexivity.
Qed.
Lemma dt_s_at_i_past (c : cyc R) i : (1 <= i)%nat -> (length (time_s c) <= i)%nat ->
  dt_s_at_i c i = Err IndexError.
Proof.
  intros H1 H. unfold dt_s_at_i. destruct (Nat.ltb_spec i 1); [lia|].
  unfold pyget at 1. destruct (Z.ltb_spec (Z.of_nat i) 0); [lia|].
  destruct (Z.ltb_spec (Z.of_nat i) (Z.of_nat (length (time_s c)))); [lia|].
  rewrite andb_false_r. reflexivity.
Qed.
Theorem dt_views (c : cyc R) i x :
  nth_error (dt_s c) i = Some x -> (1 <= i)%nat -> dt_s_at_i c i = Ok x.
Proof.
  intros H H1. assert (Hi : (i < length (time_s c))%nat).
  { rewrite <- dt_s_length. apply nth_error_Some. congruence. }
  rewrite dt_s_at_i_pos by assumption. f_equal.
  rewrite <- (nth_of_nth_error _ _ _ 0 H). rewrite dt_s_nth by assumption.
  destruct i as [|i]; [lia|]. cbn [Nat.sub]. now rewrite Nat.sub_0_r.
Qed.
Theorem dt_views_first (c : cyc R) t : hd_error (time_s c) = Some t ->
  nth_error (dt_s c) 0 = Some t /\ dt_s_at_i c 0 = Ok 0.
Proof.
  intros H. split; [|reflexivity]. unfold dt_s. destruct (time_s c) as [|t0 ts]; [discriminate|].
  injection H as ->. cbn [diff_prepend nth_error]. unR. f_equal. lra.
Qed.
Theorem dt_s_sum (c : cyc R) : Rsum (dt_s c) = end_time c.
Proof. unfold dt_s, end_time. rewrite Rsum_diff_prepend. unR. destruct (time_s c); cbn; lra. Qed.

(** ** C08 *)
Lemma step_speeds_nth (c : cyc R) i d : (S i < length (mps c))%nat ->
  nth (S i) (average_step_speeds c) d = (nth (S i) (mps c) 0 + nth i (mps c) 0) / 2.
Proof.
  intros H. unfold average_step_speeds. cbn [nth].
  rewrite (zipw_nth _ _ _ i 0 0) by (rewrite ?tl_length; lia).
  rewrite nth_tl, lit_R. unR. lra.
Qed.
Lemma step_speeds_length (c : cyc R) : mps c <> [] -> length (average_step_speeds c) = length (mps c).
Proof.
  intros H. unfold average_step_speeds. cbn [length]. rewrite zipw_length, tl_length.
  destruct (mps c); [congruence|]. cbn; lia.
Qed.
Lemma step_dist_length (c : cyc R) : length (mps c) = length (time_s c) -> time_s c <> [] ->
  length (trapz_step_distances c) = length (time_s c).
Proof.
  intros Hw Hne. unfold trapz_step_distances. rewrite zipw_length, dt_s_length.
  rewrite step_speeds_length; [lia|]. destruct (mps c), (time_s c); cbn in *; congruence.
Qed.
Lemma step_dist_nth (c : cyc R) i d : length (mps c) = length (time_s c) -> (i < length (time_s c))%nat ->
  nth i (trapz_step_distances c) d = match i with O => 0 | S j => seg c j end.
Proof.
  intros Hw Hi. unfold trapz_step_distances.
  assert (Hne : mps c <> []) by (destruct (mps c); cbn in *; [lia|discriminate]).
  rewrite (zipw_nth _ _ _ i 0 0) by (rewrite ?step_speeds_length, ?dt_s_length; auto; lia).
  rewrite dt_s_nth by assumption. destruct i as [|i].
  - cbn [average_step_speeds nth]. unR. change (@n0 R RNum) with 0. lra.
  - rewrite step_speeds_nth by lia. unfold seg. unR. lra.
Qed.
Lemma cum_dist_nth (c : cyc R) i d : length (mps c) = length (time_s c) -> (i < length (time_s c))%nat ->
  nth i (cumsum (trapz_step_distances c)) d = trapezoid c 0 i.
Proof.
  intros Hw Hi.
  assert (Hne : time_s c <> []) by (destruct (time_s c); cbn in *; [lia|discriminate]).
  rewrite cumsum_nth by (rewrite step_dist_length; assumption).
  revert d. induction i as [|i IH]; intros d.
  - rewrite Rsum_firstn_S by (rewrite step_dist_length; auto). rewrite step_dist_nth by assumption.
    cbn. lra.
  - rewrite Rsum_firstn_S by (rewrite step_dist_length; auto). rewrite IH by (assumption || lia).
    rewrite step_dist_nth by assumption. rewrite trapezoid_snoc. reflexivity.
Qed.
Lemma cum_dist_length (c : cyc R) : length (mps c) = length (time_s c) -> time_s c <> [] ->
  length (cumsum (trapz_step_distances c)) = length (time_s c).
Proof. intros. unfold cumsum. rewrite cumsum_from_length. now apply step_dist_length. Qed.
Lemma cum_dist_eq (c : cyc R) : length (mps c) = length (time_s c) -> time_s c <> [] ->
  cumsum (trapz_step_distances c) = cumulative_distance c.
Proof.
  intros Hw Hne. apply nth_ext with 0 0.
  - rewrite cum_dist_length by assumption. unfold cumulative_distance. now rewrite map_length, seq_length.
  - intros i Hi. rewrite cum_dist_length in Hi by assumption. rewrite cum_dist_nth by assumption.
    unfold cumulative_distance. rewrite (nth_indep _ 0 (trapezoid c 0 0)) by (rewrite map_length, seq_length; lia).
    rewrite map_nth, seq_nth by lia. reflexivity.
Qed.

Theorem start_distance (c : cyc R) i :
  length (mps c) = length (time_s c) -> (i <= length (time_s c))%nat ->
  trapz_step_start_distance c i = Ok (trapezoid c 0 (i - 1)).
Proof.
  intros Hw Hi. unfold trapz_step_start_distance.
  destruct (Nat.leb_spec i (length (time_s c))); [|lia]. f_equal.
  rewrite nsum_Rsum. set (z := zipw _ _ _).
  assert (Hz : length z = (i - 1)%nat).
  { unfold z, slice. rewrite !zipw_length, diff_length, !firstn_length, skipn_length. lia. }
  assert (G : forall k, (k <= i - 1)%nat -> Rsum (firstn k z) = trapezoid c 0 k).
  { induction k as [|k IH]; intros Hk; [reflexivity|].
    rewrite Rsum_firstn_S by lia. rewrite IH by lia. rewrite trapezoid_snoc. f_equal. cbn [Nat.add].
    unfold z, seg, slice.
    rewrite (zipw_nth _ _ _ k 0 0) by (rewrite ?zipw_length, ?diff_length, ?firstn_length, ?skipn_length; lia).
    rewrite (zipw_nth _ _ _ k 0 0) by (rewrite ?firstn_length, ?skipn_length; lia).
    rewrite diff_nth by (rewrite firstn_length; lia).
    rewrite !nth_firstn by lia. rewrite nth_skipn, lit_R. unR. cbn [Nat.add]. lra. }
  rewrite <- (firstn_all z), Hz. apply G. lia.
Qed.
Theorem step_distance (c : cyc R) i :
  length (mps c) = length (time_s c) -> (1 <= i)%nat -> (i < length (time_s c))%nat ->
  trapz_distance_for_step c i = Ok (trapezoid c (i - 1) 1).
Proof.
  intros Hw H1 Hi. unfold trapz_distance_for_step, average_step_speed_at.
  rewrite (pyget_nth _ i 0) by lia. cbn [bindR]. rewrite (pyget_pred _ i 0) by lia. cbn [bindR].
  rewrite dt_s_at_i_pos by assumption. cbn [bindR trapezoid].
  replace (S (i - 1)) with i by lia. rewrite lit_R. unR. f_equal. lra.
Qed.
Theorem range_distance (c : cyc R) i j :
  length (mps c) = length (time_s c) -> (1 <= i <= j)%nat -> (j <= length (time_s c))%nat ->
  trapz_distance_over_range c i j = trapezoid c (i - 1) (j - i).
Proof.
  intros Hw Hij Hj. unfold trapz_distance_over_range. rewrite nsum_Rsum. unfold slice.
  assert (Hne : time_s c <> []) by (destruct (time_s c); cbn in *; [lia|discriminate]).
  assert (G : forall n, (i + n <= length (time_s c))%nat ->
            Rsum (firstn n (skipn i (trapz_step_distances c))) = trapezoid c (i - 1) n).
  { induction n as [|n IH]; intros Hn; [reflexivity|].
    rewrite Rsum_firstn_S by (rewrite skipn_length, step_dist_length; auto; lia).
    rewrite IH by lia. rewrite trapezoid_snoc. f_equal. rewrite nth_skipn, step_dist_nth by (auto; lia).
    destruct i as [|i]; [lia|]. cbn [Nat.add]. f_equal. lia. }
  apply G. lia.
Qed.
Lemma seg_nonneg (c : cyc R) j : nondecreasing (time_s c) -> nonneg (mps c) ->
  length (mps c) = length (time_s c) -> (S j < length (time_s c))%nat -> 0 <= seg c j.
Proof.
  intros Ht Hv Hw Hj. unfold seg.
  assert (nth j (time_s c) 0 <= nth (S j) (time_s c) 0).
  { apply (Ht j (S j)); [lia| |]; apply nth_error_nth'; lia. }
  assert (0 <= nth j (mps c) 0) by (apply Hv; apply nth_In; lia).
  assert (0 <= nth (S j) (mps c) 0) by (apply Hv; apply nth_In; lia).
  apply Rmult_le_pos; lra.
Qed.
Theorem trapezoid_mono (c : cyc R) i j :
  nondecreasing (time_s c) -> nonneg (mps c) -> length (mps c) = length (time_s c) ->
  (i <= j)%nat -> (j < length (time_s c))%nat -> trapezoid c 0 i <= trapezoid c 0 j.
Proof.
  intros Ht Hv Hw Hij. induction Hij as [|j Hij IH]; intros Hj; [lra|].
  rewrite trapezoid_snoc. cbn [Nat.add].
  pose proof (seg_nonneg c j Ht Hv Hw Hj). specialize (IH ltac:(lia)). lra.
Qed.


Lemma next_stop_arrays (c : cyc R) k d : cached_or_not c k -> time_s c <> [] ->
  length (mps c) = length (time_s c) ->
  calc_distance_to_next_stop_from c d k =
  (let am := argmax_b (zipw (fun x s => Rltb d x && s)%bool (cumsum (trapz_step_distances c))
                            (map (fun v => Rleb v (1 / 1000000)) (mps c))) in
   do x <- pyget (cumsum (trapz_step_distances c)) (Z.of_nat am); Ok (x - d)).
Proof.
  intros Hk Hne Hw. unfold calc_distance_to_next_stop_from.
  assert (E : (match k with Some k => cc_distances k | None => cumsum (trapz_step_distances c) end)
              = cumsum (trapz_step_distances c)).
  { destruct Hk as [->| ->]; reflexivity. }
  assert (E2 : (match k with Some k => cc_stops k | None => map (fun v => nleb v tol6) (mps c) end)
              = map (fun v => Rleb v (1 / 1000000)) (mps c)).
  { destruct Hk as [->| ->]; reflexivity. }
  rewrite E, E2. clear E E2. unR.
  pose proof (cum_dist_length c Hw Hne) as Hl.
  destruct (cumsum (trapz_step_distances c)) as [|x l]; [|reflexivity].
  destruct (time_s c); [congruence|discriminate].
Qed.

Theorem next_stop_found (c : cyc R) k d i v :
  cached_or_not c k -> length (mps c) = length (time_s c) ->
  nth_error (mps c) i = Some v -> v <= 1 / 1000000 -> d < trapezoid c 0 i ->
  (forall j u, (j < i)%nat -> nth_error (mps c) j = Some u -> u <= 1 / 1000000 -> trapezoid c 0 j <= d) ->
  calc_distance_to_next_stop_from c d k = Ok (trapezoid c 0 i - d).
Proof.
  intros Hk Hw Hv Hstop Hd Hfirst.
  assert (Hi : (i < length (time_s c))%nat) by (rewrite <- Hw; apply nth_error_Some; congruence).
  assert (Hne : time_s c <> []) by (destruct (time_s c); cbn in *; [lia|discriminate]).
  rewrite next_stop_arrays by assumption. cbn beta zeta.
  set (z := zipw _ _ _).
  assert (Hzl : length z = length (time_s c)).
  { unfold z. rewrite zipw_length, cum_dist_length, map_length by assumption. lia. }
  assert (Hz : forall j, (j < length (time_s c))%nat ->
     nth_error z j = Some (Rltb d (trapezoid c 0 j) && Rleb (nth j (mps c) 0) (1 / 1000000))%bool).
  { intros j Hj. rewrite (nth_error_nth' _ true) by lia. f_equal. unfold z.
    rewrite (zipw_nth _ _ _ j 0 true) by (rewrite ?cum_dist_length, ?map_length; auto; lia).
    rewrite cum_dist_nth by assumption. f_equal.
    rewrite (nth_indep _ true ((fun v => Rleb v (1/1000000)) 0)) by (rewrite map_length; lia).
    now rewrite (map_nth (fun v => Rleb v (1 / 1000000))). }
  assert (Hft : first_true z = Some i).
  { apply first_true_Some. split.
    - rewrite Hz by assumption. rewrite (nth_of_nth_error _ _ _ 0 Hv).
      destruct (Rltb_spec d (trapezoid c 0 i)); [|lra]. destruct (Rleb_spec v (1 / 1000000)); [|lra]. reflexivity.
    - intros j Hj. rewrite Hz by lia. f_equal.
      assert (Hje : nth_error (mps c) j = Some (nth j (mps c) 0)) by (apply nth_error_nth'; lia).
      destruct (Rleb_spec (nth j (mps c) 0) (1 / 1000000)) as [Hle|_]; [|apply andb_false_r].
      specialize (Hfirst j _ Hj Hje Hle). destruct (Rltb_spec d (trapezoid c 0 j)); [lra|reflexivity]. }
  unfold argmax_b. rewrite Hft. rewrite (pyget_nth _ i 0) by (rewrite cum_dist_length; assumption).
  cbn [bindR]. now rewrite cum_dist_nth.
Qed.
Theorem next_stop_none (c : cyc R) k d :
  cached_or_not c k -> length (mps c) = length (time_s c) -> time_s c <> [] ->
  (forall j u, nth_error (mps c) j = Some u -> u <= 1 / 1000000 -> trapezoid c 0 j <= d) ->
  calc_distance_to_next_stop_from c d k = Ok (- d).
Proof.
  intros Hk Hw Hne Hall. rewrite next_stop_arrays by assumption. cbn beta zeta.
  set (z := zipw _ _ _).
  assert (Hft : first_true z = None).
  { apply first_true_None. intros j Hj.
    assert (Hlj : (j < length z)%nat) by (apply nth_error_Some; congruence).
    unfold z in Hlj. rewrite zipw_length, cum_dist_length, map_length in Hlj by assumption.
    apply (nth_of_nth_error _ _ _ true) in Hj. unfold z in Hj.
    rewrite (zipw_nth _ _ _ j 0 true) in Hj by (rewrite ?cum_dist_length, ?map_length; auto; lia).
    rewrite cum_dist_nth in Hj by (assumption || lia).
    rewrite (nth_indep _ true ((fun v => Rleb v (1/1000000)) 0)) in Hj by (rewrite map_length; lia).
    rewrite (map_nth (fun v => Rleb v (1 / 1000000))) in Hj.
    apply andb_prop in Hj as [H1 H2]. apply Rltb_true in H1. apply Rleb_true in H2.
    specialize (Hall j (nth j (mps c) 0) ltac:(apply nth_error_nth'; lia) H2). lra. }
  unfold argmax_b. rewrite Hft.
  assert (Hl : (0 < length (time_s c))%nat) by (destruct (time_s c); cbn; [congruence|lia]).
  rewrite (pyget_nth _ 0 0) by (rewrite cum_dist_length; assumption).
  cbn [bindR]. rewrite cum_dist_nth by assumption. cbn [trapezoid]. f_equal. lra.
Qed.

(** ** C11 *)
Lemma cache_knots_interp ds : forall hs idx x x0 y0,
  length hs = length ds -> x0 <= x ->
  StronglySorted Rle (x0 :: ds) ->
  (* equal distance means equal elevation *)
  (forall i a b u v, nth_error (x0 :: ds) i = Some a -> nth_error (x0 :: ds) (S i) = Some b ->
     nth_error (y0 :: hs) i = Some u -> nth_error (y0 :: hs) (S i) = Some v -> a = b -> u = v) ->
  interp_from x x0 y0 (combine ds hs) =
  interp_from x x0 y0 (combine (map (fun k => fst (fst k)) (cache_knots idx (Some x0) ds hs))
                               (map snd (cache_knots idx (Some x0) ds hs))).
Proof.
  induction ds as [|d ds IH]; intros [|h hs] idx x x0 y0 Hlen Hx Hs Heq; cbn in Hlen; try discriminate; [reflexivity|].
  apply StronglySorted_inv in Hs as [Hs' Hx0]. rewrite Forall_forall in Hx0.
  assert (Hd : x0 <= d) by (apply Hx0; now left).
  cbn [cache_knots combine]. unR. destruct (Rltb_spec x0 d) as [Hlt|Hge].
  - cbn [map fst snd combine interp_from]. unR. destruct (Rltb_spec x d) as [Hxd|Hxd]; [reflexivity|].
    apply IH; [lia|lra|assumption|].
    intros i a b u v H1 H2 H3 H4. exact (Heq (S i) a b u v H1 H2 H3 H4).
  - assert (d = x0) by lra. subst d. cbn [interp_from]. unR. destruct (Rltb_spec x x0); [lra|].
    assert (h = y0) by (symmetry; exact (Heq O x0 x0 y0 h eq_refl eq_refl eq_refl eq_refl eq_refl)). subst h.
    apply IH; [lia|lra|assumption|].
    intros i a b u v H1 H2 H3 H4. exact (Heq (S i) a b u v H1 H2 H3 H4).
Qed.

Lemma elev_length (c : cyc R) : wf c -> time_s c <> [] -> length (trapz_elevations c) = length (time_s c).
Proof.
  intros (W1 & W2 & _) Hne. unfold trapz_elevations, cumsum.
  rewrite cumsum_from_length, !zipw_length, map_length, step_dist_length by assumption. lia.
Qed.
Lemma elev_step (c : cyc R) i : wf c -> (S i < length (time_s c))%nat ->
  nth (S i) (trapz_elevations c) 0 =
  nth i (trapz_elevations c) 0 + cos (atan (nth (S i) (grade c) 0)) * seg c i * nth (S i) (grade c) 0.
Proof.
  intros (W1 & W2 & W3) Hi.
  assert (Hne : time_s c <> []) by (destruct (time_s c); cbn in *; [lia|discriminate]).
  unfold trapz_elevations.
  set (z := zipw nmul (zipw nmul _ _) _).
  assert (Hz : length z = length (time_s c)).
  { unfold z. rewrite !zipw_length, map_length, step_dist_length by assumption. lia. }
  rewrite !cumsum_nth by lia. rewrite (Rsum_firstn_S z (S i)) by lia. f_equal.
  unfold z. rewrite (zipw_nth _ _ _ (S i) 0 0) by (rewrite ?zipw_length, ?map_length, ?step_dist_length; auto; lia).
  rewrite (zipw_nth _ _ _ (S i) 0 0) by (rewrite ?map_length, ?step_dist_length; auto; lia).
  rewrite step_dist_nth by assumption. unR.
  set (f := fun g => cos (atan g)).
  rewrite (nth_indep _ 0 (f 0)) by (rewrite map_length; lia). rewrite (map_nth f). reflexivity.
Qed.
Lemma elev_first (c : cyc R) : wf c -> time_s c <> [] -> nth 0 (trapz_elevations c) 0 = 0.
Proof.
  intros (W1 & W2 & W3) Hne.
  assert (Hi : (0 < length (time_s c))%nat) by (destruct (time_s c); cbn in *; [congruence|lia]).
  unfold trapz_elevations.
  set (z := zipw nmul (zipw nmul _ _) _).
  assert (Hz : length z = length (time_s c)).
  { unfold z. rewrite !zipw_length, map_length, step_dist_length by assumption. lia. }
  rewrite cumsum_nth by lia. rewrite Rsum_firstn_S by lia. cbn [firstn].
  unfold z. rewrite (zipw_nth _ _ _ 0 0 0) by (rewrite ?zipw_length, ?map_length, ?step_dist_length; auto; lia).
  rewrite (zipw_nth _ _ _ 0 0 0) by (rewrite ?map_length, ?step_dist_length; auto; lia).
  rewrite step_dist_nth by assumption. unR. unfold Rsum; cbn. lra.
Qed.

Lemma nondecreasing_SS l : nondecreasing l <-> StronglySorted Rle l.
Proof.
  split.
  - induction l as [|x l IH]; intros H; constructor.
    + apply IH. intros i j a b Hij Ha Hb. exact (H (S i) (S j) a b ltac:(lia) Ha Hb).
    + apply Forall_forall. intros y Hy. apply In_nth_error in Hy as (k & Hk).
      exact (H 0%nat (S k) x y ltac:(lia) eq_refl Hk).
  - induction l as [|x l IH]; intros H i j a b Hij Ha Hb.
    + destruct i; discriminate.
    + apply StronglySorted_inv in H as [H1 H2]. rewrite Forall_forall in H2.
      destruct j as [|j]; [lia|]. cbn in Hb.
      destruct i as [|i]; cbn in Ha.
      * injection Ha as <-. apply H2. now apply nth_error_In in Hb.
      * exact (IH H1 i j a b ltac:(lia) Ha Hb).
Qed.
Lemma cum_dist_nondecreasing (c : cyc R) :
  nondecreasing (time_s c) -> nonneg (mps c) -> length (mps c) = length (time_s c) -> time_s c <> [] ->
  nondecreasing (cumsum (trapz_step_distances c)).
Proof.
  intros Ht Hv Hw Hne i j a b Hij Ha Hb.
  assert (Hj : (j < length (time_s c))%nat) by (rewrite <- (cum_dist_length c) by assumption; apply nth_error_Some; congruence).
  apply (nth_of_nth_error _ _ _ 0) in Ha, Hb. rewrite cum_dist_nth in Ha, Hb by (assumption || lia).
  subst. apply trapezoid_mono; auto; lia.
Qed.

Lemma cached_elevation (c : cyc R) x : wf c -> time_s c <> [] ->
  nondecreasing (time_s c) -> nonneg (mps c) -> all_zero (grade c) = false ->
  interp_elevation (build_cache c) x =
  interp1 x (combine (cumsum (trapz_step_distances c)) (trapz_elevations c)).
Proof.
  intros Hwf Hne Ht Hv Hz. pose proof Hwf as (W1 & W2 & W3).
  unfold interp_elevation, build_cache. cbn [grade_all_zero cc_ds cc_hs]. rewrite Hz.
  pose proof (cum_dist_nondecreasing c Ht Hv W1 Hne) as Hnd.
  pose proof (cum_dist_length c W1 Hne) as Hl1. pose proof (elev_length c Hwf Hne) as Hl2.
  assert (Heq : forall i a b u v, nth_error (cumsum (trapz_step_distances c)) i = Some a ->
     nth_error (cumsum (trapz_step_distances c)) (S i) = Some b ->
     nth_error (trapz_elevations c) i = Some u -> nth_error (trapz_elevations c) (S i) = Some v -> a = b -> u = v).
  { intros i a b u v H1 H2 H3 H4 Hab.
    assert (Hi : (S i < length (time_s c))%nat) by (rewrite <- Hl1; apply nth_error_Some; congruence).
    apply (nth_of_nth_error _ _ _ 0) in H1, H2, H3, H4.
    rewrite cum_dist_nth in H1, H2 by (assumption || lia).
    rewrite trapezoid_snoc in H2. cbn [Nat.add] in H2. rewrite elev_step in H4 by assumption.
    assert (seg c i = 0) as Hs by lra. rewrite Hs in H4. rewrite H3 in H4. lra. }
  remember (cumsum (trapz_step_distances c)) as ds eqn:Eds. remember (trapz_elevations c) as hs eqn:Ehs.
  destruct ds as [|d0 ds]; [cbn in Hl1; destruct (time_s c); [congruence|discriminate]|].
  destruct hs as [|h0 hs]; [cbn in Hl2; destruct (time_s c); [congruence|discriminate]|].
  cbn [cache_knots combine map fst snd interp1]. unR. destruct (Rltb_spec x d0); [reflexivity|].
  symmetry. apply cache_knots_interp; [cbn [length] in *; lia|lra| |exact Heq].
  now apply nondecreasing_SS.
Qed.

Theorem cache_averages (c : cyc R) dist delta :
  wf c -> time_s c <> [] -> nondecreasing (time_s c) -> nonneg (mps c) -> 1 / 1000000 < delta ->
  average_grade_over_range c dist delta (Some (build_cache c)) = average_grade_over_range c dist delta None.
Proof.
  intros Hwf Hne Ht Hv Hdelta. unfold average_grade_over_range.
  change (grade_all_zero (build_cache c)) with (all_zero (grade c)).
  destruct (all_zero (grade c)) eqn:Hz; [reflexivity|]. unR.
  assert (E : Rleb delta (@tol6 R RNum) = false).
  { apply Rleb_false. exact Hdelta. }
  rewrite E. rewrite !cached_elevation by assumption. reflexivity.
Qed.

(** Point look-ups: with strictly increasing distances the cache is transparent too. *)
Lemma cache_knots_strict ds : forall hs idx l, length hs = length ds -> StronglySorted Rlt (l :: ds) ->
  cache_knots idx (Some l) ds hs = combine (combine ds (map nofN (seq idx (length ds)))) hs.
Proof.
  induction ds as [|d ds IH]; intros [|h hs] idx l Hlen Hs; cbn in Hlen; try discriminate; [reflexivity|].
  apply StronglySorted_inv in Hs as [Hs' HF]. rewrite Forall_forall in HF.
  assert (l < d) by (apply HF; now left). cbn [cache_knots length seq map combine]. unR.
  destruct (Rltb_spec l d); [|lra]. f_equal. apply IH; [lia|assumption].
Qed.
Lemma map_fst_combine3 {A B C} : forall (l1 : list A) (l2 : list B) (l3 : list C),
  length l2 = length l1 -> length l3 = length l1 ->
  map (fun k => fst (fst k)) (combine (combine l1 l2) l3) = l1 /\
  map (fun k => snd (fst k)) (combine (combine l1 l2) l3) = l2.
Proof.
  induction l1 as [|a l1 IH]; intros [|b l2] [|c0 l3] H2 H3; cbn in *; try discriminate; [auto|].
  destruct (IH l2 l3 ltac:(lia) ltac:(lia)) as [E1 E2]. rewrite E1, E2. auto.
Qed.
(** Interpolating indices at x strictly between knot distances, rounding up, finds the
    segment's end index. *)
Lemma interp_index ds : forall x d0 i0, StronglySorted Rlt (d0 :: ds) -> d0 < x -> x <= last (d0 :: ds) d0 ->
  exists j a b, nth_error (d0 :: ds) j = Some a /\ nth_error ds j = Some b /\ a < x <= b /\
    @nceil R RNum (interp_from x d0 (INR i0) (combine ds (map INR (seq (S i0) (length ds))))) = Z.of_nat (i0 + S j).
Proof.
  induction ds as [|d ds IH]; intros x d0 i0 Hs H0 Hl.
  - cbn in Hl. lra.
  - apply StronglySorted_inv in Hs as [Hs' HF]. rewrite Forall_forall in HF.
    assert (H0d : d0 < d) by (apply HF; now left).
    cbn [length seq map combine interp_from]. unR.
    destruct (Rltb_spec x d) as [Hxd|Hxd].
    + exists O, d0, d. split; [reflexivity|]. split; [reflexivity|]. split; [lra|].
      destruct (Reqb_spec x d0); [lra|]. apply nceil_R_unique.
      rewrite Nat.add_comm. cbn [Nat.add]. rewrite <- INR_IZR_INZ, S_INR.
      set (w := (x - d0) / (d - d0)).
      assert (Hw : 0 < w <= 1).
      { unfold w. split; [apply Rdiv_lt_0_compat; lra|].
        apply (Rmult_le_reg_r (d - d0)); [lra|]. unfold Rdiv. rewrite Rmult_assoc, Rinv_l by lra. lra. }
      replace ((INR i0 + 1 - INR i0) / (d - d0) * (x - d0) + INR i0) with (w + INR i0) by (unfold w; field; lra).
      lra.
    + destruct (Req_dec x d) as [->|Hne].
      * exists O, d0, d. split; [reflexivity|]. split; [reflexivity|]. split; [lra|].
        assert (E : interp_from d d (INR (S i0)) (combine ds (map INR (seq (S (S i0)) (length ds)))) = INR (S i0)).
        { destruct ds as [|d2 ds]; [reflexivity|]. cbn [length seq map combine interp_from]. unR.
          apply StronglySorted_inv in Hs' as [_ HF']. rewrite Forall_forall in HF'.
          assert (d < d2) by (apply HF'; now left). destruct (Rltb_spec d d2); [|lra].
          destruct (Reqb_spec d d); [reflexivity|lra]. }
        rewrite E. apply nceil_R_unique. replace (i0 + 1)%nat with (S i0) by lia.
        rewrite <- INR_IZR_INZ. lra.
      * change (last (d0 :: d :: ds) d0) with (last (d :: ds) d0) in Hl. rewrite (last_default d ds d0 d) in Hl.
        destruct (IH x d (S i0) Hs' ltac:(lra) Hl) as (j & a & b & E1 & E2 & E3 & E4).
        exists (S j), a, b. split; [exact E1|]. split; [exact E2|]. split; [exact E3|].
        rewrite E4. f_equal. lia.
Qed.
Lemma grade_scan_spec ds : forall gs x d0 j a b g gl, length gs = length ds -> StronglySorted Rlt (d0 :: ds) ->
  nth_error (d0 :: ds) j = Some a -> nth_error ds j = Some b -> nth_error gs j = Some g -> a < x <= b ->
  grade_scan x d0 ds gs gl = g.
Proof.
  induction ds as [|d ds IH]; intros [|g0 gs] x d0 j a b g gl Hlen Hs Ha Hb Hg Hx; cbn in Hlen; try discriminate;
    try (destruct j; discriminate).
  apply StronglySorted_inv in Hs as [Hs' HF]. rewrite Forall_forall in HF.
  cbn [grade_scan]. unR. destruct j as [|j]; cbn in Ha, Hb, Hg.
  - injection Ha as ->. injection Hb as ->. injection Hg as ->.
    destruct (Rltb_spec a x); [|lra]. destruct (Rleb_spec x b); [|lra]. reflexivity.
  - assert (Hd : d <= a).
    { destruct j as [|j]; cbn in Ha; [injection Ha as ->; lra|].
      apply StronglySorted_inv in Hs' as [_ HF']. rewrite Forall_forall in HF'. left. apply HF'.
      now apply nth_error_In in Ha. }
    destruct (Rleb_spec x d); [lra|]. rewrite andb_false_r.
    apply (IH gs x d j a b g gl); auto.
Qed.

Theorem cache_points (c : cyc R) dist delta :
  wf c -> time_s c <> [] -> increasing (cumulative_distance c) -> delta <= 1 / 1000000 ->
  average_grade_over_range c dist delta (Some (build_cache c)) = average_grade_over_range c dist delta None.
Proof.
  intros Hwf Hne Hinc Hdelta. pose proof Hwf as (W1 & W2 & W3). unfold average_grade_over_range.
  change (grade_all_zero (build_cache c)) with (all_zero (grade c)).
  destruct (all_zero (grade c)) eqn:Hz; [reflexivity|]. unR.
  assert (E : Rleb delta (@tol6 R RNum) = true) by (apply Rleb_true; exact Hdelta).
  rewrite E. unfold interp_grade, build_cache. cbn [grade_all_zero cc_ds cc_is cc_grades]. rewrite Hz.
  rewrite <- cum_dist_eq in Hinc by assumption. apply increasing_SS in Hinc.
  pose proof (cum_dist_length c W1 Hne) as Hl1. pose proof (elev_length c Hwf Hne) as Hl2.
  remember (cumsum (trapz_step_distances c)) as ds eqn:Eds. remember (trapz_elevations c) as hs eqn:Ehs.
  destruct ds as [|d0 ds]; [cbn in Hl1; destruct (time_s c); [congruence|discriminate]|].
  destruct hs as [|h0 hs]; [cbn in Hl2; destruct (time_s c); [congruence|discriminate]|].
  cbn [length] in Hl1, Hl2.
  cbn [cache_knots]. rewrite (cache_knots_strict ds hs 1 d0) by (assumption || lia).
  cbn [map fst snd].
  destruct (map_fst_combine3 ds (map nofN (seq 1 (length ds))) hs) as [E1 E2];
    [now rewrite map_length, seq_length|lia|].
  rewrite E1, E2. rewrite !pyget_0, !pyget_last. cbn [bindR]. unR.
  destruct (Rleb_spec dist d0) as [Hd|Hd]; [reflexivity|].
  destruct (Rltb_spec (last (d0 :: ds) d0) dist) as [Hd2|Hd2]; [reflexivity|].
  destruct (grade c) as [|g0 gs] eqn:Eg; [cbn in W2; lia|]. cbn [tl]. rewrite pyget_last. cbn [bindR].
  destruct (interp_index ds dist d0 0 Hinc ltac:(lra) ltac:(lra)) as (j & a & b & J1 & J2 & J3 & J4).
  assert (Hj : (j < length ds)%nat) by (apply nth_error_Some; congruence).
  cbn [length] in W2.
  assert (Hg : nth_error gs j = Some (nth j gs 0)) by (apply nth_error_nth'; lia).
  rewrite (grade_scan_spec ds gs dist d0 j a b (nth j gs 0)) by (assumption || lia).
  cbn [combine interp1]. unR. destruct (Rltb_spec dist d0); [lra|].
  assert (Em : map (@nofN R RNum) (seq 1 (length ds)) = map INR (seq 1 (length ds))).
  { apply map_ext. intros. apply nofN_R. }
  rewrite Em, nofN_R, J4. cbn [Nat.add].
  exact (pyget_nonneg (g0 :: gs) (S j) _ Hg).
Qed.
