(** C11 counterexample and C12 (constant grade). *)
From Coq Require Import Sorting.Sorted.
From Verif Require Import Num Numpy ListFacts CycleModel CycleSpec MicrotripProofs ConcatProofs CycleProofs1
  ResampleProofs RateProofs DistProofs.
Local Open Scope R_scope.

(** ** C11: a stop in front of a moving stretch makes the cached point look-up wrong *)
Definition stopgo : cyc R :=
  mkcyc [0; 1; 2; 3] [0; 0; 0; 20] [1 / 100; 2 / 100; 3 / 100; 4 / 100] [0; 0; 0; 0].

Ltac Rcomp := repeat (rcase; try lra; cbn [andb negb orb]).

Lemma Rltb_t x y : x < y -> Rltb x y = true. Proof. apply Rltb_true. Qed.
Lemma Rltb_f x y : y <= x -> Rltb x y = false. Proof. apply Rltb_false. Qed.
Lemma Rleb_t x y : x <= y -> Rleb x y = true. Proof. apply Rleb_true. Qed.
Lemma Rleb_f x y : y < x -> Rleb x y = false. Proof. apply Rleb_false. Qed.
Lemma Reqb_t x y : x = y -> Reqb x y = true. Proof. apply Reqb_true. Qed.
Lemma Reqb_f x y : x <> y -> Reqb x y = false. Proof. apply Reqb_false. Qed.

Lemma stopgo_ds : cumsum (trapz_step_distances stopgo) = [0; 0; 0; 10].
Proof.
  rewrite cum_dist_eq by (cbn; congruence || reflexivity). unfold cumulative_distance. cbn.
  repeat f_equal; lra.
Qed.
Lemma stopgo_zero : all_zero (grade stopgo) = false.
Proof. cbn. unR. rewrite Reqb_f by lra. reflexivity. Qed.

Lemma stopgo_uncached : average_grade_over_range stopgo 1 0 None = Ok (4 / 100).
Proof.
  unfold average_grade_over_range. rewrite stopgo_zero, stopgo_ds. unR.
  rewrite Rleb_t by (unfold tol6; rewrite lit_R; lra).
  rewrite pyget_0. cbn [bindR]. rewrite Rleb_f by lra.
  rewrite pyget_last. cbn [bindR last]. rewrite Rltb_f by lra.
  cbn [tl stopgo grade]. rewrite pyget_last. cbn [bindR last grade_scan]. unR.
  rewrite (Rleb_f 1 0) by lra. rewrite andb_false_r. rewrite (Rltb_t 0 1), (Rleb_t 1 10) by lra. reflexivity.
Qed.
Lemma stopgo_cached : average_grade_over_range stopgo 1 0 (Some (build_cache stopgo)) = Ok (2 / 100).
Proof.
  unfold average_grade_over_range. change (grade_all_zero (build_cache stopgo)) with (all_zero (grade stopgo)).
  rewrite stopgo_zero. unR.
  rewrite Rleb_t by (unfold tol6; rewrite lit_R; lra).
  unfold interp_grade, build_cache. cbn [grade_all_zero cc_ds cc_is cc_grades]. rewrite stopgo_zero, stopgo_ds.
  assert (Hl : length (trapz_elevations stopgo) = 4%nat).
  { apply (elev_length stopgo); [repeat split|cbn; congruence]. }
  destruct (trapz_elevations stopgo) as [|h0 [|h1 [|h2 [|h3 [|]]]]]; try discriminate.
  cbn [cache_knots]. unR. rewrite !(Rltb_f 0 0) by lra. rewrite (Rltb_t 0 10) by lra. cbn [map fst snd].
  rewrite pyget_0. cbn [bindR]. rewrite (Rleb_f 1 0) by lra. rewrite pyget_last. cbn [bindR last].
  rewrite Rltb_f by lra. cbn [combine interp1 interp_from]. unR. rewrite !nofN_R.
  rewrite (Rltb_f 1 0), (Rltb_t 1 10), (Reqb_f 1 0) by lra.
  cbn [grade stopgo]. rewrite (nceil_R_unique _ 1%Z) by (cbn [INR]; lra).
  exact (pyget_nonneg [1 / 100; 2 / 100; 3 / 100; 4 / 100] 1 _ eq_refl).
Qed.

(** ** C12 *)
Lemma interp_proportional ds : forall x d0 K, StronglySorted Rle (d0 :: ds) -> d0 <= x -> x <= last (d0 :: ds) d0 ->
  interp_from x d0 (K * d0) (combine ds (map (Rmult K) ds)) = K * x.
Proof.
  induction ds as [|d ds IH]; intros x d0 K Hs H0 Hl.
  - cbn in *. f_equal. lra.
  - apply StronglySorted_inv in Hs as [Hs' HF]. rewrite Forall_forall in HF.
    assert (H0d : d0 <= d) by (apply HF; now left). cbn [map combine interp_from]. unR.
    destruct (Rltb_spec x d) as [Hxd|Hxd].
    + destruct (Reqb_spec x d0); [subst; reflexivity|]. field. lra.
    + apply IH; [assumption|lra|].
      change (last (d0 :: d :: ds) d0) with (last (d :: ds) d0) in Hl. now rewrite (last_default d ds d0 d) in Hl.
Qed.

Lemma const_elev (c : cyc R) g : wf c -> (forall x, In x (grade c) -> x = g) -> time_s c <> [] ->
  trapz_elevations c = map (Rmult (cos (atan g) * g)) (cumsum (trapz_step_distances c)).
Proof.
  intros Hwf Hg Hne. pose proof Hwf as (W1 & W2 & W3). apply nth_ext with 0 0.
  - rewrite map_length, elev_length, cum_dist_length by assumption. reflexivity.
  - intros i Hi. rewrite elev_length in Hi by assumption.
    set (f := Rmult (cos (atan g) * g)).
    rewrite (nth_indep (map f _) 0 (f 0)) by (rewrite map_length, cum_dist_length; auto).
    rewrite map_nth. rewrite cum_dist_nth by assumption. unfold f. clear f.
    induction i as [|i IH].
    + rewrite elev_first by assumption. cbn. lra.
    + rewrite elev_step by assumption. rewrite IH by lia. rewrite trapezoid_snoc.
      assert (E : nth (S i) (grade c) 0 = g) by (apply Hg; apply nth_In; lia). rewrite E.
      cbn [Nat.add]. ring.
Qed.
Lemma cos_atan_pos g : 0 < cos (atan g).
Proof. pose proof (atan_bound g). apply cos_gt_0; lra. Qed.
Lemma sin_atan_eq g : cos (atan g) * g = sin (atan g).
Proof.
  rewrite <- (tan_atan g) at 2. unfold tan. pose proof (cos_atan_pos g). field. lra.
Qed.
Lemma grade_recovered g : tan (asin (cos (atan g) * g)) = g.
Proof.
  rewrite sin_atan_eq. pose proof (atan_bound g). rewrite asin_sin by lra. apply tan_atan.
Qed.
Lemma all_zero_false_of (l : list R) g : l <> [] -> (forall x, In x l -> x = g) -> g <> 0 -> all_zero l = false.
Proof.
  destruct l as [|x l]; [congruence|]. intros _ H Hg. cbn [all_zero forallb]. unR.
  rewrite Reqb_f; [reflexivity|]. rewrite (H x (or_introl eq_refl)). exact Hg.
Qed.
Lemma all_zero_true (l : list R) : (forall x, In x l -> x = 0) -> all_zero l = true.
Proof.
  intros H. apply forallb_forall. intros x Hx. unR. apply Reqb_t. now apply H.
Qed.

Theorem constant_grade_average (c : cyc R) g dist delta k :
  cached_or_not c k ->
  wf c -> time_s c <> [] -> nondecreasing (time_s c) -> nonneg (mps c) ->
  (forall x, In x (grade c) -> x = g) ->
  0 <= dist -> 1 / 1000000 < delta -> dist + delta <= trapezoid c 0 (length (time_s c) - 1) ->
  average_grade_over_range c dist delta k = Ok g.
Proof.
  intros Hk Hwf Hne Ht Hv Hg H0 Hdelta Hend. pose proof Hwf as (W1 & W2 & W3).
  assert (Heq : average_grade_over_range c dist delta k = average_grade_over_range c dist delta None).
  { destruct Hk as [->| ->]; [reflexivity|]. now apply cache_averages. }
  rewrite Heq. clear Heq Hk k. unfold average_grade_over_range.
  assert (Hgne : grade c <> []) by (destruct (grade c), (time_s c); cbn in *; congruence).
  destruct (Req_dec g 0) as [->|Hg0]; [now rewrite all_zero_true|].
  rewrite (all_zero_false_of _ g) by assumption. unR.
  rewrite Rleb_f by exact Hdelta. rewrite (const_elev c g Hwf Hg Hne).
  pose proof (cum_dist_nondecreasing c Ht Hv W1 Hne) as Hnd.
  pose proof (cum_dist_length c W1 Hne) as Hl.
  assert (Hlt : (0 < length (time_s c))%nat) by (destruct (time_s c); cbn; [congruence|lia]).
  assert (Hlast : last (cumsum (trapz_step_distances c)) 0 = trapezoid c 0 (length (time_s c) - 1)).
  { rewrite last_nth, Hl. apply cum_dist_nth; [assumption|lia]. }
  assert (Hfst : nth 0 (cumsum (trapz_step_distances c)) 0 = 0).
  { rewrite cum_dist_nth by assumption. reflexivity. }
  set (K := cos (atan g) * g).
  destruct (cumsum (trapz_step_distances c)) as [|d0 ds]; [cbn in Hl; lia|].
  cbn [nth] in Hfst. subst d0. apply nondecreasing_SS in Hnd.
  cbn [map combine interp1]. unR.
  rewrite !Rltb_f by lra. rewrite !interp_proportional by (assumption || lra).
  replace ((K * (dist + delta) - K * dist) / delta) with K by (field; lra).
  unfold K. now rewrite grade_recovered.
Qed.

Theorem zero_grade_average {F} {N : Num F} (c : cyc F) dist delta k :
  all_zero (grade c) = true -> k = None \/ k = Some (build_cache c) ->
  average_grade_over_range c dist delta k = Ok n0.
Proof.
  intros Hz [->| ->]; unfold average_grade_over_range.
  - now rewrite Hz.
  - change (grade_all_zero (build_cache c)) with (all_zero (grade c)). now rewrite Hz.
Qed.

(** Point look-up on a constant-grade road (no cache), anywhere. *)
Lemma grade_scan_const ds : forall gs x d0 gl g, (forall y, In y gs -> y = g) -> gl = g ->
  grade_scan x d0 ds gs gl = g.
Proof.
  induction ds as [|d ds IH]; intros [|g0 gs] x d0 gl g Hg ->; cbn [grade_scan]; try reflexivity.
  destruct (_ && _)%bool; [apply Hg; now left|]. apply IH; [|reflexivity]. intros; apply Hg; now right.
Qed.
Theorem constant_grade_point (c : cyc R) g dist delta :
  wf c -> time_s c <> [] -> (forall x, In x (grade c) -> x = g) -> delta <= 1 / 1000000 ->
  average_grade_over_range c dist delta None = Ok g.
Proof.
  intros Hwf Hne Hg Hdelta. pose proof Hwf as (W1 & W2 & W3). unfold average_grade_over_range.
  assert (Hgne : grade c <> []) by (destruct (grade c), (time_s c); cbn in *; congruence).
  destruct (Req_dec g 0) as [->|Hg0]; [now rewrite all_zero_true|].
  rewrite (all_zero_false_of _ g) by assumption. unR.
  rewrite Rleb_t by exact Hdelta.
  pose proof (cum_dist_length c W1 Hne) as Hl.
  destruct (cumsum (trapz_step_distances c)) as [|d0 ds].
  { destruct (time_s c); [congruence|discriminate]. }
  rewrite pyget_0, pyget_last. cbn [bindR].
  destruct (grade c) as [|g0 gs]; [congruence|]. rewrite pyget_0, pyget_last. cbn [bindR].
  assert (E0 : g0 = g) by (apply Hg; now left).
  assert (El : last (g0 :: gs) g0 = g) by (apply Hg; apply last_In; discriminate).
  destruct (Rleb dist d0); [now rewrite E0|]. destruct (Rltb _ dist); [now rewrite El|].
  f_equal. apply grade_scan_const; [|assumption]. intros y Hy. apply Hg. now right.
Qed.
