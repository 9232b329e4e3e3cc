(** Proofs of C115 and C116: the compiled cycle and what it reports. *)
From Coq Require Import Sorting.Sorted.
From Verif Require Import Num Numpy ListFacts CycleModel CycleSpec MicrotripProofs ConcatProofs CycleProofs1 ResampleProofs RateProofs
  DistProofs GradeProofs SimModel RustModel RustWalkModel RustPostModel RustVehModel RustVehProofs RustCycModel.
Local Open Scope R_scope.

(** ** Making the object *)
Lemma r_sorted (l : list R) : r_is_sorted l = true <-> increasing l.
Proof.
  rewrite increasing_SS. split.
  - intros H. apply Sorted_StronglySorted; [exact Rlt_trans|]. induction l as [|a l IH]; [constructor|].
    destruct l as [|b l]; [repeat constructor|]. cbn [r_is_sorted] in H. apply andb_true_iff in H as [A B].
    unR. destruct (Rltb_spec a b); [|discriminate]. constructor; [now apply IH|now constructor].
  - intros H. apply StronglySorted_Sorted in H. induction H as [|a l H IH A]; [reflexivity|]. destruct l as [|b l]; [reflexivity|].
    cbn [r_is_sorted]. apply HdRel_inv in A. unR. destruct (Rltb_spec a b); [exact IH|contradiction].
Qed.
Lemma r_checks (c : cyc R) : r_init_checks c = Ok tt <-> wf c /\ time_s c <> [] /\ increasing (time_s c).
Proof.
  unfold r_init_checks, wf. rewrite <- r_sorted. set (n := length (time_s c)).
  assert (E : time_s c <> [] <-> n <> 0%nat) by (unfold n; destruct (time_s c); cbn; split; congruence).
  rewrite E. destruct (Nat.eqb_spec n 0); cbn [negb andb]; [split; [discriminate|tauto]|].
  destruct (r_is_sorted (time_s c)); cbn [andb]; [|split; [discriminate|intros (_ & _ & [=])]].
  destruct (Nat.eqb_spec (length (mps c)) n), (Nat.eqb_spec (length (grade c)) n), (Nat.eqb_spec (length (road_type c)) n);
    cbn [andb]; split; try discriminate; tauto.
Qed.
Lemma to_rust_iff (c c' : Cycle R) : cycle_to_rust c = Ok c' <-> c' = c /\ wf (cdata c) /\ time_s (cdata c) <> [] /\ increasing (time_s (cdata c)).
Proof.
  destruct c as [[t v g r] nm]. unfold cycle_to_rust, r_from_dict, to_dict. cbn [cdata cname time_s mps grade road_type].
  cbn [r_req_arr r_opt_arr dget String.eqb Ascii.eqb Bool.eqb bindR].
  rewrite <- r_checks. destruct (r_init_checks (mkcyc t v g r)) as [[]|e]; cbn [bindR]; split.
  - intros [= <-]. auto.
  - intros [-> _]. reflexivity.
  - discriminate.
  - intros [_ [=]].
Qed.

(** ** Step durations and distances *)
Lemma r_dt_length {F} {N : Num F} (c : cyc F) : length (r_dt_s c) = length (time_s c).
Proof. unfold r_dt_s. destruct (time_s c) as [|t l]; [reflexivity|]. cbn [length]. rewrite diff_length. cbn. lia. Qed.
Lemma r_dt_nth (c : cyc R) i d : (i < length (time_s c))%nat ->
  nth i (r_dt_s c) d = match i with O => 0 | S j => nth i (time_s c) 0 - nth j (time_s c) 0 end.
Proof.
  intros H. unfold r_dt_s. destruct (time_s c) as [|t l] eqn:E; [cbn in H; lia|]. destruct i as [|j]; [reflexivity|].
  change (nth j (diff (t :: l)) d = nth (S j) (t :: l) 0 - nth j (t :: l) 0). apply diff_nth. exact H.
Qed.
Lemma r_speeds_length (c : cyc R) : time_s c <> [] -> length (r_average_step_speeds c) = length (time_s c).
Proof. intros H. unfold r_average_step_speeds. cbn [length]. rewrite map_length, seq_length. destruct (time_s c); [congruence|cbn; lia]. Qed.
Lemma r_speeds_nth (c : cyc R) i d : (S i < length (time_s c))%nat ->
  nth (S i) (r_average_step_speeds c) d = (nth (S i) (mps c) 0 + nth i (mps c) 0) / 2.
Proof.
  intros H. unfold r_average_step_speeds. cbn [nth]. set (f := fun i0 : nat => _).
  rewrite (nth_indep _ d (f 0%nat)) by (rewrite map_length, seq_length; lia). rewrite map_nth, seq_nth by lia.
  unfold f. rewrite lit_R. unR. change (1 + i)%nat with (S i). cbn [Nat.sub]. rewrite Nat.sub_0_r. change (@n0 R RNum) with 0. lra.
Qed.
Lemma r_trapz_same (c : cyc R) : length (mps c) = length (time_s c) -> time_s c <> [] ->
  r_trapz_step_distances c = trapz_step_distances c.
Proof.
  intros W NE.
  assert (L : length (r_trapz_step_distances c) = length (time_s c)).
  { unfold r_trapz_step_distances. rewrite zipw_length, r_speeds_length, r_dt_length by assumption. lia. }
  apply (nth_ext _ _ 0 0).
  { rewrite L, step_dist_length by assumption. reflexivity. }
  rewrite L. intros i Hi. rewrite step_dist_nth by assumption. unfold r_trapz_step_distances.
  rewrite (zipw_nth _ _ _ i 0 0) by (rewrite ?r_speeds_length, ?r_dt_length; assumption).
  rewrite r_dt_nth by assumption. destruct i as [|j]; [cbn [r_average_step_speeds nth]; unR; lra|].
  rewrite r_speeds_nth by assumption. unfold seg. unR. lra.
Qed.
Lemma r_dt_same (c : cyc R) : hd 0 (time_s c) = 0 -> r_dt_s c = dt_s c.
Proof.
  intros Z. apply (nth_ext _ _ 0 0); [now rewrite r_dt_length, dt_s_length|]. rewrite r_dt_length. intros i Hi.
  rewrite r_dt_nth, dt_s_nth by assumption. destruct i; [|reflexivity]. destruct (time_s c); [reflexivity|]. cbn in Z |- *. now symmetry.
Qed.
Lemma r_dt_tail (c : cyc R) : tl (r_dt_s c) = tl (dt_s c).
Proof.
  unfold r_dt_s, dt_s. destruct (time_s c) as [|t l]; [reflexivity|]. reflexivity.
Qed.
Lemma zip_tl {A B C} (f : A -> B -> C) l1 l2 : tl (zipw f l1 l2) = zipw f (tl l1) (tl l2).
Proof. destruct l1 as [|a l1], l2 as [|b l2]; try reflexivity. cbn. destruct l1; reflexivity. Qed.
Lemma r_dist_tail (c : cyc R) : tl (r_dist_m c) = tl (dist_m c).
Proof. unfold r_dist_m, dist_m. now rewrite !zip_tl, r_dt_tail. Qed.
Lemma cumsum_shift (l : list R) : forall a b, cumsum_from (a + b) l = map (fun x => x + b) (cumsum_from a l).
Proof. induction l as [|x l IH]; intros a b; [reflexivity|]. cbn [cumsum_from map]. unR. f_equal; [lra|]. rewrite <- IH. f_equal. lra. Qed.
Lemma elev_shift (c : cyc R) t v g : hd_error (time_s c) = Some t -> hd_error (mps c) = Some v -> hd_error (grade c) = Some g ->
  delta_elev_m c = map (fun x => x + v * t * g) (r_delta_elev_m c).
Proof.
  unfold delta_elev_m, r_delta_elev_m, dist_m, r_dist_m, dt_s, r_dt_s, cumsum. destruct (time_s c) as [|t' ts], (mps c) as [|v' vs], (grade c) as [|g' gs]; try discriminate.
  intros [= ->] [= ->] [= ->]. cbn [diff_prepend diff zipw]. set (l := zipw nmul (zipw nmul vs _) gs).
  cbn [cumsum_from map]. unR. f_equal; [ring|]. rewrite <- cumsum_shift. f_equal. ring.
Qed.
Lemma r_dt_at_ok (c : cyc R) i : (1 <= i < length (time_s c))%nat -> r_dt_at c i = Ok (nth i (time_s c) 0 - nth (i - 1) (time_s c) 0).
Proof.
  intros H. unfold r_dt_at, r_get, r_pred. rewrite (nth_error_nth' _ 0) by lia. destruct i as [|j]; [lia|]. cbn [bindR Nat.sub].
  rewrite (nth_error_nth' _ 0) by lia. cbn [bindR]. now rewrite Nat.sub_0_r.
Qed.
Lemma r_dt_at_same (c : cyc R) i : (1 <= i)%nat -> r_dt_at c i = dt_s_at_i c i.
Proof.
  intros H. destruct (le_lt_dec (length (time_s c)) i) as [G|G].
  - rewrite dt_s_at_i_past by assumption. unfold r_dt_at, r_get. destruct (nth_error (time_s c) i) eqn:E; [|reflexivity].
    assert (nth_error (time_s c) i <> None) as Q by congruence. apply nth_error_Some in Q. lia.
  - rewrite dt_s_at_i_pos, r_dt_at_ok by lia. reflexivity.
Qed.
Lemma r_dt_s_at_i_same (c : cyc R) i : r_dt_s_at_i c i = dt_s_at_i c i.
Proof. unfold r_dt_s_at_i. destruct i as [|j]; [reflexivity|]. cbn [Nat.eqb]. apply r_dt_at_same. lia. Qed.

(** ** The cache *)
Lemma elev_zip (gs dd : list R) :
  zipw (fun g d => ncos (natan g) * d * g)%num gs dd = zipw nmul (zipw nmul (map (fun g => ncos (natan g)) gs) dd) gs.
Proof. revert dd. induction gs as [|g gs IH]; intros [|d dd]; try reflexivity. cbn [zipw map]. f_equal. apply IH. Qed.
Lemma push_fold ds : forall hs idx (acc : list (R * R * R)), length hs = length ds ->
  fold_left r_cache_push (combine (seq idx (length ds)) (combine ds hs)) acc
  = acc ++ cache_knots idx (match acc with [] => None | _ => Some (fst (fst (last acc (0, 0, 0)))) end) ds hs.
Proof.
  induction ds as [|d ds IH]; intros [|h hs] idx acc L; cbn in L; try discriminate; [cbn; now rewrite app_nil_r|].
  cbn [length seq combine fold_left cache_knots]. unfold r_cache_push at 2.
  assert (G : (match acc with [] => true | _ => d >? fst (fst (last acc (n0, n0, n0))) end)%num
    = match match acc with [] => None | _ => Some (fst (fst (last acc (0, 0, 0)))) end with None => true | Some l => (d >? l)%num end)
    by (destruct acc; reflexivity).
  rewrite G. destruct (match match acc with [] => None | _ => _ end with None => true | Some l => _ end).
  - rewrite IH by lia. rewrite <- app_assoc. cbn [app]. do 2 f_equal.
    assert (H : match acc ++ [(d, nofN idx, h)] with [] => None | _ => Some (fst (fst (last (acc ++ [(d, nofN idx, h)]) (0, 0, 0)))) end = Some d).
    { rewrite last_snoc. destruct acc; reflexivity. }
    now rewrite H.
  - rewrite IH by lia. reflexivity.
Qed.
Lemma r_cache_same (c : cyc R) : wf c -> time_s c <> [] -> r_build_cache c = build_cache c.
Proof.
  intros W NE. pose proof W as (W1 & W2 & W3). unfold r_build_cache, build_cache.
  change (forallb (fun g => (g =? n0)%num) (grade c)) with (all_zero (grade c)).
  rewrite r_trapz_same by assumption. rewrite elev_zip. fold (trapz_elevations c). unfold clen.
  set (hs := if all_zero (grade c) then zeros (length (time_s c)) else trapz_elevations c).
  assert (LH : length hs = length (time_s c)) by (unfold hs; destruct (all_zero _); [apply repeat_length|now apply elev_length]).
  pose proof (cum_dist_length c W1 NE) as LD. set (ds := cumsum (trapz_step_distances c)) in *.
  assert (FB : fold_left r_cache_push (combine (seq 0 (length (time_s c))) (combine ds hs)) [] = cache_knots 0 None ds hs)
    by (rewrite <- LD; rewrite push_fold by lia; reflexivity).
  rewrite !FB. reflexivity.
Qed.

(** ** Grades *)
Lemma knots_rising ds : forall hs idx l, map (fun k => (fst (fst k), snd k)) (cache_knots idx (Some l) ds hs) = r_rising l (combine ds hs).
Proof.
  induction ds as [|d ds IH]; intros [|h hs] idx l; try reflexivity. cbn [cache_knots combine r_rising].
  destruct (d >? l)%num; [cbn [map fst snd]; f_equal|]; apply IH.
Qed.
Lemma knots_knots ds hs idx : map (fun k => (fst (fst k), snd k)) (cache_knots idx None ds hs) = r_knots (combine ds hs).
Proof. destruct ds as [|d ds], hs as [|h hs]; try reflexivity. cbn [cache_knots combine r_knots map fst snd]. f_equal. apply knots_rising. Qed.
Lemma combine_maps {A B C} (f : A -> B) (g : A -> C) l : combine (map f l) (map g l) = map (fun x => (f x, g x)) l.
Proof. induction l as [|x l IH]; [reflexivity|]. cbn. now f_equal. Qed.
Lemma rising_sorted (k : list (R * R)) : forall l, StronglySorted Rlt (l :: map fst (r_rising l k)).
Proof.
  induction k as [|(a & b) k IH]; intros l; [repeat constructor|]. cbn [r_rising]. unR. destruct (Rltb_spec l a) as [G|G]; [|apply IH].
  cbn [map fst]. constructor; [apply IH|]. specialize (IH a). apply StronglySorted_inv in IH as [_ IH]. constructor; [exact G|].
  eapply Forall_impl; [|exact IH]. cbn. intros; lra.
Qed.
Lemma knots_inc (k : list (R * R)) : increasing (map fst (r_knots k)).
Proof. apply increasing_SS. destruct k as [|(a & b) k]; [constructor|]. apply rising_sorted. Qed.
Lemma rising_more (k : list (R * R)) x : forall l, In x (map fst k) -> l < x -> r_rising l k <> [].
Proof.
  induction k as [|(a & b) k IH]; intros l I G; [destruct I|]. cbn [r_rising]. unR. destruct (Rltb_spec l a); [discriminate|].
  apply IH; [|exact G]. destruct I as [I|I]; [cbn in I; subst; lra|exact I].
Qed.
(** The interpolation reads only the knots it keeps. *)
Lemma interp_knots (x : R) xs ys : length ys = length xs -> (2 <= length (r_knots (combine xs ys)))%nat ->
  r_interpolate x xs ys false = Ok (interp1 x (r_knots (combine xs ys))).
Proof.
  intros L L2. set (k := r_knots (combine xs ys)) in *.
  assert (E : r_interpolate x xs ys false = r_interpolate x (map fst k) (map snd k) false).
  { unfold r_interpolate. rewrite L, !map_length, !Nat.eqb_refl, combine_maps.
    replace (map (fun y => (fst y, snd y)) k) with k by (rewrite <- (map_id k) at 1; apply map_ext; now intros []).
    rewrite (knots_all k) by apply knots_inc. reflexivity. }
  rewrite E, r_interp.
  - rewrite combine_maps. f_equal. f_equal. rewrite <- (map_id k) at 2. apply map_ext. now intros [].
  - now rewrite map_length.
  - now rewrite !map_length.
  - apply knots_inc.
Qed.
Lemma moves_knots (c : cyc R) hs : wf c -> time_s c <> [] -> length hs = length (time_s c) ->
  0 < trapezoid c 0 (length (time_s c) - 1) -> (2 <= length (r_knots (combine (cumsum (trapz_step_distances c)) hs)))%nat.
Proof.
  intros (W1 & W2 & W3) NE LH M. pose proof (cum_dist_length c W1 NE) as LD.
  assert (LP : (0 < length (time_s c))%nat) by (destruct (time_s c); [congruence|cbn; lia]).
  pose proof (cum_dist_nth c 0 0 W1 LP) as D0. cbn [trapezoid] in D0.
  pose proof (cum_dist_nth c (length (time_s c) - 1) 0 W1 ltac:(lia)) as DL.
  set (ds := cumsum (trapz_step_distances c)) in *. destruct ds as [|d ds]; [cbn in LD; lia|]. destruct hs as [|h hs]; [cbn in LH; lia|].
  cbn [nth] in D0. subst d. cbn [combine r_knots length]. enough (r_rising 0 (combine ds hs) <> []) by (destruct (r_rising 0 (combine ds hs)); [congruence|cbn; lia]).
  apply (rising_more _ (trapezoid c 0 (length (time_s c) - 1))); [|exact M].
  rewrite combine_fst by (cbn in *; lia). destruct (length (time_s c) - 1)%nat as [|m] eqn:EM; [cbn [nth] in DL; lra|].
  cbn [nth] in DL. rewrite <- DL. apply nth_In. cbn in LD. lia.
Qed.
Lemma pyget_get (l : list R) z : (0 <= z)%Z -> pyget l z = r_get l (Z.to_nat z).
Proof.
  intros H. unfold pyget, r_get. destruct (Z.ltb_spec z 0); [lia|].
  destruct (Z.leb_spec 0 z); [|lia]. destruct (Z.ltb_spec z (Z.of_nat (length l))); cbn [andb]; [reflexivity|].
  destruct (nth_error l (Z.to_nat z)) eqn:E; [|reflexivity]. assert (nth_error l (Z.to_nat z) <> None) as Q by congruence. apply nth_error_Some in Q. lia.
Qed.
Lemma pyget_last_of (l : list R) : pyget l (-1) = r_last_of l.
Proof.
  destruct l as [|a l]; [reflexivity|]. rewrite pyget_last. unfold r_last_of, r_pred, r_get. cbn [length bindR].
  rewrite last_nth. cbn [length Nat.sub]. rewrite (nth_error_nth' _ a) by (cbn; lia). now rewrite Nat.sub_0_r.
Qed.
Lemma nceil_nonneg (x : R) : 0 <= x -> (0 <= nceil x)%Z.
Proof.
  intros H. unfold nceil. pose proof (nfloor_R_bounds x) as B. set (f := nfloor x) in *.
  assert (-1 < f)%Z by (apply lt_IZR; lra). destruct (nofZ f =? x)%num; lia.
Qed.
Lemma polyline_nonneg xs ys x y : on_polyline xs ys x y -> (forall v, In v ys -> 0 <= v) -> ys <> [] -> 0 <= y.
Proof.
  intros H P NE. destruct H as [[_ ->]|[[_ ->]|(i & a & b & u & v & A & B & U & V & I & ->)]].
  - destruct ys; [congruence|]. apply P. now left.
  - apply P. now apply last_In.
  - apply nth_error_In in U, V. apply P in U, V. destruct (Req_dec a b) as [->|D].
    + replace (x - b) with 0 by lra. unfold Rdiv. rewrite Rmult_0_l. lra.
    + assert (0 <= (x - a) / (b - a) <= 1) as [T1 T2].
      { split; [apply Rmult_le_pos; [lra|]; apply Rlt_le, Rinv_0_lt_compat; lra|]. apply (Rmult_le_reg_r (b - a)); [lra|]. unfold Rdiv. rewrite Rmult_assoc, Rinv_l by lra. lra. }
      set (t := (x - a) / (b - a)) in *. replace (u + (v - u) * t) with (u * (1 - t) + v * t) by ring.
      assert (0 <= u * (1 - t)) by (apply Rmult_le_pos; lra). assert (0 <= v * t) by (apply Rmult_le_pos; lra). lra.
Qed.
Lemma knots_cc (c : cyc R) : combine (cc_ds (build_cache c)) (cc_hs (build_cache c)) = r_knots (combine (cc_distances (build_cache c)) (cc_elevations (build_cache c))).
Proof. unfold build_cache. cbn [cc_ds cc_hs cc_distances cc_elevations]. rewrite combine_maps. apply knots_knots. Qed.
Lemma cc_inc (c : cyc R) : increasing (cc_ds (build_cache c)).
Proof.
  replace (cc_ds (build_cache c)) with (map fst (r_knots (combine (cc_distances (build_cache c)) (cc_elevations (build_cache c))))); [apply knots_inc|].
  rewrite <- knots_cc. unfold build_cache. cbn [cc_ds cc_hs]. apply combine_fst. now rewrite !map_length.
Qed.
Lemma knot_indices idx : forall l (ds hs : list R) k, In k (cache_knots idx l ds hs) -> 0 <= snd (fst k).
Proof.
  intros l ds. revert idx l. induction ds as [|d ds IH]; intros idx l [|h hs] k I; try destruct I. cbn [cache_knots] in I.
  destruct (match l with None => true | Some _ => _ end); [destruct I as [<-|I]|].
  - cbn [fst snd]. rewrite nofN_R. apply pos_INR.
  - exact (IH _ _ _ _ I).
  - exact (IH _ _ _ _ I).
Qed.
Lemma r_point_cached (c : cyc R) dist : r_interp_grade (build_cache c) dist = interp_grade (build_cache c) dist.
Proof.
  unfold r_interp_grade, interp_grade. destruct (grade_all_zero (build_cache c)); [reflexivity|].
  rewrite (pyget_get (cc_ds (build_cache c)) 0 ltac:(lia)). cbn [Z.to_nat].
  destruct (r_get (cc_ds (build_cache c)) 0) as [d0|] eqn:E0; [|reflexivity]. cbn [bindR].
  rewrite (pyget_get (cc_grades (build_cache c)) 0 ltac:(lia)). cbn [Z.to_nat].
  unR. destruct (Rleb_spec dist d0) as [A|A]; [reflexivity|].
  rewrite <- pyget_last_of. destruct (pyget (cc_ds (build_cache c)) (-1)) as [dl|] eqn:EL; [|reflexivity]. cbn [bindR].
  rewrite <- pyget_last_of. destruct (Rltb_spec dl dist) as [B|B]; [reflexivity|].
  assert (LI : length (cc_is (build_cache c)) = length (cc_ds (build_cache c))) by (unfold build_cache; cbn [cc_is cc_ds]; now rewrite !map_length).
  assert (L2 : (2 <= length (cc_ds (build_cache c)))%nat).
  { destruct (cc_ds (build_cache c)) as [|x [|y l]]; [discriminate| |cbn; lia].
    rewrite pyget_last in EL. cbn in E0, EL. injection E0 as E0. injection EL as EL. lra. }
  rewrite r_interp by (assumption || apply cc_inc). cbn [bindR].
  assert (P : 0 <= interp1 dist (combine (cc_ds (build_cache c)) (cc_is (build_cache c)))).
  { apply (polyline_nonneg (cc_ds (build_cache c)) (cc_is (build_cache c)) dist).
    - apply interp1_polyline; [|exact LI|apply cc_inc]. intros E. rewrite E in L2. cbn in L2. lia.
    - intros v I. unfold build_cache in I. cbn [cc_is] in I. apply in_map_iff in I as (k & <- & I). exact (knot_indices _ _ _ _ _ I).
    - intros E. rewrite <- LI, E in L2. cbn [length] in L2. lia. }
  rewrite (pyget_get _ _ (nceil_nonneg _ P)). reflexivity.
Qed.
Lemma scan_same dist gl (g0 d0 : R) : forall ds gs pre_d pre_g, length ds = length gs -> length pre_d = length pre_g ->
  last (g0 :: pre_g ++ gs) 0 = gl ->
  r_grade_scan dist (d0 :: pre_d ++ ds) (g0 :: pre_g ++ gs) (seq (S (length pre_d)) (length ds))
  = Ok (grade_scan dist (last (d0 :: pre_d) 0) ds gs gl).
Proof.
  induction ds as [|d ds IH]; intros [|g gs] pd pg L LP G; cbn in L; try discriminate.
  - cbn [length seq r_grade_scan grade_scan]. rewrite <- pyget_last_of, pyget_last. f_equal. rewrite <- G. apply last_default.
  - cbn [length seq r_grade_scan grade_scan]. change (S (length pd) - 1)%nat with (length pd - 0)%nat. rewrite Nat.sub_0_r.
    assert (E1 : nth (S (length pd)) (d0 :: pd ++ d :: ds) n0 = d).
    { change (nth (length pd) (pd ++ d :: ds) n0 = d). rewrite app_nth2 by lia. now rewrite Nat.sub_diag. }
    rewrite E1.
    assert (E : nth (length pd) (d0 :: pd ++ d :: ds) n0 = last (d0 :: pd) 0).
    { rewrite last_nth. cbn [length Nat.sub]. rewrite Nat.sub_0_r. change (d0 :: pd ++ d :: ds) with ((d0 :: pd) ++ d :: ds). apply app_nth1. cbn. lia. }
    rewrite E. destruct ((dist >? last (d0 :: pd) 0) && (dist <=? d))%num%bool.
    + unfold r_get. cbn [nth_error]. rewrite nth_error_app2 by lia. rewrite LP, Nat.sub_diag. reflexivity.
    + specialize (IH gs (pd ++ [d]) (pg ++ [g])). rewrite <- !app_assoc in IH. cbn [app] in IH. rewrite app_length in IH. cbn [length] in IH.
      rewrite Nat.add_1_r in IH. rewrite IH; [|lia|rewrite !app_length; cbn; lia|exact G]. f_equal. f_equal. change (d0 :: pd ++ [d]) with ((d0 :: pd) ++ [d]). apply last_snoc.
Qed.
Lemma r_point_uncached (c : cyc R) dist delta : wf c -> time_s c <> [] -> delta <= 1/1000000 ->
  r_average_grade_over_range c dist delta None = average_grade_over_range c dist delta None.
Proof.
  intros (W1 & W2 & W3) NE D. unfold r_average_grade_over_range, average_grade_over_range.
  change (forallb (fun g => (g =? n0)%num) (grade c)) with (all_zero (grade c)). destruct (all_zero (grade c)); [reflexivity|].
  rewrite r_trapz_same by assumption. pose proof (cum_dist_length c W1 NE) as LD. set (ds := cumsum (trapz_step_distances c)) in *.
  change (@tol6 R RNum) with (1/1000000). unR. destruct (Rleb_spec delta (1/1000000)); [|lra].
  destruct ds as [|d0 ds]; [cbn in LD; destruct (time_s c); cbn in LD; congruence|].
  destruct (grade c) as [|g0 gs]; [cbn in W2; destruct (time_s c); cbn in W2; congruence|].
  rewrite pyget_0, !pyget_last. unfold r_get. cbn [nth_error bindR]. destruct (Rleb_spec dist d0); [now rewrite pyget_0|].
  rewrite <- !pyget_last_of, !pyget_last. cbn [bindR].
  match goal with |- context [Rltb ?a dist] => destruct (Rltb_spec a dist); [reflexivity|] end. cbn [tl].
  rewrite <- LD. cbn [length Nat.sub]. rewrite Nat.sub_0_r.
  pose proof (scan_same dist (last (g0 :: gs) g0) g0 d0 ds gs [] []) as S. cbn [app length] in S. change (last [d0] 0) with d0 in S. rewrite <- S; [reflexivity|cbn in *; lia|reflexivity|apply last_default].
Qed.
Lemma inc_nd (l : list R) : increasing l -> nondecreasing l.
Proof. intros H i j x y Hij Hx Hy. apply Rlt_le. eapply H; eassumption. Qed.
Lemma r_mean (c : cyc R) dist delta k : cached_or_not c k -> wf c -> increasing (time_s c) -> nonneg (mps c) ->
  0 < trapezoid c 0 (length (time_s c) - 1) ->
  r_average_grade_over_range c dist delta k = average_grade_over_range c dist delta k.
Proof.
  intros K W I NN M. pose proof W as (W1 & W2 & W3).
  assert (NE : time_s c <> []) by (intros E; rewrite E in M; cbn in M; lra).
  destruct (Rle_lt_dec delta (1/1000000)) as [D|D].
  { destruct K as [->| ->]; [now apply r_point_uncached|]. unfold r_average_grade_over_range, average_grade_over_range.
    destruct (grade_all_zero (build_cache c)); [reflexivity|]. change (@tol6 R RNum) with (1/1000000). unR. destruct (Rleb_spec delta (1/1000000)); [|lra]. apply r_point_cached. }
  assert (G : all_zero (grade c) = false -> forall x,
     r_interpolate x (cumsum (trapz_step_distances c)) (trapz_elevations c) false = Ok (interp1 x (combine (cumsum (trapz_step_distances c)) (trapz_elevations c))) /\
     r_interp_elevation (build_cache c) x = Ok (interp_elevation (build_cache c) x)).
  { intros Z x. pose proof (moves_knots c (trapz_elevations c) W NE (elev_length c W NE) M) as K2.
    pose proof (cached_elevation c x W NE (inc_nd _ I) NN Z) as CE.
    assert (KC : combine (cc_ds (build_cache c)) (cc_hs (build_cache c)) = r_knots (combine (cumsum (trapz_step_distances c)) (trapz_elevations c))).
    { rewrite knots_cc. unfold build_cache. cbn [cc_distances cc_elevations]. now rewrite Z. }
    assert (IE : interp_elevation (build_cache c) x = interp1 x (r_knots (combine (cumsum (trapz_step_distances c)) (trapz_elevations c)))).
    { unfold interp_elevation. change (grade_all_zero (build_cache c)) with (all_zero (grade c)). now rewrite Z, KC. }
    split.
    - rewrite interp_knots; [|rewrite cum_dist_length, elev_length by assumption; reflexivity|exact K2]. now rewrite <- IE, CE.
    - unfold r_interp_elevation. change (grade_all_zero (build_cache c)) with (all_zero (grade c)). rewrite Z.
      assert (LL : length (cc_hs (build_cache c)) = length (cc_ds (build_cache c))) by (unfold build_cache; cbn [cc_hs cc_ds]; now rewrite !map_length).
      rewrite r_interp.
      + now rewrite KC, IE.
      + rewrite <- KC in K2. rewrite combine_length, LL, Nat.min_id in K2. exact K2.
      + exact LL.
      + apply cc_inc. }
  assert (DF : (delta <=? tol6)%num = false).
  { change (@tol6 R RNum) with (1/1000000). unR. destruct (Rleb_spec delta (1/1000000)); [lra|reflexivity]. }
  unfold r_average_grade_over_range, average_grade_over_range. rewrite DF. destruct K as [->| ->].
  - change (forallb (fun g => (g =? n0)%num) (grade c)) with (all_zero (grade c)). destruct (all_zero (grade c)) eqn:Z; [reflexivity|].
    rewrite r_trapz_same by assumption. fold (trapz_elevations c). rewrite !(proj1 (G eq_refl _)). reflexivity.
  - change (grade_all_zero (build_cache c)) with (all_zero (grade c)). destruct (all_zero (grade c)) eqn:Z; [reflexivity|].
    rewrite !(proj2 (G eq_refl _)). reflexivity.
Qed.

(** ** The next stop *)
Lemma scan_found dist : forall ds vs i d v, nth_error ds i = Some d -> nth_error vs i = Some v -> v < 1/1000000 -> dist + 1/1000000 < d ->
  (forall j e u, (j < i)%nat -> nth_error ds j = Some e -> nth_error vs j = Some u -> u < 1/1000000 -> e <= dist + 1/1000000) ->
  r_stop_scan dist ds vs = Some (d - dist).
Proof.
  induction ds as [|e ds IH]; intros [|u vs] i d v D V A B H; try (destruct i; discriminate).
  cbn [r_stop_scan]. change (@tol6 R RNum) with (1/1000000). unR. destruct i as [|i].
  - injection D as ->. injection V as ->. destruct (Rltb_spec v (1/1000000)); [|lra]. destruct (Rltb_spec (dist + 1/1000000) d); [reflexivity|lra].
  - pose proof (H 0%nat e u ltac:(lia) eq_refl eq_refl) as H0.
    assert (E : (Rltb u (1/1000000) && Rltb (dist + 1/1000000) e)%bool = false).
    { destruct (Rltb_spec u (1/1000000)); [|reflexivity]. destruct (Rltb_spec (dist + 1/1000000) e); [|reflexivity]. specialize (H0 ltac:(lra)). lra. }
    rewrite E. apply (IH vs i d v D V A B). intros j e' u' L. exact (H (S j) e' u' ltac:(lia)).
Qed.
Lemma scan_none dist : forall ds vs, (forall j e u, nth_error ds j = Some e -> nth_error vs j = Some u -> u < 1/1000000 -> e <= dist + 1/1000000) ->
  r_stop_scan dist ds vs = None.
Proof.
  induction ds as [|e ds IH]; intros [|u vs] H; try reflexivity. cbn [r_stop_scan]. change (@tol6 R RNum) with (1/1000000). unR.
  pose proof (H 0%nat e u eq_refl eq_refl) as H0.
  assert (E : (Rltb u (1/1000000) && Rltb (dist + 1/1000000) e)%bool = false).
  { destruct (Rltb_spec u (1/1000000)); [|reflexivity]. destruct (Rltb_spec (dist + 1/1000000) e); [|reflexivity]. specialize (H0 ltac:(lra)). lra. }
  rewrite E. apply IH. intros j e' u'. exact (H (S j) e' u').
Qed.
Lemma r_stop_arrays (c : cyc R) k d : cached_or_not c k -> time_s c <> [] -> length (mps c) = length (time_s c) ->
  r_calc_distance_to_next_stop_from c d k = match r_stop_scan d (cumulative_distance c) (mps c) with
    | Some x => Ok x | None => Ok (trapezoid c 0 (length (time_s c) - 1) - d) end.
Proof.
  intros K NE W. unfold r_calc_distance_to_next_stop_from.
  assert (E : match k with Some k => cc_distances k | None => cumsum (r_trapz_step_distances c) end = cumulative_distance c).
  { rewrite <- cum_dist_eq by assumption. destruct K as [->| ->]; [now rewrite r_trapz_same|reflexivity]. }
  rewrite E. destruct (r_stop_scan d (cumulative_distance c) (mps c)); [reflexivity|].
  unfold r_last_of, r_pred, r_get, cumulative_distance. rewrite map_length, seq_length.
  destruct (length (time_s c)) as [|m] eqn:L; [destruct (time_s c); [congruence|discriminate]|]. cbn [bindR].
  rewrite nth_error_map, (nth_error_nth' _ 0%nat) by (rewrite seq_length; lia). rewrite seq_nth by lia. cbn [option_map bindR Nat.sub Nat.add].
  rewrite Nat.sub_0_r. reflexivity.
Qed.
Lemma cum_nth_error (c : cyc R) j : (j < length (time_s c))%nat -> nth_error (cumulative_distance c) j = Some (trapezoid c 0 j).
Proof. intros H. unfold cumulative_distance. rewrite nth_error_map, (nth_error_nth' _ 0%nat) by (rewrite seq_length; lia). now rewrite seq_nth by lia. Qed.
Lemma r_next_stop_found (c : cyc R) k d i v : cached_or_not c k -> length (mps c) = length (time_s c) ->
  nth_error (mps c) i = Some v -> v < 1/1000000 -> d + 1/1000000 < trapezoid c 0 i ->
  (forall j u, (j < i)%nat -> nth_error (mps c) j = Some u -> u < 1/1000000 -> trapezoid c 0 j <= d + 1/1000000) ->
  r_calc_distance_to_next_stop_from c d k = Ok (trapezoid c 0 i - d).
Proof.
  intros K W V A B H. assert (I : (i < length (time_s c))%nat) by (rewrite <- W; apply nth_error_Some; congruence).
  rewrite r_stop_arrays; [|exact K|intros E; rewrite E in I; cbn in I; lia|exact W].
  rewrite (scan_found d _ _ i (trapezoid c 0 i) v (cum_nth_error c i I) V A B); [reflexivity|].
  intros j e u L E U. rewrite cum_nth_error in E by lia. injection E as <-. now apply H.
Qed.
Lemma r_next_stop_none (c : cyc R) k d : cached_or_not c k -> length (mps c) = length (time_s c) -> time_s c <> [] ->
  (forall j u, nth_error (mps c) j = Some u -> u < 1/1000000 -> trapezoid c 0 j <= d + 1/1000000) ->
  r_calc_distance_to_next_stop_from c d k = Ok (trapezoid c 0 (length (time_s c) - 1) - d).
Proof.
  intros K W NE H. rewrite r_stop_arrays by assumption. rewrite scan_none; [reflexivity|].
  intros j e u E U. assert (J : (j < length (time_s c))%nat) by (rewrite <- W; apply nth_error_Some; congruence).
  rewrite cum_nth_error in E by exact J. injection E as <-. exact (H j u U).
Qed.
