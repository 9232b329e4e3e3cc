(** Proof that resampling with speed as a rate key preserves distance (C07), and C08/C09. *)
From Coq Require Import Sorting.Sorted.
From Verif Require Import Num Numpy ListFacts CycleModel CycleSpec MicrotripProofs ConcatProofs CycleProofs1 ResampleProofs.
Local Open Scope R_scope.

Definition seg (c : cyc R) (j : nat) : R :=
  (nth (S j) (time_s c) 0 - nth j (time_s c) 0) * ((nth j (mps c) 0 + nth (S j) (mps c) 0) / 2).
Lemma trapezoid_snoc c j n : trapezoid c j (S n) = trapezoid c j n + seg c (j + n).
Proof.
  revert j; induction n as [|n IH]; intros j.
  - cbn [trapezoid]. rewrite Nat.add_0_r. unfold seg. lra.
  - change (trapezoid c j (S (S n))) with (seg c j + trapezoid c (S j) (S n)).
    change (trapezoid c j (S n)) with (seg c j + trapezoid c (S j) n).
    rewrite IH. replace (S j + n)%nat with (j + S n)%nat by lia. lra.
Qed.
Lemma trapezoid_add c j m n : trapezoid c j (m + n) = trapezoid c j m + trapezoid c (j + m) n.
Proof.
  induction n as [|n IH].
  - rewrite Nat.add_0_r. cbn. lra.
  - rewrite <- plus_n_Sm, !trapezoid_snoc, IH. rewrite Nat.add_assoc. lra.
Qed.

Lemma avg_pairs_length (l : list R) : length (avg_pairs l) = (length l - 1)%nat.
Proof. unfold avg_pairs. rewrite zipw_length, tl_length. lia. Qed.
Lemma avg_pairs_nth (l : list R) i d : (S i < length l)%nat ->
  nth i (avg_pairs l) d = (nth (S i) l 0 + nth i l 0) / 2.
Proof.
  intros H. unfold avg_pairs. rewrite (zipw_nth _ _ _ i 0 0) by (rewrite ?tl_length; lia).
  rewrite nth_tl. unR. reflexivity.
Qed.
Lemma Rsum_firstn_S (l : list R) n : (n < length l)%nat ->
  Rsum (firstn (S n) l) = Rsum (firstn n l) + nth n l 0.
Proof.
  revert n; induction l as [|x l IH]; intros n H; cbn [length] in H; [lia|].
  destruct n as [|n]; [cbn; lra|].
  change (firstn (S (S n)) (x :: l)) with (x :: firstn (S n) l).
  change (firstn (S n) (x :: l)) with (x :: firstn n l).
  rewrite !Rsum_cons, IH by lia. cbn [nth]. lra.
Qed.

Lemma rate_cumulative_length (ts vs : list R) : length vs = length ts -> ts <> [] ->
  length (rate_cumulative ts vs) = length ts.
Proof.
  intros Hlen Hne. unfold rate_cumulative, cumsum. cbn [length].
  rewrite cumsum_from_length, zipw_length, avg_pairs_length, diff_length, Hlen.
  destruct ts; [congruence|]. cbn. lia.
Qed.
Lemma rate_cumulative_nth (c : cyc R) i : length (mps c) = length (time_s c) -> (i < length (time_s c))%nat ->
  nth i (rate_cumulative (time_s c) (mps c)) 0 = trapezoid c 0 i.
Proof.
  intros Hlen Hi. unfold rate_cumulative. destruct i as [|i]; [reflexivity|]. cbn [nth].
  set (z := zipw _ _ _).
  assert (Hz : length z = (length (time_s c) - 1)%nat).
  { unfold z. rewrite zipw_length, avg_pairs_length, diff_length. lia. }
  rewrite cumsum_nth by lia.
  assert (G : forall k, (k < length (time_s c))%nat -> Rsum (firstn k z) = trapezoid c 0 k).
  { induction k as [|k IH]; intros Hk; [reflexivity|].
    rewrite Rsum_firstn_S by lia. rewrite IH by lia. rewrite trapezoid_snoc. f_equal.
    cbn [Nat.add]. unfold z, seg. rewrite (zipw_nth _ _ _ k 0 0) by (rewrite ?avg_pairs_length, ?diff_length; lia).
    rewrite avg_pairs_nth, diff_nth by lia. unR. field. }
  apply G. lia.
Qed.
Lemma rate_cumulative_eq (c : cyc R) : length (mps c) = length (time_s c) -> time_s c <> [] ->
  rate_cumulative (time_s c) (mps c) = cumulative_distance c.
Proof.
  intros Hlen Hne. apply nth_ext with 0 0.
  - unfold cumulative_distance. rewrite rate_cumulative_length, map_length, seq_length; auto.
  - intros i Hi. rewrite rate_cumulative_length in Hi by assumption.
    rewrite rate_cumulative_nth by assumption.
    unfold cumulative_distance. rewrite (nth_indep _ 0 (trapezoid c 0 0)) by (rewrite map_length, seq_length; lia).
    rewrite map_nth, seq_nth by lia. reflexivity.
Qed.

(** The telescoping of the averaged speeds. *)
Lemma averaged_trapezoid (c : cyc R) (P : nat -> R) (dt : R) (n : nat) :
  0 < dt -> (1 <= n)%nat ->
  (forall k, (k < n)%nat -> nth (S k) (time_s c) 0 - nth k (time_s c) 0 = dt) ->
  nth 0 (mps c) 0 = (P 1%nat - P O) / dt ->
  (forall k, (1 <= k)%nat -> (k < n)%nat -> nth k (mps c) 0 = ((P k - P (k - 1)%nat) / dt + (P (S k) - P k) / dt) / 2) ->
  nth n (mps c) 0 = (P n - P (n - 1)%nat) / dt ->
  trapezoid c 0 n = P n - P O.
Proof.
  intros Hdt Hn Ht H0 Hmid Hlast.
  assert (G : forall k, (1 <= k)%nat -> (k <= n)%nat ->
    trapezoid c 0 k = P k - P O + dt * (nth k (mps c) 0 - (P k - P (k - 1)%nat) / dt) / 2).
  { induction k as [|k IH]; [lia|]. intros _ Hk. rewrite trapezoid_snoc. cbn [Nat.add].
    unfold seg. rewrite Ht by lia. destruct k as [|k].
    - cbn [trapezoid]. rewrite H0. cbn [Nat.sub]. field. lra.
    - rewrite IH by lia. rewrite (Hmid (S k)) by lia. replace (S (S k) - 1)%nat with (S k) by lia.
      replace (S k - 1)%nat with k by lia. field. lra. }
  rewrite G by lia. rewrite Hlast. field. lra.
Qed.

Lemma nth_of_nth_error {A} (l : list A) i x d : nth_error l i = Some x -> nth i l d = x.
Proof. intros H. now apply nth_error_nth. Qed.

(** Values of the averaged speeds on the grid. *)
Section Rate.
  Variables (ts vs : list R) (dt s e : R).
  Hypothesis Hdt : 0 < dt.
  Hypothesis Hs : 0 <= s.
  Let new_t := resample_times dt s e.
  Let n := (length new_t - 1)%nat.
  Hypothesis Hn : (1 <= n)%nat.
  Let P k := nth k (interp new_t ts (rate_cumulative ts vs)) 0.

  Lemma new_t_length : length new_t = S n.
  Proof. unfold n in *. lia. Qed.
  Lemma new_t_nth k d : (k <= n)%nat -> nth k new_t d = s + INR k * dt.
  Proof.
    intros Hk. unfold new_t, resample_times. apply arange_nth.
    fold (resample_times dt s e). fold new_t. rewrite new_t_length. lia.
  Qed.
  Lemma grid_bounds : s + INR n * dt < e + dt / 10 <= s + (INR n + 1) * dt.
  Proof.
    assert (H := arange_count s (e + dt / 10) dt (S n) Hdt new_t_length ltac:(lia)).
    rewrite S_INR in H. lra.
  Qed.
  Let steps := map (fun d => d / dt) (diff (interp new_t ts (rate_cumulative ts vs))).
  Lemma steps_length : length steps = n.
  Proof. unfold steps, interp. rewrite map_length, diff_length, map_length, new_t_length. lia. Qed.
  Lemma steps_nth k d : (k < n)%nat -> nth k steps d = (P (S k) - P k) / dt.
  Proof.
    intros Hk. pose proof steps_length as Hl. unfold steps in *. set (f := fun d => d / dt) in *.
    rewrite (nth_indep _ d (f 0)) by lia.
    rewrite map_nth. rewrite diff_nth; [reflexivity|].
    unfold interp. rewrite map_length, new_t_length. lia.
  Qed.

  Let mids_body := arange (s + 1 / 2 * dt) (e - 1 / 2 * dt + dt / 10) dt.
  Lemma mids_body_length : length mids_body = n.
  Proof.
    apply arange_count_iff; [assumption|assumption|]. pose proof grid_bounds. lra.
  Qed.
  Let mids := 0 :: mids_body ++ [e].
  Let averages := match steps with [] => [] | a :: _ => (a :: steps) ++ [last steps a] end.
  Lemma averages_length : length averages = S (S n).
  Proof.
    unfold averages. pose proof steps_length as Hl. destruct steps as [|a l]; [cbn in Hl; lia|].
    cbn [length] in *. rewrite app_length. cbn [length]. lia.
  Qed.
  Lemma mids_length : length mids = S (S n).
  Proof. unfold mids. cbn [length]. rewrite app_length, mids_body_length. cbn; lia. Qed.
  (** entry k+1 of the mids is the middle of step k; the last is the end. *)
  Lemma mids_mid k : (k < n)%nat -> nth_error mids (S k) = Some (s + (INR k + 1 / 2) * dt).
  Proof.
    intros Hk. unfold mids. cbn [nth_error]. rewrite nth_error_app1 by (rewrite mids_body_length; lia).
    unfold mids_body. rewrite arange_nth_error by (fold mids_body; rewrite mids_body_length; lia).
    f_equal. lra.
  Qed.
  Lemma mids_end : nth_error mids (S n) = Some e.
  Proof.
    unfold mids. cbn [nth_error]. rewrite nth_error_app2 by (rewrite mids_body_length; lia).
    rewrite mids_body_length, Nat.sub_diag. reflexivity.
  Qed.
  Lemma averages_0 : nth_error averages 0 = Some ((P 1%nat - P O) / dt).
  Proof.
    pose proof steps_length as Hl. pose proof (steps_nth 0 0 ltac:(lia)) as H0.
    unfold averages. destruct steps as [|a l]; [cbn in Hl; lia|]. cbn in *. congruence.
  Qed.
  Lemma averages_mid k : (k < n)%nat -> nth_error averages (S k) = Some ((P (S k) - P k) / dt).
  Proof.
    intros Hk. pose proof steps_length as Hl. pose proof (steps_nth k 0 Hk) as H0.
    unfold averages. destruct steps as [|a l]; [cbn in Hl; lia|].
    cbn [app nth_error]. rewrite app_comm_cons. rewrite nth_error_app1 by lia.
    rewrite (nth_error_nth' _ 0) by lia. congruence.
  Qed.
  Lemma averages_end : nth_error averages (S n) = Some ((P n - P (n - 1)%nat) / dt).
  Proof.
    pose proof steps_length as Hl. pose proof (steps_nth (n - 1) 0 ltac:(lia)) as H0.
    unfold averages. destruct steps as [|a l]; [cbn in Hl; lia|].
    cbn [app nth_error]. rewrite app_comm_cons. rewrite nth_error_app2 by lia.
    rewrite Hl, Nat.sub_diag. cbn [nth_error]. f_equal.
    rewrite (last_default a l a 0), last_nth, Hl, H0. now replace (S (n - 1)) with n by lia.
  Qed.
  Lemma mids_increasing : increasing mids.
  Proof.
    unfold mids. rewrite increasing_SS. apply (SS_app (0 :: mids_body) [e]).
    - constructor.
      + apply increasing_SS. now apply arange_increasing.
      + apply Forall_forall. intros x Hx. apply arange_In in Hx as (k & _ & ->).
        pose proof (pos_INR k). assert (0 <= INR k * dt) by (apply Rmult_le_pos; lra). lra.
    - repeat constructor.
    - assert (Hend : 0 < e /\ s + (INR n - 1 / 2) * dt < e).
      { pose proof grid_bounds as G. assert (1 <= INR n) by (change 1 with (INR 1); apply le_INR; lia).
        split.
        - assert (dt <= INR n * dt) by (rewrite <- (Rmult_1_l dt) at 1; apply Rmult_le_compat_r; lra). lra.
        - lra. }
      intros x y Hx [<-|[]]. destruct Hx as [<-|Hx]; [tauto|].
      apply arange_In in Hx as (k & Hk & ->). fold mids_body in Hk. rewrite mids_body_length in Hk.
      assert (INR k <= INR n - 1).
      { apply Rle_trans with (INR (n - 1)); [apply le_INR; lia|]. rewrite minus_INR by lia. cbn. lra. }
      assert (INR k * dt <= (INR n - 1) * dt) by (apply Rmult_le_compat_r; lra). lra.
  Qed.

  Let v k := interp1 (s + INR k * dt) (combine mids averages).
  Lemma v_eq k y : on_polyline mids averages (s + INR k * dt) y -> v k = y.
  Proof.
    intros H. assert (Hne : mids <> []) by (unfold mids; discriminate).
    assert (Hl : length averages = length mids) by (now rewrite averages_length, mids_length).
    refine (on_polyline_unique mids averages _ _ _ Hne Hl mids_increasing _ H).
    apply interp1_polyline; [assumption|assumption|exact mids_increasing].
  Qed.
  Lemma v_0 : v O = (P 1%nat - P O) / dt.
  Proof.
    apply v_eq. cbn [INR]. right; right.
    exists O, 0, (s + (0 + 1 / 2) * dt), ((P 1%nat - P O) / dt), ((P 1%nat - P O) / dt).
    split; [reflexivity|]. split; [exact (mids_mid 0 ltac:(lia))|]. split; [exact averages_0|].
    split; [exact (averages_mid 0 ltac:(lia))|]. split; [lra|]. lra.
  Qed.
  Lemma v_mid k : (1 <= k)%nat -> (k < n)%nat ->
    v k = ((P k - P (k - 1)%nat) / dt + (P (S k) - P k) / dt) / 2.
  Proof.
    intros H1 Hk. apply v_eq. right; right.
    exists k, (s + (INR (k - 1) + 1 / 2) * dt), (s + (INR k + 1 / 2) * dt),
           ((P k - P (k - 1)%nat) / dt), ((P (S k) - P k) / dt).
    assert (E : S (k - 1) = k) by lia.
    split; [rewrite <- E at 1; apply mids_mid; lia|]. split; [apply mids_mid; lia|].
    split; [rewrite <- E at 1; rewrite averages_mid by lia; now rewrite E|].
    split; [apply averages_mid; lia|].
    rewrite minus_INR by lia. cbn [INR]. split; [lra|]. field. lra.
  Qed.
  Lemma v_last : v n = (P n - P (n - 1)%nat) / dt.
  Proof.
    apply v_eq. pose proof grid_bounds as G.
    destruct (Rle_dec e (s + INR n * dt)) as [He|He].
    - right; left. split.
      + unfold mids. rewrite app_comm_cons, last_snoc. assumption.
      + assert (El := averages_end). rewrite last_nth, averages_length.
        replace (S (S n) - 1)%nat with (S n) by lia. symmetry. now apply nth_of_nth_error.
    - right; right. exists n, (s + (INR (n - 1) + 1 / 2) * dt), e,
           ((P n - P (n - 1)%nat) / dt), ((P n - P (n - 1)%nat) / dt).
      assert (E : S (n - 1) = n) by lia.
      split; [rewrite <- E at 1; apply mids_mid; lia|]. split; [exact mids_end|].
      split; [rewrite <- E at 1; rewrite averages_mid by lia; now rewrite E|].
      split; [exact averages_end|]. rewrite minus_INR by lia. cbn [INR]. split; [lra|]. lra.
  Qed.

  Lemma resample_rate_ok : exists r, resample_rate new_t ts vs dt s e (dt / 10) = Ok r /\
    length r = length new_t /\ forall k, (k <= n)%nat -> nth k r 0 = v k.
  Proof.
    unfold resample_rate. unR. fold steps.
    pose proof steps_length as Hl. pose proof averages_length as Ha. pose proof mids_length as Hm.
    unfold v. unfold averages in *. destruct steps as [|a l] eqn:Es; [cbn in Hl; lia|].
    change (@lit R RNum 1 2) with (1 / 2).
    change (0 :: arange (s + 1 / 2 * dt) (e - 1 / 2 * dt + dt / 10) dt ++ [e]) with mids.
    rewrite Ha, Hm, Nat.eqb_refl. eexists. split; [reflexivity|].
    unfold interp. rewrite map_length. split; [reflexivity|].
    intros k Hk. set (f := fun x => interp1 x _).
    rewrite (nth_indep _ 0 (f 0)) by (rewrite map_length, new_t_length; lia).
    rewrite map_nth. rewrite new_t_nth by assumption. reflexivity.
  Qed.

  Lemma resample_rate_distance r g w : resample_rate new_t ts vs dt s e (dt / 10) = Ok r ->
    trapezoid (mkcyc new_t r g w) 0 n = P n - P O.
  Proof.
    intros Hr. destruct resample_rate_ok as (r' & E & Hlen & Hv). rewrite Hr in E. injection E as <-.
    apply averaged_trapezoid with (dt := dt); cbn [time_s mps]; auto.
    - intros k Hk. rewrite !new_t_nth by lia. rewrite S_INR. lra.
    - rewrite Hv by lia. apply v_0.
    - intros k H1 Hk. rewrite Hv by lia. apply v_mid; lia.
    - rewrite Hv by lia. apply v_last.
  Qed.
End Rate.

Theorem resample_rate_preserves (d : pdict R) o d' (ts vs new_t : list R) k g w :
  resample d o = Ok d' -> dget d "time_s" = Some (Arr ts) -> ts <> [] -> increasing ts ->
  0 < want_dt o ts -> 0 <= want_start o ->
  dget d' "time_s" = Some (Arr new_t) -> (2 <= length new_t)%nat ->
  k <> "time_s"%string -> dget d k = Some (Arr vs) -> length vs = length ts ->
  In k (o_rate o) -> ~ In k (o_hold o) -> ~ In k (o_hold_next o) ->
  exists vs' D0 D1, dget d' k = Some (Arr vs') /\ length vs' = length new_t /\
    on_polyline ts (cumulative_distance (mkcyc ts vs g w)) (hd 0 new_t) D0 /\
    on_polyline ts (cumulative_distance (mkcyc ts vs g w)) (last new_t 0) D1 /\
    trapezoid (mkcyc new_t vs' g w) 0 (length new_t - 1) = D1 - D0.
Proof.
  intros H Hts Hne Hinc Hdt Hs Hnt Hlen2 Hk Hvs Hlen Hin N1 N2.
  destruct (resample_inv d o d' ts H Hts) as (rest & -> & Hr).
  cbn [dget] in Hnt. rewrite String.eqb_refl in Hnt. injection Hnt as <-.
  destruct (resample_rest_get _ _ _ _ _ _ _ _ _ Hr k (Arr vs) Hk Hvs) as (v' & Hv & Hg).
  cbn [dget]. destruct (String.eqb_spec "time_s" k); [congruence|]. rewrite Hg.
  unfold resample_val in Hv.
  assert (Hmem : forall ks, ~ In k ks -> mem_str k ks = false).
  { intros ks Hn. unfold mem_str. destruct (existsb (String.eqb k) ks) eqn:E; [|reflexivity].
    apply existsb_exists in E as (k' & Hin' & Heq). apply String.eqb_eq in Heq. subst. contradiction. }
  assert (Hmem1 : mem_str k (o_rate o) = true).
  { apply existsb_exists. exists k. split; [assumption|apply String.eqb_refl]. }
  rewrite (Hmem _ N1), (Hmem _ N2), Hmem1 in Hv.
  match type of Hv with bindR ?m _ = _ => destruct m as [r|] eqn:Em; [|discriminate] end.
  cbn [bindR] in Hv. injection Hv as <-.
  set (dt := want_dt o ts) in *. set (s := want_start o) in *. set (e := want_end o ts) in *.
  set (nt := resample_times dt s e) in *.
  assert (Hn : (1 <= length nt - 1)%nat) by lia.
  destruct (resample_rate_ok ts vs dt s e Hdt Hn) as (r' & Er & Hl & _).
  fold nt in Er, Hl. rewrite Er in Em. injection Em as ->.
  pose proof (resample_rate_distance ts vs dt s e Hdt Hs Hn r g w Er) as Hd.
  fold nt in Hd.
  set (c := mkcyc ts vs g w).
  assert (Ecd : rate_cumulative ts vs = cumulative_distance c)
    by (apply (rate_cumulative_eq c); [exact Hlen|exact Hne]).
  assert (Hpl : forall x, on_polyline ts (cumulative_distance c) x (interp1 x (combine ts (cumulative_distance c)))).
  { intros x. apply interp1_polyline; [assumption| |assumption].
    unfold cumulative_distance. now rewrite map_length, seq_length. }
  exists r, (interp1 (hd 0 nt) (combine ts (cumulative_distance c))),
         (interp1 (last nt 0) (combine ts (cumulative_distance c))).
  split; [reflexivity|]. split; [exact Hl|]. split; [apply Hpl|]. split; [apply Hpl|].
  rewrite Hd, Ecd. unfold interp.
  set (f := fun x => interp1 x (combine ts (cumulative_distance c))).
  rewrite !(nth_indep (map f nt) 0 (f 0)) by (rewrite map_length; lia).
  rewrite !map_nth. rewrite last_nth. unfold f. f_equal. f_equal. f_equal.
  destruct nt; reflexivity.
Qed.
