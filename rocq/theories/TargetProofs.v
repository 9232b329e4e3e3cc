(** C02 (microtrips are contiguous pieces of the cycle) and C17 (the target-speed table). *)
From Coq Require Import Sorting.Sorted.
From Verif Require Import Num Numpy ListFacts CycleModel CycleSpec MicrotripProofs ConcatProofs
  CycleProofs1 RateProofs DistProofs.
Local Open Scope R_scope.

Section Generic.
  Context {F : Type} {N : Num F}.

  (** Samples used up before piece [j]: pieces overlap in one sample. *)
  Definition offset {A} (l : list (list A)) (j : nat) : nat :=
    list_sum (map (fun m => length m - 1)%nat (firstn j l)).

  Lemma mt_raw_window stop rest : forall (mt pre : list (sample F)) moving j raw,
    mt <> [] -> nth_error (mt_raw stop mt moving rest) j = Some raw ->
    raw = firstn (length raw) (skipn (length pre + offset (mt_raw stop mt moving rest) j)
                                     (pre ++ mt ++ rest)).
  Proof.
    induction rest as [|s rest IH]; intros mt pre moving j raw Hmt Hj; cbn [mt_raw] in *.
    - destruct mt as [|m0 mt]; [congruence|].
      destruct j as [|j]; cbn [nth_error] in Hj; [|destruct j; discriminate].
      injection Hj as <-. unfold offset. cbn [firstn map list_sum fold_right].
      rewrite Nat.add_0_r, app_nil_r, skipn_app, skipn_all, Nat.sub_diag. cbn [app skipn].
      now rewrite firstn_all.
    - destruct (_ && _ && _)%bool eqn:Ec.
      + destruct j as [|j].
        * cbn [nth_error] in Hj. injection Hj as <-. unfold offset. cbn [firstn map list_sum fold_right].
          rewrite Nat.add_0_r, skipn_app, skipn_all, Nat.sub_diag. cbn [app skipn].
          rewrite firstn_app, firstn_all, Nat.sub_diag. cbn [firstn]. now rewrite app_nil_r.
        * cbn [nth_error] in Hj.
          assert (Hsplit : mt = removelast mt ++ [last mt s]) by (now apply app_removelast_last).
          specialize (IH [last mt s; s] (pre ++ removelast mt) (nltb stop (s_v s)) j raw
                        ltac:(discriminate) Hj).
          rewrite IH at 1. f_equal. f_equal.
          -- unfold offset. cbn [firstn map]. unfold list_sum. cbn [fold_right].
             rewrite Hsplit at 3. rewrite !app_length. cbn [length]. lia.
          -- rewrite <- app_assoc. f_equal. rewrite Hsplit at 3. now rewrite <- app_assoc.
      + assert (Hne : mt ++ [s] <> []) by (destruct mt; discriminate).
        rewrite (IH (mt ++ [s]) pre _ j raw Hne Hj) at 1. now rewrite <- app_assoc.
  Qed.

  Lemma mt_raw_nil stop (l : list (sample F)) j raw :
    nth_error (mt_raw stop [] false l) j = Some raw ->
    raw = firstn (length raw) (skipn (offset (mt_raw stop [] false l) j) l).
  Proof.
    destruct l as [|s l]; cbn [mt_raw]; [destruct j; discriminate|].
    cbn [length Nat.ltb Nat.leb]. rewrite andb_false_r. cbn [app]. intros H.
    exact (mt_raw_window stop l [s] [] _ j raw ltac:(discriminate) H).
  Qed.

  Lemma map_firstn_skipn {A B} (f : A -> B) n k l :
    map f (firstn n (skipn k l)) = firstn n (skipn k (map f l)).
  Proof. now rewrite <- firstn_map, skipn_map. Qed.

  Lemma samples_fields (c : cyc F) : wf c ->
    map s_t (samples c) = time_s c /\ map s_v (samples c) = mps c /\
    map s_g (samples c) = grade c /\ map s_r (samples c) = road_type c.
  Proof. intros H. rewrite <- (of_samples_samples c H) at 2 4 6 8. repeat split. Qed.

  (** Microtrip [j] is the run of samples starting where the microtrip before it ends. *)
  Theorem microtrip_window (c : cyc F) stop j m : wf c ->
    nth_error (to_microtrips c stop) j = Some m ->
    let s := list_sum (map (fun x => length (time_s x) - 1)%nat (firstn j (to_microtrips c stop))) in
    let n := length (time_s m) in
    (exists t, nth_error (time_s c) s = Some t /\
       time_s m = map (fun x => nsub x t) (firstn n (skipn s (time_s c)))) /\
    mps m = firstn n (skipn s (mps c)) /\
    grade m = firstn n (skipn s (grade c)) /\
    road_type m = firstn n (skipn s (road_type c)).
  Proof.
    intros Hw Hm s n.
    assert (Hs : s = offset (mt_raw stop [] false (samples c)) j).
    { unfold s, offset, to_microtrips. rewrite mt_scan_raw, map_map, firstn_map, map_map.
      f_equal. apply map_ext. intros a. unfold of_samples; cbn [time_s].
      now rewrite map_length, rebase_length. }
    apply to_microtrips_nth in Hm as (raw & Hraw & ->).
    assert (Hne : raw <> []).
    { apply (mts_ok_nth stop _ None (mt_raw_all_ok (samples c) stop) j raw Hraw). }
    pose proof (mt_raw_nil stop _ j raw Hraw) as Hwin. rewrite <- Hs in Hwin.
    assert (Hn : n = length raw).
    { unfold n, of_samples; cbn [time_s]. now rewrite map_length, rebase_length. }
    clearbody n; subst n. clearbody s.
    destruct (samples_fields c Hw) as (Et & Ev & Eg & Er).
    destruct (rebase_samples_fields raw) as (R1 & R2 & R3).
    unfold of_samples; cbn [time_s mps grade road_type]. rewrite R1, R2, R3.
    rewrite <- Et, <- Ev, <- Eg, <- Er, <- !map_firstn_skipn, <- Hwin.
    repeat split.
    destruct raw as [|s0 raw]; [congruence|].
    exists (s_t s0). split.
    - rewrite nth_error_map. replace (nth_error (samples c) s) with (Some s0); [reflexivity|].
      assert (E : nth_error (firstn (length (s0 :: raw)) (skipn s (samples c))) 0 = Some s0)
        by (now rewrite <- Hwin).
      rewrite nth_error_firstn in E by (cbn; lia).
      rewrite <- (firstn_skipn s (samples c)).
      assert (Hl : length (firstn s (samples c)) = s).
      { apply firstn_length_le. destruct (Nat.le_gt_cases s (length (samples c))) as [|Hgt]; [assumption|].
        rewrite skipn_all2 in E by lia. destruct (length (s0 :: raw)); discriminate. }
      rewrite nth_error_app2 by lia. rewrite Hl, Nat.sub_diag. now rewrite E.
    - unfold rebase_samples. rewrite !map_map. reflexivity.
  Qed.
End Generic.

(** ** C17 *)
Lemma firstn_skipn_nth {A} (l : list A) n s i x : nth_error (firstn n (skipn s l)) i = Some x ->
  nth_error l (s + i) = Some x.
Proof.
  intros H. destruct (Nat.lt_ge_cases i n) as [Hi|Hi].
  - rewrite nth_error_firstn in H by assumption. revert l H. induction s as [|s IH]; intros l H; [exact H|].
    destruct l as [|a l]; [destruct i; discriminate|]. cbn. apply IH, H.
  - assert (Hl := nth_error_Some (firstn n (skipn s l)) i). rewrite H in Hl.
    assert (i < length (firstn n (skipn s l)))%nat by (apply Hl; discriminate).
    pose proof (firstn_le_length n (skipn s l)). lia.
Qed.

Lemma microtrip_regular (c : cyc R) stop m :
  wf c -> nondecreasing (time_s c) -> nonneg (mps c) -> In m (to_microtrips c stop) ->
  wf m /\ time_s m <> [] /\ hd 0 (time_s m) = 0 /\ nondecreasing (time_s m) /\ nonneg (mps m).
Proof.
  intros Hw Hnd Hnn Hin. apply In_nth_error in Hin as [j Hj].
  destruct (microtrip_shape c stop j m Hj) as (Hwm & Hne & (t0 & Ht0) & _).
  destruct (microtrip_window c stop j m Hw Hj) as ((t & Ht & Et) & Ev & _).
  split; [assumption|]. split; [assumption|]. split.
  { destruct (time_s m); [congruence|]. cbn in Ht0. injection Ht0 as ->. cbn. unR. lra. }
  split.
  - intros i k x y Hik Hx Hy. rewrite Et in Hx, Hy.
    apply nth_error_map_inv in Hx as (x' & Hx & ->). apply nth_error_map_inv in Hy as (y' & Hy & ->).
    apply firstn_skipn_nth in Hx. apply firstn_skipn_nth in Hy.
    unR. assert (x' <= y'); [|lra]. eapply Hnd; [|exact Hx|exact Hy]. lia.
  - intros x Hx. rewrite Ev in Hx. apply Hnn. apply In_nth_error in Hx as [i Hi].
    apply firstn_skipn_nth in Hi. eapply nth_error_In; exact Hi.
Qed.

Lemma Rsum_map_le {A} (f g : A -> R) l : (forall x, In x l -> f x <= g x) -> Rsum (map f l) <= Rsum (map g l).
Proof.
  induction l as [|a l IH]; intros H; cbn; [lra|].
  assert (f a <= g a) by (apply H; now left). assert (Rsum (map f l) <= Rsum (map g l)).
  { apply IH. intros x Hx. apply H. now right. }
  unfold Rsum in *. lra.
Qed.
Lemma Rsum_map_pos_ex {A} (f : A -> R) l : 0 < Rsum (map f l) -> exists x, In x l /\ 0 < f x.
Proof.
  induction l as [|a l IH]; cbn; [lra|]. intros H.
  destruct (Rlt_dec 0 (f a)) as [|Hn]; [exists a; split; [now left|assumption]|].
  destruct IH as (x & Hx & Hp); [unfold Rsum; lra|]. exists x; split; [now right|assumption].
Qed.
Lemma Rsum_map_ge_one {A} (f : A -> R) l x : (forall y, In y l -> 0 <= f y) -> In x l -> f x <= Rsum (map f l).
Proof.
  induction l as [|a l IH]; intros H Hin; [destruct Hin|]. cbn.
  assert (0 <= f a) by (apply H; now left).
  destruct Hin as [->|Hin].
  - assert (0 <= Rsum (map f l)); [|unfold Rsum in *; lra].
    clear IH. induction l as [|b l IH]; cbn; [lra|].
    assert (0 <= f b) by (apply H; right; now left).
    assert (0 <= Rsum (map f l)). { apply IH. intros y Hy. apply H. destruct Hy; [now left|right; now right]. }
    unfold Rsum in *; lra.
  - assert (f x <= Rsum (map f l)) by (apply IH; [intros; apply H; now right|assumption]).
    unfold Rsum in *; lra.
Qed.

Lemma nth_ext_sum (l1 l2 : list R) : length l1 = length l2 ->
  (forall i, (i < length l1)%nat -> nth i l1 0 = nth i l2 0) -> l1 = l2.
Proof. intros Hl H. eapply nth_ext; [exact Hl|exact H]. Qed.

Lemma mt_dist_length (m : cyc R) : wf m -> time_s m <> [] -> hd 0 (time_s m) = 0 ->
  mt_dist m = trip_length m.
Proof.
  intros (Hw & _) Hne H0. unfold mt_dist, trip_length. rewrite nsum_Rsum.
  assert (E : dist_m m = 0 :: map (fun j => nth (S j) (mps m) 0 * (nth (S j) (time_s m) 0 - nth j (time_s m) 0))
                                 (seq 0 (length (time_s m) - 1))).
  { assert (Hlen : length (dist_m m) = length (time_s m)).
    { unfold dist_m. rewrite zipw_length, dt_s_length, Hw. apply Nat.min_id. }
    assert (Hpos : (0 < length (time_s m))%nat) by (destruct (time_s m); [congruence|cbn; lia]).
    apply (nth_ext _ _ 0 0).
    - rewrite Hlen. cbn [length]. rewrite map_length, seq_length. lia.
    - intros i Hi. rewrite Hlen in Hi. unfold dist_m.
      rewrite (zipw_nth _ _ _ i 0 0) by (rewrite ?dt_s_length; lia). unR.
      rewrite dt_s_nth by assumption.
      set (f := fun j => nth (S j) (mps m) 0 * (nth (S j) (time_s m) 0 - nth j (time_s m) 0)).
      destruct i as [|i].
      + change (nth 0 (0 :: map f (seq 0 (length (time_s m) - 1))) 0) with 0.
        replace (nth 0 (time_s m) 0) with 0; [lra|]. rewrite <- H0. now destruct (time_s m).
      + change (nth (S i) (0 :: map f (seq 0 (length (time_s m) - 1))) 0)
          with (nth i (map f (seq 0 (length (time_s m) - 1))) 0).
        rewrite (nth_indep (map f (seq 0 (length (time_s m) - 1))) 0 (f 0%nat)) by (rewrite map_length, seq_length; lia).
        rewrite map_nth, seq_nth by lia. reflexivity. }
  rewrite E, Rsum_cons. unfold Rsum. lra.
Qed.

Lemma moving_fold (l : list (R * R)) a :
  fold_left (fun acc p => if Rltb 0 (snd p) then acc + fst p else acc) l a
  = a + Rsum (map (fun p => if Rlt_dec 0 (snd p) then fst p else 0) l).
Proof.
  revert a; induction l as [|[d v] l IH]; intros a; cbn [fold_left map snd fst]; rewrite ?Rsum_cons;
    [unfold Rsum; cbn; lra|].
  rewrite IH. unfold Rltb. destruct (Rlt_dec 0 v); lra.
Qed.
Lemma moving_time_eq (m : cyc R) : wf m -> time_spent_moving m = moving_time m.
Proof.
  intros (Hw & _). unfold time_spent_moving, moving_time. unR. rewrite moving_fold, Rplus_0_l.
  unfold Rsum. f_equal.
  assert (Hl : length (combine (diff (time_s m)) (avg_pairs (mps m))) = (length (time_s m) - 1)%nat).
  { rewrite combine_length, diff_length, avg_pairs_length, Hw. apply Nat.min_id. }
  set (f := fun p : R * R => if Rlt_dec 0 (snd p) then fst p else 0).
  set (g := fun j => if Rlt_dec 0 ((nth (S j) (mps m) 0 + nth j (mps m) 0) / 2)
                     then nth (S j) (time_s m) 0 - nth j (time_s m) 0 else 0).
  apply (nth_ext _ _ (f (0, 0)) (g 0%nat)).
  - now rewrite !map_length, seq_length.
  - intros i Hi. rewrite map_length, Hl in Hi. rewrite !map_nth, seq_nth by lia.
    rewrite combine_nth by (rewrite diff_length, avg_pairs_length, Hw; lia).
    unfold f, g. cbn [fst snd plus].
    rewrite avg_pairs_nth by lia. rewrite diff_nth by lia. reflexivity.
Qed.

Lemma trip_time_sum (m : cyc R) :
  trip_time m = Rsum (map (fun j => nth (S j) (time_s m) 0 - nth j (time_s m) 0) (seq 0 (length (time_s m) - 1))).
Proof.
  unfold trip_time. destruct (time_s m) as [|t l]; [cbn; lra|].
  cbn [length]. rewrite Nat.sub_succ, Nat.sub_0_r. cbn [hd].
  assert (H : forall n d, (n <= length l)%nat ->
    Rsum (map (fun j => nth (S j) (t :: l) d - nth j (t :: l) d) (seq 0 n)) = nth n (t :: l) d - t).
  { induction n as [|n IH]; intros d Hn; [cbn; lra|].
    rewrite seq_S, map_app, Rsum_app, IH by lia. cbn [plus map Rsum fold_right]. lra. }
  rewrite H by lia. rewrite last_nth. cbn [length]. now rewrite Nat.sub_succ, Nat.sub_0_r.
Qed.

Lemma trip_times (m : cyc R) : wf m -> nondecreasing (time_s m) -> nonneg (mps m) ->
  0 < trip_length m -> 0 < moving_time m <= trip_time m.
Proof.
  intros (Hw & _) Hnd Hnn Hpos.
  assert (Hdt : forall j, In j (seq 0 (length (time_s m) - 1)) -> 0 <= nth (S j) (time_s m) 0 - nth j (time_s m) 0).
  { intros j Hj. apply in_seq in Hj.
    assert (nth j (time_s m) 0 <= nth (S j) (time_s m) 0); [|lra].
    eapply (Hnd j (S j)); [lia| |]; apply nth_error_nth'; lia. }
  assert (Hv : forall j, (j < length (time_s m))%nat -> 0 <= nth j (mps m) 0).
  { intros j Hj. apply Hnn, nth_In. lia. }
  split.
  - unfold trip_length in Hpos. apply Rsum_map_pos_ex in Hpos as (j & Hj & Hp).
    pose proof (Hdt j Hj) as Hd. pose proof Hj as Hj'. apply in_seq in Hj'.
    assert (Hvj := Hv j ltac:(lia)). assert (Hvs := Hv (S j) ltac:(lia)).
    assert (0 < nth (S j) (time_s m) 0 - nth j (time_s m) 0) by nra.
    assert (0 < nth (S j) (mps m) 0) by nra.
    unfold moving_time.
    match goal with |- context [map ?f ?l] => set (g := f); assert (E := Rsum_map_ge_one g l j) end.
    unfold Rsum in E. eapply Rlt_le_trans; [|apply E; [|exact Hj]].
    + unfold g. destruct (Rlt_dec _ _); lra.
    + intros y Hy. unfold g. specialize (Hdt y Hy). destruct (Rlt_dec _ _); lra.
  - rewrite trip_time_sum. unfold moving_time. apply Rsum_map_le.
    intros j Hj. specialize (Hdt j Hj). destruct (Rlt_dec _ _); lra.
Qed.

Lemma mt_target_blended (m : cyc R) b : wf m -> time_s m <> [] -> hd 0 (time_s m) = 0 ->
  nondecreasing (time_s m) -> nonneg (mps m) -> 0 < trip_length m -> 0 <= b <= 1 ->
  mt_target b m = blended_speed b m.
Proof.
  intros Hw Hne H0 Hnd Hnn Hpos Hb. unfold mt_target.
  rewrite mt_dist_length, moving_time_eq by assumption.
  destruct (trip_times m Hw Hnd Hnn Hpos) as [Hm1 Hm2].
  change (@n0 R RNum) with 0. change (nsub (last (time_s m) 0) (hd 0 (time_s m))) with (trip_time m).
  unR. destruct (Rltb_spec 0 (trip_time m)); [|lra]. destruct (Rltb_spec 0 (moving_time m)); [|lra].
  rewrite nmin_R, nmax_R. unfold blended_speed.
  set (A := trip_length m / trip_time m). set (B := trip_length m / moving_time m).
  assert (A <= B).
  { unfold A, B, Rdiv. apply Rmult_le_compat_l; [lra|]. apply Rinv_le_contravar; assumption. }
  rewrite Rmin_left by nra. rewrite Rmax_left by nra. lra.
Qed.

Lemma target_table_spec b min mts : forall start,
  (forall m, In m mts -> mt_dist m = trip_length m) ->
  (forall m, In m mts -> 0 < trip_length m -> mt_target b m = blended_speed b m) ->
  let P := filter (fun m => if Rlt_dec 0 (trip_length m) then true else false) mts in
  length (target_table b min start mts) = length P /\
  (forall j m, nth_error P j = Some m ->
     nth_error (target_table b min start mts) j =
     Some (start + Rsum (map trip_length (firstn j P)), Rmax (blended_speed b m) min)).
Proof.
  induction mts as [|m mts IH]; intros start Hd Ht P; cbn [target_table].
  - split; [reflexivity|]. intros [|j] m H; discriminate.
  - unfold P. cbn [filter]. rewrite Hd by now left. unR. unfold Rltb.
    destruct (IH start) as [IH1 IH2]; [intros; apply Hd; now right|intros; apply Ht; [now right|assumption]|].
    destruct (IH (start + trip_length m)) as [IH3 IH4];
      [intros; apply Hd; now right|intros; apply Ht; [now right|assumption]|].
    destruct (Rlt_dec 0 (trip_length m)) as [Hp|Hp].
    + split; [cbn [length]; now rewrite IH3|]. intros [|j] m' Hj; cbn [nth_error] in *.
      * injection Hj as <-. rewrite nmax_R. rewrite (Ht m (or_introl eq_refl) Hp).
        cbn [firstn map]. unfold Rsum; cbn. now rewrite Rplus_0_r.
      * rewrite (IH4 j m' Hj). cbn [firstn map]. rewrite Rsum_cons. do 2 f_equal. lra.
    + split; [exact IH1|exact IH2].
Qed.

Theorem target_table_exact (c : cyc R) blend min :
  wf c -> nondecreasing (time_s c) -> nonneg (mps c) ->
  let P := filter (fun m => if Rlt_dec 0 (trip_length m) then true else false)
                  (to_microtrips c (1 / 1000000)) in
  let table := create_dist_and_target_speeds_by_microtrip c blend min in
  length table = length P /\
  forall j m, nth_error P j = Some m ->
    nth_error table j = Some (Rsum (map trip_length (firstn j P)),
                              Rmax (blended_speed (Rmax 0 (Rmin 1 blend)) m) min).
Proof.
  intros Hw Hnd Hnn P table. unfold table, create_dist_and_target_speeds_by_microtrip.
  rewrite nmin_R, nmax_R.
  change (@n0 R RNum) with 0. change (@n1 R RNum) with 1.
  change (@tol6 R RNum) with (1 / 1000000).
  assert (Hb : 0 <= Rmax 0 (Rmin 1 blend) <= 1).
  { split; [apply Rmax_l|]. apply Rmax_lub; [lra|apply Rmin_l]. }
  destruct (target_table_spec (Rmax 0 (Rmin 1 blend)) min (to_microtrips c (1 / 1000000)) 0) as [H1 H2].
  - intros m Hm. destruct (microtrip_regular c _ m Hw Hnd Hnn Hm) as (? & ? & ? & ? & ?).
    now apply mt_dist_length.
  - intros m Hm Hp. destruct (microtrip_regular c _ m Hw Hnd Hnn Hm) as (? & ? & ? & ? & ?).
    now apply mt_target_blended.
  - split; [exact H1|]. intros j m Hj. rewrite (H2 j m Hj), Rplus_0_l. reflexivity.
Qed.

Lemma Rsum_firstn_step (l : list R) j x : nth_error l j = Some x ->
  Rsum (firstn (S j) l) = Rsum (firstn j l) + x.
Proof.
  intros H. rewrite Rsum_firstn_S by (apply nth_error_Some; congruence).
  now rewrite (nth_of_nth_error _ _ _ 0 H).
Qed.

Theorem target_table_order (c : cyc R) blend min :
  wf c -> nondecreasing (time_s c) -> nonneg (mps c) ->
  let table := create_dist_and_target_speeds_by_microtrip c blend min in
  (forall d v, hd_error table = Some (d, v) -> d = 0) /\
  increasing (map fst table) /\
  (forall d v, In (d, v) table -> min <= v).
Proof.
  intros Hw Hnd Hnn table. destruct (target_table_exact c blend min Hw Hnd Hnn) as [Hlen Hnth].
  fold table in Hlen, Hnth.
  set (P := filter (fun m => if Rlt_dec 0 (trip_length m) then true else false)
                   (to_microtrips c (1 / 1000000))) in *.
  assert (Hex : forall j d v, nth_error table j = Some (d, v) -> exists m, nth_error P j = Some m /\
     d = Rsum (map trip_length (firstn j P)) /\ v = Rmax (blended_speed (Rmax 0 (Rmin 1 blend)) m) min).
  { intros j d v Hj. destruct (nth_error P j) as [m|] eqn:E.
    - specialize (Hnth j m E). rewrite Hj in Hnth. injection Hnth as -> ->. eauto.
    - apply nth_error_None in E. assert (nth_error table j <> None) by congruence.
      apply nth_error_Some in H. lia. }
  assert (Hp : forall j m, nth_error P j = Some m -> 0 < trip_length m).
  { intros j m H. apply nth_error_In in H. unfold P in H. apply filter_In in H as [_ H].
    destruct (Rlt_dec 0 (trip_length m)); [assumption|discriminate]. }
  split; [|split].
  - intros d v H. destruct (Hex O d v) as (m & _ & -> & _); [now destruct table|reflexivity].
  - assert (Hstep : forall j k, (j + S k <= length P)%nat ->
       Rsum (map trip_length (firstn j P)) < Rsum (map trip_length (firstn (j + S k) P))).
    { intros j k. induction k as [|k IH]; intros Hk.
      - replace (j + 1)%nat with (S j) by lia. destruct (nth_error P j) as [m|] eqn:E.
        + rewrite <- !firstn_map. rewrite (Rsum_firstn_step _ j (trip_length m)); [specialize (Hp j m E); lra|].
          now apply map_nth_error.
        + apply nth_error_None in E. lia.
      - replace (j + S (S k))%nat with (S (j + S k)) by lia. destruct (nth_error P (j + S k)) as [m|] eqn:E.
        + specialize (IH ltac:(lia)). rewrite <- !firstn_map in *.
          rewrite (Rsum_firstn_step _ (j + S k) (trip_length m)); [specialize (Hp _ m E); lra|].
          now apply map_nth_error.
        + apply nth_error_None in E. lia. }
    intros i j x y Hij Hx Hy.
    apply nth_error_map_inv in Hx as ([x1 x2] & Hx & ->). apply nth_error_map_inv in Hy as ([y1 y2] & Hy & ->).
    apply Hex in Hx as (m1 & E1 & -> & _). apply Hex in Hy as (m2 & E2 & -> & _). cbn [fst].
    replace j with (i + S (j - i - 1))%nat by lia. apply Hstep.
    assert (j < length P)%nat by (apply nth_error_Some; congruence). lia.
  - intros d v H. apply In_nth_error in H as [j H]. apply Hex in H as (m & _ & _ & ->). apply Rmax_r.
Qed.
