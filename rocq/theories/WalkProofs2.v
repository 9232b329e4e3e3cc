(** Proofs for C32-C38 and C40: whole runs. *)
From Coq Require Import Lia Sorting.Sorted.
From Verif Require Import Num Numpy ListFacts CycleModel CycleSpec ConcatProofs DistProofs VehModel SimModel SimState WalkModel
  FrameProofs WalkProofs StepProofs SimSpec SimProofs1 SimProofs2 WalkSpec.
Local Open Scope R_scope.

(** ** Stepping and walking *)
Section Generic.
  Context {F : Type} {N : Num F}.
  Lemma loop_calls : forall n fuel d d', (n <= fuel)%nat -> (1 <= d_i d)%nat ->
    length (d_rows d) = length (time_s (d_cyc d)) -> (d_i d + n = length (time_s (d_cyc d)))%nat ->
    walk_loop fuel d = Ok d' <-> calls n d d'.
  Proof.
    induction n as [|n IH]; intros fuel d d' HF H1 HR HN.
    - assert (E : walk_loop fuel d = Ok d).
      { destruct fuel; cbn [walk_loop]; destruct (Nat.ltb_spec (d_i d) (length (time_s (d_cyc d)))); auto; lia. }
      rewrite E. cbn. split; congruence.
    - destruct fuel as [|f]; [lia|]. cbn [walk_loop calls].
      destruct (Nat.ltb_spec (d_i d) (length (time_s (d_cyc d)))) as [L|L]; [|lia].
      destruct (sim_drive_step d) as [d1|] eqn:E; cbn [bindR].
      + pose proof (step_stepped d d1 ltac:(lia) E) as ST.
        assert (Q : walk_loop f d1 = Ok d' <-> calls n d1 d').
        { apply IH; try lia; rewrite ?(st_i _ _ _ ST), ?(st_len _ _ _ ST), ?(st_tlen _ _ _ ST); lia. }
        rewrite Q. split; [eauto|]. intros (x & [= <-] & C). auto.
      + split; [discriminate|]. intros (x & C & _). discriminate.
  Qed.
  Lemma calls_index : forall n d d', (1 <= d_i d)%nat -> length (d_rows d) = length (time_s (d_cyc d)) ->
    (d_i d + n = length (time_s (d_cyc d)))%nat -> calls n d d' -> d_i d' = (d_i d + n)%nat.
  Proof.
    induction n as [|n IH]; intros d d' H1 HR HN C; cbn in C; [subst; lia|].
    destruct C as (d1 & E & C). pose proof (step_stepped d d1 ltac:(lia) E) as ST.
    apply IH in C; rewrite ?(st_i _ _ _ ST), ?(st_len _ _ _ ST), ?(st_tlen _ _ _ ST) in *; try lia.
  Qed.
  Lemma init_shape d s ovr d1 : wf_sd d -> init_for_step d s ovr = Ok d1 ->
    d_i d1 = 1%nat /\ length (d_rows d1) = length (time_s (d_cyc d1)) /\ length (time_s (d_cyc d1)) = clen (d_cyc d) /\
    (1 <= clen (d_cyc d))%nat.
  Proof.
    intros (W1 & W2 & W3) E. destruct (init_rows _ _ _ _ E) as (_ & _ & _ & _ & _ & _ & I & C & L & P & _).
    assert (LT : length (time_s (d_cyc d1)) = clen (d_cyc d)).
    { rewrite C. destruct (changes_cycle _); unfold clen in *; auto. }
    split; [exact I|]. split; [congruence|]. split; [exact LT|]. lia.
  Qed.
  Lemma post_same d : same_object d (post_accel d).
  Proof.
    split; [|split; [|split; [|split; [|split; [|split; [|split; [|split; [|split]]]]]]]]; try reflexivity.
    - apply post_accel_len.
    - intros [|i]; [now rewrite post_accel_0|].
      destruct (Nat.lt_ge_cases (S i) (length (d_rows d))).
      + rewrite post_accel_row by lia. reflexivity.
      + rewrite !row_at_out; auto. now rewrite post_accel_len.
  Qed.
  Lemma walk_calls d s ovr d' : wf_sd d -> sim_drive_walk d s ovr = Ok d' ->
    exists d1 d2, init_for_step d s ovr = Ok d1 /\ calls (clen (d_cyc d) - 1) d1 d2 /\
      d_i d2 = clen (d_cyc d) /\ same_object d2 d'.
  Proof.
    intros W H. unfold sim_drive_walk in H. inv_ok H. rename x into d1. inv_ok H. rename x into d2. injection H as <-.
    destruct (init_shape _ _ _ _ W E) as (A & B & C & D).
    apply loop_calls with (n := (clen (d_cyc d) - 1)%nat) in E0; try lia.
    exists d1, d2. split; [exact E|]. split; [exact E0|]. split; [|apply post_same].
    apply calls_index in E0; lia.
  Qed.
  Lemma calls_walk d s ovr d1 d2 : wf_sd d -> init_for_step d s ovr = Ok d1 ->
    calls (clen (d_cyc d) - 1) d1 d2 -> exists d', sim_drive_walk d s ovr = Ok d' /\ same_object d2 d'.
  Proof.
    intros W E C. destruct (init_shape _ _ _ _ W E) as (A & B & CC & D).
    exists (post_accel d2). split; [|apply post_same]. unfold sim_drive_walk. rewrite E. cbn [bindR].
    apply loop_calls with (fuel := length (time_s (d_cyc d1))) in C; try lia. now rewrite C.
  Qed.

  (** ** Repeatability *)
  Lemma calls_fixed : forall n d d', calls n d d' -> (1 <= d_i d)%nat -> length (d_rows d) = length (time_s (d_cyc d)) ->
    (d_i d + n = length (time_s (d_cyc d)))%nat ->
    d_veh d' = d_veh d /\ d_props d' = d_props d /\ d_sp d' = d_sp d /\ d_cyc0 d' = d_cyc0 d /\
    d_hev_sim_count d' = d_hev_sim_count d /\ length (time_s (d_cyc d')) = length (time_s (d_cyc d)) /\
    length (d_rows d') = length (d_rows d) /\
    (changes_cycle (d_sp d) = false -> d_cyc d' = d_cyc d).
  Proof.
    induction n as [|n IH]; intros d d' C H1 HR HN; cbn in C; [subst; intuition|].
    destruct C as (d1 & E & C). pose proof (step_stepped d d1 ltac:(lia) E) as ST.
    apply IH in C; rewrite ?(st_i _ _ _ ST), ?(st_len _ _ _ ST), ?(st_tlen _ _ _ ST) in *; try lia.
    destruct C as (a & b & c & e & f & g & h & k).
    rewrite (st_veh _ _ _ ST) in a. rewrite (st_props _ _ _ ST) in b. rewrite (st_sp _ _ _ ST) in c, k.
    rewrite (st_cyc0 _ _ _ ST) in e. rewrite (st_count _ _ _ ST) in f.
    split; [exact a|]. split; [exact b|]. split; [exact c|]. split; [exact e|]. split; [exact f|]. split; [exact g|].
    split; [exact h|]. intros Q. rewrite k by auto. destruct (changes_replans _ Q) as [Q1 Q2].
    pose proof (st_times _ _ _ ST Q2) as T. pose proof (st_mpss _ _ _ ST Q1) as M.
    pose proof (st_grades _ _ _ ST Q1) as G. pose proof (st_rt _ _ _ ST) as RT.
    destruct (d_cyc d1), (d_cyc d). cbn in *. congruence.
  Qed.
  (** What init_for_step depends on. *)
  Lemma init_ext d d' s ovr : d_veh d' = d_veh d -> d_props d' = d_props d -> d_sp d' = d_sp d ->
    d_cyc0 d' = d_cyc0 d -> d_hev_sim_count d' = d_hev_sim_count d -> clen (d_cyc d') = clen (d_cyc d) ->
    (changes_cycle (d_sp d) = false -> d_cyc d' = d_cyc d) ->
    init_for_step d' s ovr = init_for_step d s ovr.
  Proof.
    intros V P S C0 H L C. unfold init_for_step. rewrite V, S.
    destruct (_ && _)%bool; auto. unfold init_arrays. cbn [d_rows]. rewrite L, V, P, S, C0, H.
    destruct (override_aux (repeat zero_row (clen (d_cyc d))) ovr); auto. f_equal.
    destruct (changes_cycle (d_sp d)); [reflexivity|]. rewrite C by auto. reflexivity.
  Qed.
  Lemma walk_again d s ovr d' : wf_sd d -> sim_drive_walk d s ovr = Ok d' ->
    forall s' ovr', sim_drive_walk d' s' ovr' = sim_drive_walk d s' ovr'.
  Proof.
    intros W H s' ovr'. destruct (walk_calls _ _ _ _ W H) as (d1 & d2 & E & C & _ & SO).
    destruct (init_shape _ _ _ _ W E) as (A & B & CC & D).
    destruct (init_rows _ _ _ _ E) as (i1 & i2 & i3 & i4 & _ & i6 & _ & i8 & _).
    destruct (calls_fixed _ _ _ C) as (c1 & c2 & c3 & c4 & c5 & c6 & c7 & c8); try lia.
    destruct SO as (s1 & s2 & s3 & s4 & s5 & _ & _ & s8 & _).
    unfold sim_drive_walk. rewrite (init_ext d d'); auto; try congruence.
    - rewrite s4. unfold clen at 1. now rewrite c6, CC.
    - intros Q. rewrite s4, c8, i8 by congruence. now rewrite Q.
  Qed.
  Lemma walk_keeps d s ovr d' : wf_sd d -> sim_drive_walk d s ovr = Ok d' ->
    d_cyc0 d' = d_cyc0 d /\ d_veh d' = d_veh d /\ d_sp d' = d_sp d /\ d_props d' = d_props d /\
    (changes_cycle (d_sp d) = false -> d_cyc d' = d_cyc d).
  Proof.
    intros W H. destruct (walk_calls _ _ _ _ W H) as (d1 & d2 & E & C & _ & SO).
    destruct (init_shape _ _ _ _ W E) as (A & B & CC & D).
    destruct (init_rows _ _ _ _ E) as (i1 & i2 & i3 & i4 & _ & i6 & _ & i8 & _).
    destruct (calls_fixed _ _ _ C) as (c1 & c2 & c3 & c4 & c5 & c6 & c7 & c8); try lia.
    destruct SO as (s1 & s2 & s3 & s4 & s5 & _ & _ & s8 & _).
    split; [congruence|]. split; [congruence|]. split; [congruence|]. split; [congruence|].
    intros Q. rewrite s4, c8, i8 by congruence. now rewrite Q.
  Qed.
End Generic.

(** ** The last walk of a run *)
Section Generic2.
  Context {F : Type} {N : Num F}.
  Lemma calls_first : forall n d d', calls n d d' -> (1 <= d_i d)%nat -> length (d_rows d) = length (time_s (d_cyc d)) ->
    (d_i d + n = length (time_s (d_cyc d)))%nat -> row_at d' 0 = row_at d 0.
  Proof.
    induction n as [|n IH]; intros d d' C H1 HR HN; cbn in C; [now subst|].
    destruct C as (d1 & E & C). pose proof (step_stepped d d1 ltac:(lia) E) as ST.
    apply IH in C; rewrite ?(st_i _ _ _ ST), ?(st_len _ _ _ ST), ?(st_tlen _ _ _ ST) in *; try lia.
    rewrite C. apply (st_below _ _ _ ST). lia.
  Qed.
  Lemma walk_first d0 s ovr d : wf_sd d0 -> sim_drive_walk d0 s ovr = Ok d ->
    row_at d 0 = first_row d0 s (row_aux (aux_start ovr (clen (d_cyc d0)) 0) zero_row).
  Proof.
    intros W H. pose proof H as H'. unfold sim_drive_walk in H. inv_ok H. rename x into d1. inv_ok H. rename x into d2.
    injection H as <-. destruct (init_shape _ _ _ _ W E) as (A & B & C & D).
    apply loop_calls with (n := (clen (d_cyc d0) - 1)%nat) in E0; try lia.
    rewrite post_accel_0, (calls_first _ _ _ E0) by lia.
    destruct (init_rows _ _ _ _ E) as (_ & _ & _ & _ & _ & _ & _ & _ & _ & _ & _ & R & _). exact R.
  Qed.
  Lemma last_walk d0 ovr d : wf_sd d0 -> run d0 ovr d ->
    exists d1 s, alike d0 d1 /\ wf_sd d1 /\ sim_drive_walk d1 s ovr = Ok d.
  Proof.
    intros W [[s H]|[s H]]; [exists d0, s; auto using alike_refl|].
    unfold sim_drive in H. cbv zeta in H.
    assert (K : forall x, sim_drive_walk (with_count d0 0) x ovr = Ok d ->
      exists d1 s, alike d0 d1 /\ wf_sd d1 /\ sim_drive_walk d1 s ovr = Ok d).
    { intros x Q. exists (with_count d0 0), x. split; [apply count_alike|]. split; auto. }
    destruct s as [s|]; [eauto|]. destruct (veh_pt_type (d_veh d0)); eauto.
    inv_ok H. destruct x as [d1 x]. apply balance_alike in E; [|exact W].
    exists d1, x. split; [exact (alike_trans _ _ _ (count_alike d0 0) E)|]. split; auto. apply (al_wf _ _ E). exact W.
  Qed.
End Generic2.

(** ** Auxiliary load (C32) *)
Lemma all_zero_R (l : list R) : all_zero l = true <-> forall x, In x l -> x = 0.
Proof.
  unfold all_zero. rewrite forallb_forall. split; intros H x I; specialize (H x I).
  - now apply Reqb_true.
  - now apply Reqb_true.
Qed.
Section Aux.
  Variables (d0 : sdrive R) (ovr : option (list R)) (d : sdrive R) (i : nat).
  Hypothesis (S1 : is_step d0 ovr d i).
  Let n := length (d_rows d).
  Lemma aux_of : exists d1, d_veh d1 = d_veh d0 /\ aux_load d i =
    if (Reqb (aux_start ovr n i) 0 && all_zero (map (aux_start ovr n) (seq (S i) (n - S i))))%bool
    then own_load (d_veh d0) else aux_start ovr n i.
  Proof.
    destruct S1 as (W & RN & B). destruct (run_walked _ _ _ W RN) as (d1 & s & A & K).
    exists d1. split; [apply A|]. unfold aux_load. rewrite (wk_aux _ _ _ _ K) by auto.
    rewrite (wk_veh _ _ _ _ K), (al_veh _ _ A). reflexivity.
  Qed.
  Lemma aux_given l : ovr = Some l -> length l = n -> (exists j, (i <= j < n)%nat /\ nth j l 0 <> 0) ->
    aux_load d i = nth i l 0.
  Proof.
    intros OV L (j & B & J). destruct aux_of as (_ & _ & ->). rewrite OV.
    assert (G : forall k, aux_start (Some l) n k = nth k l 0).
    { intros k. unfold aux_start, is_override. rewrite L, Nat.eqb_refl. reflexivity. }
    rewrite G. destruct (Reqb_spec (nth i l 0) 0) as [Z|Z]; cbn [andb]; [|reflexivity].
    destruct (all_zero _) eqn:A; [|reflexivity]. exfalso. rewrite all_zero_R in A.
    assert (j <> i) by congruence. apply J. rewrite <- G. apply A. apply in_map. apply in_seq. lia.
  Qed.
  Lemma aux_trailing l : ovr = Some l -> length l = n -> (forall j, (i <= j < n)%nat -> nth j l 0 = 0) ->
    aux_load d i = own_load (d_veh d0).
  Proof.
    intros OV L Z. destruct aux_of as (_ & _ & ->). rewrite OV. destruct S1 as (_ & _ & B).
    assert (G : forall k, aux_start (Some l) n k = nth k l 0).
    { intros k. unfold aux_start, is_override. rewrite L, Nat.eqb_refl. reflexivity. }
    rewrite G, Z by (unfold n; lia). destruct (Reqb_spec 0 0); [|lra]. cbn [andb].
    destruct (all_zero _) eqn:A; [reflexivity|]. exfalso.
    assert (T : all_zero (map (aux_start (Some l) n) (seq (S i) (n - S i))) = true); [|congruence].
    apply all_zero_R. intros x I. apply in_map_iff in I. destruct I as (j & <- & J). apply in_seq in J.
    rewrite G. apply Z. lia.
  Qed.
  Lemma aux_none : (forall l, ovr = Some l -> length l <> n) -> aux_load d i = own_load (d_veh d0).
  Proof.
    intros Z. destruct aux_of as (_ & _ & ->).
    assert (G : forall k, aux_start ovr n k = 0).
    { intros k. unfold aux_start, is_override. destruct ovr as [l|]; [|reflexivity].
      destruct (Nat.eqb_spec (length l) n) as [Q|Q]; [|reflexivity]. now destruct (Z l). }
    rewrite G. destruct (Reqb_spec 0 0); [|lra]. cbn [andb].
    destruct (all_zero _) eqn:A; [reflexivity|]. exfalso.
    assert (T : all_zero (map (aux_start ovr n) (seq (S i) (n - S i))) = true); [|congruence].
    apply all_zero_R. intros x I. apply in_map_iff in I. destruct I as (j & <- & J). apply G.
  Qed.
End Aux.
Lemma aux_whole d0 l d : wf_sd d0 -> run d0 (Some l) d -> length l = length (d_rows d) -> last l 0 <> 0 ->
  map (fun r => aux_in_kw (misc r)) (d_rows d) = l.
Proof.
  intros W RN L Z. apply nth_ext with (d := 0) (d' := 0); [now rewrite map_length|].
  rewrite map_length. intros j Hj. rewrite (nth_indep _ 0 (aux_in_kw (misc zero_row))) by (now rewrite map_length).
  rewrite (map_nth (fun r => aux_in_kw (misc r))). change (aux_in_kw (misc (row_at d j)) = nth j l 0).
  destruct j as [|j].
  - destruct (last_walk _ _ _ W RN) as (d1 & s & A & W1 & H). rewrite (walk_first _ _ _ _ W1 H). cbn.
    pose proof (wk_len _ _ _ _ (walk_walked _ _ _ _ W1 H)) as Q.
    unfold aux_start, is_override. rewrite <- Q, <- L, Nat.eqb_refl. reflexivity.
  - change (aux_load d (S j) = nth (S j) l 0). apply (aux_given d0 (Some l)); auto.
    + split; [exact W|]. split; [exact RN|]. lia.
    + exists (length (d_rows d) - 1)%nat. split; [lia|]. rewrite <- L. 
      replace (nth (length l - 1) l 0) with (last l 0); auto.
      clear. destruct l as [|a l]; auto. cbn [length]. rewrite Nat.sub_succ, Nat.sub_0_r. revert a.
      induction l as [|b l IH]; intros a; [reflexivity|]. cbn [length nth last]. apply IH.
Qed.

(** ** Charge balancing (C33) *)
Lemma walk_row0_zero d0 s ovr d : wf_sd d0 -> sim_drive_walk d0 s ovr = Ok d ->
  fs_kw_out_ach (fc (row_at d 0)) = 0 /\ roadway_chg_kw_out_ach (dec (row_at d 0)) = 0.
Proof. intros W H. rewrite (walk_first _ _ _ _ W H). split; reflexivity. Qed.
Lemma zipw_seq {A B C} (f : A -> B -> C) (l : list A) (m : list B) da db : length l = length m ->
  zipw f l m = map (fun i => f (nth i l da) (nth i m db)) (seq 0 (length l)).
Proof.
  revert m. induction l as [|a l IH]; intros [|b m] L; cbn in *; try discriminate; auto.
  f_equal. rewrite (IH m) by lia. rewrite <- seq_shift, map_map. reflexivity.
Qed.
Lemma sum_dt_steps (d : sdrive R) f : length (d_rows d) = length (time_s (d_cyc d)) -> (0 < length (d_rows d))%nat ->
  f (row_at d 0) = 0 ->
  sum_dt d f = Rsum (map (fun i => f (row_at d i) * step_dt d i) (seq 1 (length (d_rows d) - 1))).
Proof.
  intros L P Z. unfold sum_dt. rewrite nsum_Rsum.
  rewrite (zipw_seq _ _ _ (f zero_row) 0) by (now rewrite map_length, dt_s_length).
  rewrite map_length. destruct (length (d_rows d)) as [|n] eqn:E; [lia|].
  cbn [seq]. rewrite Nat.sub_succ, Nat.sub_0_r. cbn [map]. rewrite Rsum_cons.
  rewrite map_nth. change (nth 0 (d_rows d) zero_row) with (row_at d 0). rewrite Z.
  change (@nmul R RNum) with Rmult. rewrite Rmult_0_l, Rplus_0_l. f_equal. apply map_ext_in. intros i I.
  apply in_seq in I. rewrite map_nth. change (nth i (d_rows d) zero_row) with (row_at d i). f_equal.
  rewrite dt_s_nth by lia. unfold step_dt. destruct i as [|i]; [lia|]. now rewrite Nat.sub_succ, Nat.sub_0_r.
Qed.
Lemma swing_ess d0 s ovr d : wf_sd d0 -> sim_drive_walk d0 s ovr = Ok d -> ess_2fuel d = swing d.
Proof.
  intros W H. pose proof (walk_walked _ _ _ _ W H) as K. destruct (walk_row0_zero _ _ _ _ W H) as [Z1 Z2].
  pose proof (wk_wf _ _ _ _ K) as (A & B & C). pose proof (wk_len _ _ _ _ K) as L. pose proof (wk_pos _ _ _ _ K) as P.
  assert (LT : length (d_rows d) = length (time_s (d_cyc d))).
  { rewrite L. destruct W as (_ & _ & W3). rewrite W3. unfold clen in C. rewrite C, (wk_cyc0 _ _ _ _ K). reflexivity. }
  unfold ess_2fuel. rewrite !sum_dt_steps by auto.
  assert (E : forall l, Rsum (map (fun i => fs_kw_out_ach (fc (row_at d i)) * step_dt d i) l) +
              Rsum (map (fun i => roadway_chg_kw_out_ach (dec (row_at d i)) * step_dt d i) l) =
              Rsum (map (fun i => (fs_kw_out_ach (fc (row_at d i)) + roadway_chg_kw_out_ach (dec (row_at d i))) * step_dt d i) l)).
  { induction l as [|a l IH]; [unfold Rsum; cbn; lra|]. cbn [map]. rewrite !Rsum_cons, <- IH. lra. }
  unR. rewrite E. unfold swing, supplied_kJ. set (e := Rsum _). destruct (Rltb_spec 0 e), (Rlt_dec 0 e); try lra; auto.
Qed.
Section Balance.
  Variables (d0 : sdrive R) (ovr : option (list R)).
  Hypothesis (W : wf_sd d0).
  Let cap := sim_count_max (d_sp d0).
  Let eps := ess_to_fuel_ok_error (d_veh d0).
  Lemma balancing_facts k d s : balancing d0 ovr k d s ->
    d_hev_sim_count d = k /\ alike d0 d /\ wf_sd d /\ (k <= cap)%nat.
  Proof.
    induction 1 as [|k d s d' B IH E1 E2 L H].
    - split; [reflexivity|]. split; [apply count_alike|]. split; [exact W|]. lia.
    - destruct IH as (C & A & WD & _).
      assert (K := walk_walked (with_count d (S k)) s ovr d' WD H).
      assert (A' : alike d0 d').
      { eapply alike_trans; [exact A|]. eapply alike_trans; [apply (count_alike d (S k))|]. eapply walked_alike; eauto. }
      split; [apply (wk_count _ _ _ _ K)|]. split; [exact A'|]. split; [apply (al_wf _ _ A'); exact W|]. unfold cap; lia.
  Qed.
  Definition measure_of (k : nat) (d : sdrive R) : R := if Nat.eqb k 0 then 1 else swing d.
  Lemma done_iff k d : balance_done d0 k d <-> ~ (eps < measure_of k d /\ (k < cap)%nat).
  Proof.
    unfold balance_done, measure_of, cap, eps. destruct k as [|k]; cbn [Nat.eqb].
    - split.
      + intros [H|[[_ H]|[H _]]] [Q1 Q2]; try lia; lra.
      + intros H. destruct (Nat.lt_ge_cases 0 (sim_count_max (d_sp d0))) as [L|L]; [|left; lia].
        right. left. split; auto. apply Rnot_lt_le. intros Q. apply H. split; auto.
    - split.
      + intros [H|[[H _]|[_ H]]] [Q1 Q2]; try lia; lra.
      + intros H. destruct (Nat.lt_ge_cases (S k) (sim_count_max (d_sp d0))) as [L|L]; [|left; lia].
        right. right. split; auto. apply Rnot_lt_le. intros Q. apply H. split; auto.
  Qed.
  Lemma balance_steps : forall fuel k d s, (cap - k <= fuel)%nat -> balancing d0 ovr k d s ->
    match balance_loop fuel d ovr s (measure_of k d) with
    | Ok (d', s') => exists k', balancing d0 ovr k' d' s' /\ balance_done d0 k' d'
    | Err e => exists k' d' s', balancing d0 ovr k' d' s' /\ (k' < cap)%nat /\ eps < measure_of k' d' /\
                 sim_drive_walk (with_count d' (S k')) s' ovr = Err e
    end.
  Proof.
    induction fuel as [|f IH]; intros k d s HF B; destruct (balancing_facts _ _ _ B) as (C & A & WD & _); cbn [balance_loop];
      rewrite C, (al_veh _ _ A), (al_sp _ _ A); fold eps cap; unR;
      destruct (Rltb_spec eps (measure_of k d)) as [L1|L1]; cbn [andb];
      try (exists k; split; [exact B|]; apply done_iff; lra);
      destruct (Nat.ltb_spec k cap) as [L2|L2]; try (exists k; split; [exact B|]; apply done_iff; lia).
    - lia.
    - destruct (sim_drive_walk (with_count d (S k)) s ovr) as [d'|e] eqn:E; cbn [bindR].
      + assert (B' : balancing d0 ovr (S k) d' (Rmin 1 (Rmax 0 (final_soc d')))).
        { eapply bal_walk; eauto; intros; fold eps; destruct k; cbn in L1; try lia; auto; lra. }
        assert (Q : ess_2fuel d' = measure_of (S k) d').
        { unfold measure_of. cbn [Nat.eqb]. eapply swing_ess; [|exact E]. exact WD. }
        rewrite Q. unfold next_soc. rewrite nmin_R, nmax_R. apply (IH (S k) d'); [lia|exact B'].
      + exists k, d, s. auto.
  Qed.
  Lemma balancing_det k d s : balancing d0 ovr k d s -> forall k' d' s', balancing d0 ovr k' d' s' -> (k <= k')%nat ->
    (k = k' /\ d = d' /\ s = s') \/ ((k < k')%nat /\ ~ balance_done d0 k d /\
      exists d1, sim_drive_walk (with_count d (S k)) s ovr = Ok d1).
  Proof.
    intros B k' d' s' B'. revert k d s B. induction B' as [|k' d' s' d'' B' IH E1 E2 L H]; intros k d s B LE.
    - inversion B; subst; [auto|lia].
    - assert (ND : ~ balance_done d0 k' d').
      { rewrite done_iff. intros Q. apply Q. split; [|exact L]. unfold measure_of.
        destruct (Nat.eqb_spec k' 0); auto. }
      destruct (Nat.eq_dec k (S k')) as [->|NE].
      + left. inversion B as [|k1 d1 s1 d2 B1 F1 F2 L1 H1]; subst.
        destruct (IH _ _ _ B1) as [(_ & -> & ->)|(Q & _)]; [lia| |lia].
        rewrite H in H1. injection H1 as ->. auto.
      + destruct (IH _ _ _ B) as [(-> & -> & ->)|(Q1 & Q2 & Q3)]; [lia|right..]; split; eauto; lia.
  Qed.
End Balance.
Lemma hev_run d0 ovr d : wf_sd d0 -> veh_pt_type (d_veh d0) = HEV ->
  sim_drive d0 None ovr = Ok d <->
  exists k dk sk, balancing d0 ovr k dk sk /\ balance_done d0 k dk /\ sim_drive_walk dk sk ovr = Ok d.
Proof.
  intros W T. unfold sim_drive. rewrite T. cbv zeta.
  pose proof (balance_steps d0 ovr W (sim_count_max (d_sp d0)) 0 (with_count d0 0) _ ltac:(lia) (bal_start d0 ovr)) as B.
  unfold measure_of in B. cbn [Nat.eqb] in B. change (@n1 R RNum) with 1.
  change (@mid_soc R RNum (d_veh d0)) with ((max_soc (d_veh d0) + min_soc (d_veh d0)) / 2).
  destruct (balance_loop _ _ _ _ _) as [[dk sk]|e]; cbn [bindR fst snd].
  - destruct B as (k & B & D). split.
    + intros H. exists k, dk, sk. auto.
    + intros (k' & d' & s' & B' & D' & H). destruct (Nat.le_ge_cases k k') as [L|L].
      * destruct (balancing_det _ _ _ _ _ B _ _ _ B' L) as [(-> & -> & ->)|(_ & Q & _)]; auto. contradiction.
      * destruct (balancing_det _ _ _ _ _ B' _ _ _ B L) as [(-> & -> & ->)|(_ & Q & _)]; auto. contradiction.
  - destruct B as (k & dk & sk & B & L & M & H). split; [discriminate|].
    intros (k' & d' & s' & B' & D' & H').
    assert (ND : ~ balance_done d0 k dk) by (rewrite done_iff; tauto).
    destruct (Nat.le_ge_cases k k') as [LE|LE].
    + destruct (balancing_det _ _ _ _ _ B _ _ _ B' LE) as [(-> & -> & ->)|(_ & _ & Q)]; [contradiction|].
      destruct Q as (x & Q). congruence.
    + destruct (balancing_det _ _ _ _ _ B' _ _ _ B LE) as [(-> & -> & ->)|(_ & Q & _)]; contradiction.
Qed.
Lemma hev_error d0 ovr e : wf_sd d0 -> veh_pt_type (d_veh d0) = HEV -> sim_drive d0 None ovr = Err e ->
  exists k dk sk n, balancing d0 ovr k dk sk /\ sim_drive_walk (with_count dk n) sk ovr = Err e.
Proof.
  intros W T. unfold sim_drive. rewrite T. cbv zeta.
  pose proof (balance_steps d0 ovr W (sim_count_max (d_sp d0)) 0 (with_count d0 0) _ ltac:(lia) (bal_start d0 ovr)) as B.
  unfold measure_of in B. cbn [Nat.eqb] in B. change (@n1 R RNum) with 1.
  change (@mid_soc R RNum (d_veh d0)) with ((max_soc (d_veh d0) + min_soc (d_veh d0)) / 2).
  destruct (balance_loop _ _ _ _ _) as [[dk sk]|e']; cbn [bindR fst snd].
  - destruct B as (k & B & D). intros H. exists k, dk, sk, (d_hev_sim_count dk). split; [exact B|].
    replace (with_count dk (d_hev_sim_count dk)) with dk; auto. now destruct dk.
  - destruct B as (k & dk & sk & B & L & M & H). intros [= <-]. exists k, dk, sk, (S k). auto.
Qed.
Lemma balancing_cap d0 ovr k d s : wf_sd d0 -> balancing d0 ovr k d s -> (k <= sim_count_max (d_sp d0))%nat.
Proof. intros W B. apply (balancing_facts _ _ W _ _ _ B). Qed.

(** ** Starting state of charge (C34) *)
Lemma init_result d s ovr : (0 < clen (d_cyc d))%nat ->
  (veh_pt_type (d_veh d) <> CONV /\ (s < min_soc (d_veh d) \/ max_soc (d_veh d) < s) /\ init_for_step d s ovr = Err ValueError) \/
  ((veh_pt_type (d_veh d) = CONV \/ min_soc (d_veh d) <= s <= max_soc (d_veh d)) /\ exists d1, init_for_step d s ovr = Ok d1).
Proof.
  intros P. unfold init_for_step. unR.
  assert (G : exists d1, (let d1 := init_arrays d in
      match override_aux (d_rows d1) ovr with
      | [] => Err IndexError
      | r0 :: rest =>
          let d2 := with_rows d1 (first_row d1 s r0 :: rest) in
          Ok (if changes_cycle (d_sp d) then with_cyc d2 (d_cyc0 d) else d2)
      end) = Ok d1).
  { cbv zeta. destruct (override_aux (d_rows (init_arrays d)) ovr) eqn:E; [|eauto]. exfalso.
    assert (L : length (override_aux (d_rows (init_arrays d)) ovr) = clen (d_cyc d)).
    { unfold override_aux. cbn. destruct ovr as [l|]; [|apply repeat_length].
      destruct (Nat.eqb_spec (length l) (length (repeat (@zero_row R RNum) (clen (d_cyc d))))) as [Q|]; [|apply repeat_length].
      rewrite zipw_length, Q, repeat_length. lia. }
    rewrite E in L. cbn in L. lia. }
  destruct (veh_pt_type (d_veh d)); cbn [pt_eqb negb andb]; try (right; split; [auto|exact G]);
  destruct (Rltb_spec (max_soc (d_veh d)) s); cbn [orb];
    try (left; split; [discriminate|]; split; [auto|reflexivity]);
  destruct (Rltb_spec s (min_soc (d_veh d)));
    try (left; split; [discriminate|]; split; [auto|reflexivity]);
  right; split; try exact G; right; lra.
Qed.

(** ** Repeatability of sim_drive (C35) *)
Section Again.
  Context {F : Type} {N : Num F}.
  Definition same_setup (d d' : sdrive F) : Prop :=
    d_veh d' = d_veh d /\ d_props d' = d_props d /\ d_sp d' = d_sp d /\ d_cyc0 d' = d_cyc0 d /\
    clen (d_cyc d') = clen (d_cyc d) /\ (changes_cycle (d_sp d) = false -> d_cyc d' = d_cyc d).
  Lemma setup_refl d : same_setup d d.
  Proof. repeat split. Qed.
  Lemma setup_trans a b c : same_setup a b -> same_setup b c -> same_setup a c.
  Proof.
    intros (a1 & a2 & a3 & a4 & a5 & a6) (b1 & b2 & b3 & b4 & b5 & b6).
    split; [congruence|]. split; [congruence|]. split; [congruence|]. split; [congruence|]. split; [congruence|].
    intros Q. rewrite b6, a6 by congruence. reflexivity.
  Qed.
  Lemma setup_count d n : same_setup d (with_count d n).
  Proof. repeat split. Qed.
  Lemma setup_wf d d' : same_setup d d' -> wf_sd d -> wf (d_cyc d') -> wf_sd d'.
  Proof. intros (_ & _ & _ & E & L & _) (W1 & W2 & W3) W. split; [exact W|]. rewrite E, L. auto. Qed.
  Lemma walk_setup d s ovr d' : wf_sd d -> sim_drive_walk d s ovr = Ok d' -> same_setup d d' /\ wf_sd d'.
  Proof.
    intros W H. pose proof (walk_walked _ _ _ _ W H) as K. destruct (walk_keeps _ _ _ _ W H) as (a & b & c & e & f).
    split; [|apply K]. split; [exact b|]. split; [exact e|]. split; [exact c|]. split; [exact a|]. split; [|exact f].
    destruct W as (_ & _ & W3). destruct (wk_wf _ _ _ _ K) as (_ & _ & K3). rewrite K3, a. auto.
  Qed.
  Lemma walk_ext d d' s ovr : same_setup d d' -> d_hev_sim_count d' = d_hev_sim_count d ->
    sim_drive_walk d' s ovr = sim_drive_walk d s ovr.
  Proof. intros (a & b & c & e & f & g) Q. unfold sim_drive_walk. now rewrite (init_ext d d'). Qed.
  Lemma setup_counts d d' n : same_setup d d' -> same_setup (with_count d n) (with_count d' n).
  Proof. intros H. exact H. Qed.
  Lemma balance_ext fuel : forall d d' ovr s e, same_setup d d' -> d_hev_sim_count d' = d_hev_sim_count d ->
    match balance_loop fuel d ovr s e, balance_loop fuel d' ovr s e with
    | Ok (x, sx), Ok (y, sy) => sx = sy /\ same_setup x y /\ d_hev_sim_count y = d_hev_sim_count x
    | Err a, Err b => a = b
    | _, _ => False
    end.
  Proof.
    intros d d' ovr s e SU Q. pose proof SU as (a & b & c & _). destruct fuel as [|f]; cbn [balance_loop]; rewrite a, c, Q;
      destruct (_ && _)%bool; auto.
    rewrite (walk_ext (with_count d (S (d_hev_sim_count d))) (with_count d' (S (d_hev_sim_count d)))) by auto.
    destruct (sim_drive_walk _ s ovr) as [x|]; cbn [bindR]; auto.
    destruct (balance_loop f x ovr _ _) as [[y sy]|]; auto using setup_refl.
  Qed.
  Lemma drive_ext d d' s ovr : same_setup d d' -> sim_drive d' s ovr = sim_drive d s ovr.
  Proof.
    intros S. pose proof S as (a & b & c & _). unfold sim_drive. cbv zeta. rewrite a, c.
    assert (G : forall x, sim_drive_walk (with_count d' 0) x ovr = sim_drive_walk (with_count d 0) x ovr).
    { intros x. now apply walk_ext. }
    destruct s as [s|]; [auto|]. destruct (veh_pt_type (d_veh d)); auto.
    pose proof (balance_ext (sim_count_max (d_sp d)) (with_count d 0) (with_count d' 0) ovr (mid_soc (d_veh d)) n1 S eq_refl) as B.
    destruct (balance_loop _ (with_count d 0) _ _ _) as [[x sx]|], (balance_loop _ (with_count d' 0) _ _ _) as [[y sy]|];
      cbn [bindR fst snd]; try contradiction; [|congruence].
    destruct B as (-> & B & C). now apply walk_ext.
  Qed.
  Lemma balance_setup fuel : forall d ovr s e d' s', wf_sd d -> balance_loop fuel d ovr s e = Ok (d', s') ->
    same_setup d d' /\ wf_sd d'.
  Proof.
    induction fuel as [|f IH]; intros d ovr s e d' s' W H; cbn [balance_loop] in H; if_in H; try discriminate;
      try (injection H as <- _; auto using setup_refl).
    inv_ok H. destruct (walk_setup (with_count d (S (d_hev_sim_count d))) s ovr x W E) as (S1 & W1).
    destruct (IH _ _ _ _ _ _ W1 H) as (S2 & W2). split; auto. eapply setup_trans; [exact S1|exact S2].
  Qed.
  Lemma run_setup d ovr d' : wf_sd d -> run d ovr d' -> same_setup d d' /\ wf_sd d'.
  Proof.
    intros W [[s H]|[s H]]; [eapply walk_setup; eauto|].
    unfold sim_drive in H. cbv zeta in H.
    assert (G : forall x, sim_drive_walk (with_count d 0) x ovr = Ok d' -> same_setup d d' /\ wf_sd d').
    { intros x Q. exact (walk_setup (with_count d 0) x ovr d' W Q). }
    destruct s as [s|]; [eauto|]. destruct (veh_pt_type (d_veh d)); eauto.
    inv_ok H. destruct x as [x sx]. cbn [fst snd] in H. destruct (balance_setup _ (with_count d 0) _ _ _ _ _ W E) as (S1 & W1).
    destruct (walk_setup _ _ _ _ W1 H) as (S2 & W2). split; auto. exact (setup_trans _ _ _ S1 S2).
  Qed.
  Lemma run_again d ovr d' : wf_sd d -> run d ovr d' -> forall s ovr', sim_drive d' s ovr' = sim_drive d s ovr'.
  Proof. intros W RN s o. apply drive_ext. now apply (run_setup d ovr). Qed.
  Lemma run_keeps d ovr d' : wf_sd d -> run d ovr d' ->
    d_cyc0 d' = d_cyc0 d /\ d_veh d' = d_veh d /\ d_sp d' = d_sp d /\ d_props d' = d_props d /\
    clen (d_cyc d') = clen (d_cyc d) /\ (changes_cycle (d_sp d) = false -> d_cyc d' = d_cyc d).
  Proof. intros W RN. destruct (run_setup _ _ _ W RN) as ((a & b & c & e & f & g) & _). auto 10. Qed.
End Again.
Lemma soc_rejected (d : sdrive R) (s : R) (ovr : option (list R)) :
  veh_pt_type (d_veh d) <> CONV -> s < min_soc (d_veh d) \/ max_soc (d_veh d) < s ->
  init_for_step d s ovr = Err ValueError /\ sim_drive_walk d s ovr = Err ValueError /\ sim_drive d (Some s) ovr = Err ValueError.
Proof.
  intros T O. assert (G : forall n, init_for_step (with_count d n) s ovr = Err ValueError).
  { intros n. unfold init_for_step. cbn [with_count d_veh]. unR.
    assert (E : (Rltb (max_soc (d_veh d)) s || Rltb s (min_soc (d_veh d)))%bool = true).
    { apply Bool.orb_true_iff. rewrite !Rltb_true. tauto. }
    rewrite E. destruct (veh_pt_type (d_veh d)); [congruence|reflexivity..]. }
  assert (G0 : init_for_step d s ovr = Err ValueError).
  { rewrite <- (G (d_hev_sim_count d)). f_equal. now destruct d. }
  split; [exact G0|]. split; [unfold sim_drive_walk; now rewrite G0|].
  unfold sim_drive, sim_drive_walk. now rewrite (G 0%nat).
Qed.
Lemma soc_started (d0 : sdrive R) (ovr : option (list R)) (d : sdrive R) : wf_sd d0 ->
  (forall s, sim_drive d0 (Some s) ovr = Ok d -> soc (dec (row_at d 0)) = s) /\
  (sim_drive d0 None ovr = Ok d ->
     (veh_pt_type (d_veh d0) = CONV -> soc (dec (row_at d 0)) = (max_soc (d_veh d0) + min_soc (d_veh d0)) / 2) /\
     (veh_pt_type (d_veh d0) = PHEV \/ veh_pt_type (d_veh d0) = BEV -> soc (dec (row_at d 0)) = max_soc (d_veh d0))).
Proof.
  intros W. assert (G : forall s, sim_drive_walk (with_count d0 0) s ovr = Ok d -> soc (dec (row_at d 0)) = s).
  { intros s H. now rewrite (walk_first (with_count d0 0) _ _ _ W H). }
  split; [exact G|]. unfold sim_drive. intros H. split.
  - intros T. rewrite T in H. apply (G _ H).
  - intros [T|T]; rewrite T in H; apply (G _ H).
Qed.
