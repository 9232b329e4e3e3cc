(** Proofs about settings objects and copies of runs. *)
From Verif Require Import Num Numpy ListFacts CycleModel CycleSpec VehModel SimModel SimState WalkModel UtilModel VehDictModel
  FrameProofs UtilProofs CopyModel CopySpec.
Local Open Scope R_scope.

(** ** Attributes *)
Section Attrs.
  Context {F : Type} {N : Num F}.
  Lemma aget_holds (o : attrs F) k v : aget o k = Some v <-> holds o k v.
  Proof.
    split.
    - induction o as [|[k' v'] r IH]; cbn [aget]; [discriminate|]. destruct (String.eqb_spec k' k) as [->|Q].
      + intros E. injection E as ->. exists [], r. split; [reflexivity|auto].
      + intros E. destruct (IH E) as (pre & post & -> & H). exists ((k', v') :: pre), post. split; [reflexivity|].
        cbn. intros [C|C]; auto.
    - intros (pre & post & -> & H). induction pre as [|[k' v'] r IH]; cbn [app aget].
      + now rewrite String.eqb_refl.
      + destruct (String.eqb_spec k' k) as [->|Q]; [exfalso; apply H; cbn; auto|]. apply IH. intros C. apply H. cbn. auto.
  Qed.
  Lemma aget_none (o : attrs F) k : aget o k = None <-> ~ In k (map fst o).
  Proof.
    induction o as [|[k' v'] r IH]; cbn [aget map fst In]; [tauto|]. destruct (String.eqb_spec k' k) as [->|Q].
    - split; [discriminate|]. intros C. exfalso. auto.
    - rewrite IH. split; intros H; [intros [C|C]; auto|auto].
  Qed.
  Lemma aget_aset (o : attrs F) k v j : aget (aset o k v) j = if String.eqb k j then Some v else aget o j.
  Proof.
    induction o as [|[k' v'] r IH]; cbn [aset aget].
    - reflexivity.
    - destruct (String.eqb_spec k' k) as [->|Q]; cbn [aget].
      + destruct (String.eqb k j); reflexivity.
      + rewrite IH. destruct (String.eqb_spec k' j) as [->|Q']; [|reflexivity].
        destruct (String.eqb_spec k j) as [->|]; [congruence|reflexivity].
  Qed.
  Lemma keys_aset (o : attrs F) k v : In k (map fst o) -> map fst (aset o k v) = map fst o.
  Proof.
    induction o as [|[k' v'] r IH]; cbn [aset map fst In]; [tauto|]. intros H. destruct (String.eqb_spec k' k) as [->|Q]; cbn [map fst].
    - reflexivity.
    - f_equal. apply IH. destruct H; congruence.
  Qed.
  Lemma aget_fold d : forall (o : attrs F) k, aget (fold_left (fun o kv => aset o (fst kv) (snd kv)) d o) k =
    match aget (rev d) k with Some v => Some v | None => aget o k end.
  Proof.
    induction d as [|[k' v'] r IH] using rev_ind; intros o k; [reflexivity|].
    rewrite fold_left_app. cbn [fold_left fst snd]. rewrite aget_aset, rev_app_distr. cbn [rev app aget].
    destruct (String.eqb k' k); [reflexivity|]. apply IH.
  Qed.
  Lemma from_dict_holds (d : attrs F) k v : holds (params_from_dict d) k v <->
    last_given d k v \/ (~ In k (map fst d) /\ holds new_params k v).
  Proof.
    rewrite <- !aget_holds. unfold params_from_dict. rewrite aget_fold.
    assert (Q : last_given d k v <-> aget (rev d) k = Some v).
    { rewrite aget_holds. split.
      - intros (pre & post & -> & H). exists (rev post), (rev pre). rewrite rev_app_distr. cbn [rev]. rewrite <- app_assoc. split; [reflexivity|].
        rewrite map_rev. intros C. apply H. now apply in_rev.
      - intros (pre & post & E & H). exists (rev post), (rev pre). split.
        + apply (f_equal (@rev _)) in E. rewrite rev_involutive, rev_app_distr in E. cbn [rev] in E. rewrite <- app_assoc in E. exact E.
        + rewrite map_rev. intros C. apply H. now apply in_rev. }
    rewrite Q. assert (M : aget (rev d) k = None <-> ~ In k (map fst d)).
    { rewrite aget_none, map_rev, <- in_rev. reflexivity. }
    destruct (aget (rev d) k) as [w|].
    - split; [intros E; now left|]. intros [E|(C & _)]; [exact E|]. exfalso. apply M in C. discriminate.
    - split; [intros E; right; split; auto; now apply M|]. intros [E|(_ & E)]; [discriminate|exact E].
  Qed.

  (** Copies. *)
  Lemma attr_dict_ok (o : attrs F) : forall ks, (forall k, In k ks -> exists v, holds o k v) -> exists d, attr_dict ks o = Ok d.
  Proof.
    induction ks as [|k r IH]; intros H; cbn [attr_dict]; [eauto|].
    destruct (H k (or_introl eq_refl)) as (v & Q). apply aget_holds in Q. rewrite Q.
    destruct IH as (d & ->); [intros j J; apply H; now right|]. cbn [bindR]. eauto.
  Qed.
  Lemma attr_dict_get (o : attrs F) : forall ks d, attr_dict ks o = Ok d -> map fst d = ks /\
    forall k, In k ks -> aget d k = aget o k.
  Proof.
    induction ks as [|k r IH]; intros d H; cbn [attr_dict] in H.
    - injection H as <-. split; [reflexivity|intros k []].
    - destruct (aget o k) as [v|] eqn:E; [|discriminate]. inv_ok H. injection H as <-. destruct (IH _ E0) as (A & B).
      split; [cbn; now rewrite A|]. intros j J. cbn [aget]. destruct (String.eqb_spec k j) as [->|Q]; [auto|].
      apply B. destruct J; congruence.
  Qed.
  Lemma attr_dict_err (o : attrs F) : forall ks k, In k ks -> (forall v, ~ holds o k v) -> attr_dict ks o = Err AttributeError.
  Proof.
    induction ks as [|k r IH]; intros j J H; [destruct J|]. cbn [attr_dict]. destruct (aget o k) as [v|] eqn:E; [|reflexivity].
    destruct J as [->|J]; [apply aget_holds in E; exfalso; eapply H; eauto|]. now rewrite (IH _ J H).
  Qed.
  Lemma fold_keys d : forall (o : attrs F), incl (map fst d) (map fst o) -> map fst (fold_left (fun o kv => aset o (fst kv) (snd kv)) d o) = map fst o.
  Proof.
    induction d as [|[k v] r IH]; intros o H; [reflexivity|]. cbn [fold_left fst snd].
    assert (K : In k (map fst o)) by (apply H; cbn; auto).
    rewrite IH; rewrite keys_aset; auto. intros x X. apply H. cbn. auto.
  Qed.
  Lemma names_nodup : NoDup (ref_names (F := F)).
  Proof. unfold ref_names, new_params, settings. cbn [map fst]. repeat (constructor; [cbn; intuition discriminate|]). constructor. Qed.
  Lemma copy_ok (o : attrs F) : (forall k, In k (ref_names (F := F)) -> exists v, holds o k v) ->
    exists o', copy_sim_params o = Ok o' /\ map fst o' = ref_names (F := F) /\
      forall k, In k (ref_names (F := F)) -> aget o' k = aget o k.
  Proof.
    intros H. destruct (attr_dict_ok o _ H) as (d & D). unfold copy_sim_params, params_dict. rewrite D. cbn [bindR].
    eexists. split; [reflexivity|]. destruct (attr_dict_get _ _ _ D) as (A & B). unfold params_from_dict. split.
    - rewrite fold_keys; [reflexivity|]. rewrite A. apply incl_refl.
    - intros k K. rewrite aget_fold. assert (E : aget (rev d) k = aget d k).
      { pose proof names_nodup as ND. rewrite <- A in ND. clear -ND. destruct (aget d k) as [v|] eqn:E.
        - apply aget_holds in E. destruct E as (pre & post & -> & H). apply aget_holds. exists (rev post), (rev pre).
          rewrite rev_app_distr. cbn [rev]. rewrite <- app_assoc. split; [reflexivity|]. rewrite map_rev. intros C. apply in_rev in C.
          rewrite map_app in ND. cbn [map fst] in ND. apply NoDup_remove_2 in ND. apply ND. apply in_or_app. auto.
        - apply aget_none in E. apply aget_none. rewrite map_rev. intros C. apply E. now apply in_rev. }
      rewrite E, B by exact K. destruct (aget o k) as [v|] eqn:Q; [reflexivity|].
      destruct (H k K) as (v & V). apply aget_holds in V. congruence.
  Qed.
End Attrs.

(** ** Equality *)
Lemma neqb_iff (x y : R) : neqb x y = true <-> x = y.
Proof. unR. destruct (Reqb_spec x y); intuition discriminate. Qed.
Lemma tables_eq_iff a b : tables_eq (F := R) a b = true <-> a = b.
Proof.
  destruct a as [a|], b as [b|]; cbn [tables_eq]; try (split; [discriminate|congruence]); [|tauto].
  rewrite Bool.andb_true_iff, Nat.eqb_eq. split.
  - intros (L & H). f_equal. revert b L H. induction a as [|[x x'] a IH]; intros [|[y y'] b] L H; try discriminate; [reflexivity|].
    cbn [combine forallb fst snd] in H. rewrite !Bool.andb_true_iff, !neqb_iff in H. destruct H as ((-> & ->) & H).
    f_equal. apply IH; [now injection L|exact H].
  - intros E. injection E as <-. split; [reflexivity|]. induction a as [|[x x'] a IH]; [reflexivity|].
    cbn [combine forallb fst snd]. rewrite !Bool.andb_true_iff, !neqb_iff. auto.
Qed.
Lemma sval_eq_iff v w : sval_eq (F := R) v w = true <-> same_value v w.
Proof.
  assert (B : sval_eq (F := R) v w = match v, w with ST t, ST u => tables_eq t u
     | _, _ => match number v, number w with Some x, Some y => neqb x y | _, _ => false end end).
  { unfold sval_eq, number. destruct v as [[]|x|n|t], w as [[]|y|m|u]; rewrite <- ?nofN_R; reflexivity. }
  assert (G : match number v, number w with Some x, Some y => neqb x y | _, _ => false end = true <-> exists x, number v = Some x /\ number w = Some x).
  { destruct (number v) as [x|], (number w) as [y|]; try (split; [discriminate|intros (q & E1 & E2); discriminate]).
    rewrite neqb_iff. split; [intros ->; eauto|]. intros (q & E1 & E2). congruence. }
  assert (H : (exists t u, v = ST t /\ w = ST u) \/ sval_eq (F := R) v w = match number v, number w with Some x, Some y => neqb x y | _, _ => false end).
  { rewrite B. destruct v as [b|x|n|t], w as [c|y|m|u]; try (right; reflexivity). left. eauto. }
  destruct H as [(t & u & -> & ->)|H].
  - cbn [sval_eq]. rewrite tables_eq_iff. unfold same_value. split; [intros ->; now left|]. intros [E|(x & E & _)]; [congruence|discriminate].
  - rewrite H, G. unfold same_value. split; [now right|]. intros [<-|E]; [|exact E].
    destruct v as [[]|x|n|t]; cbn [number]; eauto. exfalso. rewrite B in H. cbn [number] in H.
    assert (C : tables_eq (F := R) t t = true) by (now apply tables_eq_iff). congruence.
Qed.
Lemma dict_equal_iff (b : attrs R) : forall a, (forall k, In k (map fst a) -> exists v, holds b k v) -> NoDup (map fst a) ->
  (exists r, dict_equal a b = Ok r) /\
  (dict_equal a b = Ok true <-> forall k v w, holds a k v -> holds b k w -> same_value v w).
Proof.
  induction a as [|[k v] r IH]; intros C ND; cbn [dict_equal].
  - split; [eauto|]. split; [|reflexivity]. intros _ k v w (pre & post & E & _). destruct pre; discriminate.
  - destruct (C k (or_introl eq_refl)) as (w & W). pose proof W as W'. apply aget_holds in W'. rewrite W'.
    inversion ND as [|? ? NI ND']; subst.
    destruct IH as (I1 & I2); [intros j J; apply C; now right|exact ND'|].
    destruct (sval_eq v w) eqn:E.
    + apply sval_eq_iff in E. split; [exact I1|]. rewrite I2. split; intros H j x y X Y.
      * apply aget_holds in X. cbn [aget] in X. destruct (String.eqb_spec k j) as [->|Q].
        -- injection X as <-. apply aget_holds in Y. congruence.
        -- apply aget_holds in X. eauto.
      * apply (H j); auto. apply aget_holds. cbn [aget]. destruct (String.eqb_spec k j) as [->|Q]; [|now apply aget_holds].
        exfalso. apply NI. destruct X as (pre & post & -> & _). rewrite map_app. apply in_or_app. right. left. reflexivity.
    + split; [eauto|]. split; [discriminate|]. intros H. exfalso. assert (Z : sval_eq v w = true); [|congruence].
      apply sval_eq_iff. apply (H k); auto. exists [], r. split; [reflexivity|auto].
Qed.
Lemma params_equal_iff (a b : attrs R) : complete a -> complete b ->
  (exists r, sim_params_equal a b = Ok r) /\
  (sim_params_equal a b = Ok true <->
   forall k v w, In k (ref_names (F := R)) -> holds a k v -> holds b k w -> same_value v w).
Proof.
  intros CA CB. destruct (attr_dict_ok a _ CA) as (da & DA). destruct (attr_dict_ok b _ CB) as (db & DB).
  unfold sim_params_equal, params_dict. rewrite DA, DB. cbn [bindR].
  destruct (attr_dict_get _ _ _ DA) as (A1 & A2). destruct (attr_dict_get _ _ _ DB) as (B1 & B2).
  assert (L : length da = length db).
  { rewrite <- (map_length fst da), <- (map_length fst db). now rewrite A1, B1. }
  rewrite L, Nat.eqb_refl. destruct (dict_equal_iff db da) as (I1 & I2).
  - intros k K. rewrite A1 in K. destruct (CB k K) as (v & V). exists v. apply aget_holds. rewrite B2 by exact K. now apply aget_holds.
  - rewrite A1. apply names_nodup.
  - split; [exact I1|]. rewrite I2. split; intros H k v w.
    + intros K V W. apply (H k); apply aget_holds; rewrite ?A2, ?B2 by exact K; now apply aget_holds.
    + intros V W. assert (K : In k (ref_names (F := R))).
      { rewrite <- A1. destruct V as (pre & post & -> & _). rewrite map_app. apply in_or_app. right. left. reflexivity. }
      apply aget_holds in V. apply aget_holds in W. rewrite A2 in V by exact K. rewrite B2 in W by exact K.
      apply (H k); auto; now apply aget_holds.
Qed.
Lemma settings_complete (p : simparams R) : complete (settings p).
Proof.
  intros k K. destruct (aget (settings p) k) as [v|] eqn:E; [exists v; now apply aget_holds|].
  apply aget_none in E. exfalso. apply E. exact K.
Qed.
Lemma same_value_refl v : same_value v v. Proof. left. reflexivity. Qed.
Lemma same_kind v w : same_value v w -> match v, w with SB a, SB b => a = b | SN a, SN b => a = b | SI a, SI b => a = b | ST a, ST b => a = b | _, _ => True end.
Proof.
  intros [->|(x & V & W)]; [destruct w; auto|].
  destruct v as [[]| | |], w as [[]| | |]; cbn [number] in *; try discriminate; auto; try congruence.
  - assert (1 = 0) by congruence. lra.
  - assert (0 = 1) by congruence. lra.
  - apply INR_eq. congruence.
Qed.
Lemma settings_equal_iff (p q : simparams R) : sim_params_equal (settings p) (settings q) = Ok true <-> p = q.
Proof.
  destruct (params_equal_iff _ _ (settings_complete p) (settings_complete q)) as (_ & I). rewrite I. split.
  - intros H.
    assert (G : forall k v w, aget (settings p) k = Some v -> aget (settings q) k = Some w ->
       match v, w with SB a, SB b => a = b | SN a, SN b => a = b | SI a, SI b => a = b | ST a, ST b => a = b | _, _ => True end).
    { intros k v w V W. apply same_kind. apply aget_holds in V. apply aget_holds in W. apply (H k); auto.
      destruct V as (pre & post & E & _). change (ref_names (F := R)) with (map fst (settings p)). rewrite E, map_app. apply in_or_app. right. left. reflexivity. }
    pose proof (G "favor_grade_accuracy"%string _ _ eq_refl eq_refl).
    pose proof (G "missed_trace_correction"%string _ _ eq_refl eq_refl).
    pose proof (G "max_time_dilation"%string _ _ eq_refl eq_refl).
    pose proof (G "min_time_dilation"%string _ _ eq_refl eq_refl).
    pose proof (G "time_dilation_tol"%string _ _ eq_refl eq_refl).
    pose proof (G "max_trace_miss_iters"%string _ _ eq_refl eq_refl).
    pose proof (G "trace_miss_speed_mps_tol"%string _ _ eq_refl eq_refl).
    pose proof (G "trace_miss_time_tol"%string _ _ eq_refl eq_refl).
    pose proof (G "trace_miss_dist_tol"%string _ _ eq_refl eq_refl).
    pose proof (G "sim_count_max"%string _ _ eq_refl eq_refl).
    pose proof (G "newton_gain"%string _ _ eq_refl eq_refl).
    pose proof (G "newton_max_iter"%string _ _ eq_refl eq_refl).
    pose proof (G "newton_xtol"%string _ _ eq_refl eq_refl).
    pose proof (G "energy_audit_error_tol"%string _ _ eq_refl eq_refl).
    pose proof (G "coast_allow"%string _ _ eq_refl eq_refl).
    pose proof (G "coast_allow_passing"%string _ _ eq_refl eq_refl).
    pose proof (G "coast_max_speed_m_per_s"%string _ _ eq_refl eq_refl).
    pose proof (G "coast_brake_accel_m_per_s2"%string _ _ eq_refl eq_refl).
    pose proof (G "coast_brake_start_speed_m_per_s"%string _ _ eq_refl eq_refl).
    pose proof (G "coast_start_speed_m_per_s"%string _ _ eq_refl eq_refl).
    pose proof (G "coast_time_horizon_for_adjustment_s"%string _ _ eq_refl eq_refl).
    pose proof (G "idm_allow"%string _ _ eq_refl eq_refl).
    pose proof (G "idm_v_desired_m_per_s"%string _ _ eq_refl eq_refl).
    pose proof (G "idm_dt_headway_s"%string _ _ eq_refl eq_refl).
    pose proof (G "idm_minimum_gap_m"%string _ _ eq_refl eq_refl).
    pose proof (G "idm_delta"%string _ _ eq_refl eq_refl).
    pose proof (G "idm_accel_m_per_s2"%string _ _ eq_refl eq_refl).
    pose proof (G "idm_decel_m_per_s2"%string _ _ eq_refl eq_refl).
    pose proof (G "idm_v_desired_in_m_per_s_by_distance_m"%string _ _ eq_refl eq_refl).
    pose proof (G "max_epa_adj"%string _ _ eq_refl eq_refl).
    clear G H I. destruct p, q. cbn in *. subst. reflexivity.
  - intros <- k v w _ V W. apply aget_holds in V. apply aget_holds in W. assert (v = w) by congruence. subst. apply same_value_refl.
Qed.

(** ** Runs *)
Lemma all2_iff {A} (f : A -> A -> bool) : (forall x y, f x y = true <-> x = y) -> forall a b, all2 f a b = true <-> a = b.
Proof.
  intros H. unfold all2. induction a as [|x a IH]; intros [|y b]; cbn [length combine forallb fst snd]; try (split; [discriminate|congruence]); [tauto|].
  specialize (IH b). rewrite Bool.andb_true_iff, Nat.eqb_eq in IH. rewrite !Bool.andb_true_iff, Nat.eqb_eq, H. split.
  - intros (L & -> & Q). f_equal. apply IH. split; [now injection L|exact Q].
  - intros E. injection E as -> ->. split; [reflexivity|]. split; [reflexivity|]. now apply IH.
Qed.
(** A row is determined by its numbers, flags and counts. *)
Definition decode (l : nat -> R) (f : nat -> bool) (c : nat -> Z) : row R :=
  (mkrow
    (mkmisc (l 0) (f 0) (f 1) (l 1))
    (mklims (l 2) (l 3) (l 4) (l 5) (l 6) (l 7) (l 8) (l 9) (l 10) (l 11) (l 12) (l 13) (l 14) (l 15) (l 16) (l 17) (l 18))
    (mkpwr (l 19) (l 20) (l 21) (l 22) (l 23) (l 24) (l 25) (l 26) (l 27) (l 28) (l 29) (l 30) (l 31) (f 2) (l 32) (l 33) (l 34))
    (mkspd (Z.to_nat (c 0)) (l 35) (l 36) (l 37) (l 38))
    (mkhyb (l 39) (l 40) (l 41) (l 42) (l 43) (l 44) (l 45) (l 46) (l 47) (l 48) (l 49) (f 3) (l 50) (l 51) (l 52))
    (mkforced (f 4) (c 1) (l 53))
    (mkdec (l 54) (l 55) (l 56) (l 57) (l 58) (l 59) (l 60) (l 61) (l 62) (l 63) (l 64) (l 65) (l 66))
    (mkfc (l 67) (l 68) (l 69) (l 70) (l 71))
    (mkctl (l 72) (f 5) (Z.to_nat (c 2)) (c 3) (l 73)))%nat.
Lemma decode_row (a : row R) : decode (fun n => nth n (row_numbers a) 0) (fun n => nth n (row_flags a) false) (fun n => nth n (row_counts a) 0%Z) = a.
Proof.
  destruct a as [m l p s h f d c k]. destruct m, l, p, s, h, f, d, c, k. unfold decode.
  lazy beta iota zeta delta -[Z.to_nat Z.of_nat]. rewrite !Nat2Z.id. reflexivity.
Qed.
Lemma row_equal_iff (a b : row R) : row_equal a b = true <-> a = b.
Proof.
  unfold row_equal. rewrite !Bool.andb_true_iff, (all2_iff neqb neqb_iff), (all2_iff Bool.eqb Bool.eqb_true_iff), (all2_iff Z.eqb Z.eqb_eq).
  split; [|intros <-; auto]. intros ((H1 & H2) & H3). rewrite <- (decode_row a), <- (decode_row b), H1, H2, H3. reflexivity.
Qed.
Lemma rows_equal_iff (a b : list (row R)) : length a = length b ->
  forallb (fun ab => row_equal (fst ab) (snd ab)) (combine a b) = true <-> a = b.
Proof.
  intros L. pose proof (all2_iff row_equal row_equal_iff a b) as Q. unfold all2 in Q. rewrite L, Nat.eqb_refl in Q. exact Q.
Qed.
Lemma cycles_equal_iff (a b : cyc R) : cycles_equal a b = true <-> a = b.
Proof.
  unfold cycles_equal. rewrite !Bool.andb_true_iff, !(all2_iff neqb neqb_iff). destruct a, b. cbn. split.
  - intros (((-> & ->) & ->) & ->). reflexivity.
  - intros E. injection E as -> -> -> ->. auto.
Qed.
Lemma props_equal_iff (a b : physprops R) : props_equal a b = true <-> a = b.
Proof.
  unfold props_equal. rewrite !Bool.andb_true_iff, !neqb_iff. destruct a, b. cbn. split.
  - intros ((-> & ->) & ->). reflexivity.
  - intros E. injection E as -> -> ->. auto.
Qed.
Lemma run_equal_iff (a b : pyrun R) : length (d_rows (run_sd a)) = length (d_rows (run_sd b)) ->
  (sim_drive_equal a b = Ok true <-> veh_equal (run_veh a) (run_veh b) = Ok true /\ same_but_vehicle (run_sd a) (run_sd b)).
Proof.
  intros L. unfold sim_drive_equal, same_but_vehicle. set (x := run_sd a) in *. set (y := run_sd b) in *.
  destruct (veh_equal (run_veh a) (run_veh b)) as [v|e]; cbn [bindR]; [|split; [discriminate|intros (C & _); discriminate]].
  destruct v; cbn [negb]; [|split; [discriminate|intros (C & _); discriminate]].
  destruct (cycles_equal (d_cyc x) (d_cyc y)) eqn:E1; cbn [negb].
  2: { split; [discriminate|]. intros (_ & C & _). apply cycles_equal_iff in C. congruence. }
  destruct (cycles_equal (d_cyc0 x) (d_cyc0 y)) eqn:E2; cbn [negb].
  2: { split; [discriminate|]. intros (_ & _ & C & _). apply cycles_equal_iff in C. congruence. }
  destruct (params_equal_iff _ _ (settings_complete (d_sp x)) (settings_complete (d_sp y))) as ((s & S) & _).
  pose proof (settings_equal_iff (d_sp x) (d_sp y)) as SI. rewrite S in *. cbn [bindR].
  destruct s; cbn [negb].
  2: { split; [discriminate|]. intros (_ & _ & _ & C & _). apply SI in C. congruence. }
  destruct (props_equal (d_props x) (d_props y)) eqn:E3; cbn [negb].
  2: { split; [discriminate|]. intros (_ & _ & _ & _ & C & _). apply props_equal_iff in C. congruence. }
  rewrite L, Nat.eqb_refl. cbn [negb]. apply cycles_equal_iff in E1, E2. apply props_equal_iff in E3.
  pose proof (rows_equal_iff (d_rows x) (d_rows y) L) as RI. split.
  - intros Q. assert (Q' : (forallb (fun ab => row_equal (fst ab) (snd ab)) (combine (d_rows x) (d_rows y)) && Nat.eqb (d_i x) (d_i y) && Nat.eqb (d_hev_sim_count x) (d_hev_sim_count y))%bool = true) by congruence.
    rewrite !Bool.andb_true_iff, RI, !Nat.eqb_eq in Q'. destruct Q' as ((R1 & R2) & R3).
    assert (S' : d_sp x = d_sp y) by (apply SI; reflexivity). repeat (split; [assumption || reflexivity|]). assumption.
  - intros (_ & _ & _ & _ & _ & C1 & C2 & C3). f_equal. rewrite !Bool.andb_true_iff, RI, !Nat.eqb_eq. auto.
Qed.

Lemma defaults_documented : default_sim_params (F := R) = documented.
Proof. unfold default_sim_params, documented. rewrite !lit_R. unR. reflexivity. Qed.
Lemma INR299 : INR 299 = 299.
Proof. rewrite INR_IZR_INZ. reflexivity. Qed.
Lemma coastdown_is : coastdown_cycle (F := R) = coast_down.
Proof.
  unfold coastdown_cycle, coast_down. f_equal.
  - apply map_ext. intros k. apply nofN_R.
  - unfold linspace. apply map_ext_in. intros k _. change (300 - 1)%nat with 299%nat. rewrite !nofN_R, INR299. unfold MPH_PER_MPS. rewrite ?lit_R. unR.
    destruct (Nat.eqb_spec k 299) as [->|Q]; [rewrite INR299|]; field.
Qed.
Lemma abc_outcome (v : vehicle R) a b c custom :
  let d := c * (4448 / 1000) * (22369 / 10000) ^ 2 / (1 / 2 * frontal_area_m2 v * ambient_density custom) in
  let r := a * (4448 / 1000) / veh_kg v / (981 / 100) in
  let coasting := sim_drive (new_sd (with_drag v d r) (mkprops (12 / 10) (981 / 100) (337 / 10)) documented coast_down) None None in
  (forall e, coasting = Err e -> abc_to_drag_coeffs v a b c custom = Err e) /\
  (forall s, coasting = Ok s -> (exists w, In w (d_rows s) /\ mps_ach (spd w) < 1 / 10) ->
     abc_to_drag_coeffs v a b c custom = Ok (with_drag v d r, (d, r))) /\
  (forall s, coasting = Ok s -> (forall w, In w (d_rows s) -> 1 / 10 <= mps_ach (spd w)) ->
     abc_to_drag_coeffs v a b c custom = Err IndexError).
Proof.
  intros d r. cbv zeta.
  assert (E : abc_to_drag_coeffs v a b c custom =
    bindR (sim_drive (new_sd (with_drag v d r) (mkprops (12 / 10) (981 / 100) (337 / 10)) documented coast_down) None None) (fun sd =>
      if existsb (fun w => Rltb (mps_ach (spd w)) (1 / 10)) (d_rows sd) then Ok (with_drag v d r, (d, r)) else Err IndexError)).
  { unfold abc_to_drag_coeffs. cbv zeta. rewrite impose_preset, defaults_documented, coastdown_is.
    assert (D : (c * N_PER_LBF * MPH_PER_MPS * MPH_PER_MPS / (lit 1 2 * frontal_area_m2 v * ambient_density custom))%num = d).
    { unfold d, N_PER_LBF, MPH_PER_MPS. rewrite !lit_R. unR. f_equal. ring. }
    assert (Q : (a * N_PER_LBF / veh_kg v / lit 981 100)%num = r) by (unfold r, N_PER_LBF; rewrite !lit_R; reflexivity).
    rewrite D, Q, !lit_R. reflexivity. }
  rewrite E. split; [intros e ->; reflexivity|]. split; intros s -> H; cbn [bindR].
  - destruct H as (w & I & L). replace (existsb _ _) with true; [reflexivity|]. symmetry. apply existsb_exists. exists w. split; [exact I|]. now apply Rltb_true.
  - destruct (existsb _ _) eqn:X; [|reflexivity]. apply existsb_exists in X. destruct X as (w & I & L). apply Rltb_true in L. specialize (H w I). lra.
Qed.
