(** Two objects whose runs cannot be told apart, and runs that agree up to a sample. *)
From Verif Require Import Num Numpy ListFacts CycleModel CycleSpec VehModel SimModel SimState WalkModel
  FrameProofs WalkProofs SimSpec SimDemo WalkSpec WalkProofs2 PlainProofs.
From Coq Require Import Lia FunctionalExtensionality.
Local Open Scope R_scope.

Definition same_rows (a b : Res (sdrive R)) : Prop :=
  match a, b with Ok x, Ok y => d_rows x = d_rows y | Err e, Err e' => e = e' | _, _ => False end.

(** What a run without cycle-changing options sees of an object. *)
Record twin (ovr : option (list R)) (d e : sdrive R) : Prop := {
  tw_wf : wf_sd d; tw_wf' : wf_sd e;
  tw_plain : changes_cycle (d_sp d) = false; tw_plain' : changes_cycle (d_sp e) = false;
  tw_len : clen (d_cyc e) = clen (d_cyc d);
  tw_pt : veh_pt_type (d_veh e) = veh_pt_type (d_veh d);
  tw_min : min_soc (d_veh e) = min_soc (d_veh d); tw_max : max_soc (d_veh e) = max_soc (d_veh d);
  tw_kwh : ess_max_kwh (d_veh e) = ess_max_kwh (d_veh d);
  tw_ok : ess_to_fuel_ok_error (d_veh e) = ess_to_fuel_ok_error (d_veh d);
  tw_cap : sim_count_max (d_sp e) = sim_count_max (d_sp d);
  tw_dt : forall i, (1 <= i < clen (d_cyc d))%nat -> cdt (d_cyc e) i = cdt (d_cyc d) i;
  tw_first : forall s r, first_row e s r = first_row d s r;
  tw_row : forall i p, (1 <= i < clen (d_cyc d))%nat -> plain_row e ovr i p = plain_row d ovr i p }.

Lemma setup_eqs (d x : sdrive R) : same_setup d x -> changes_cycle (d_sp d) = false -> d_cyc x = d_cyc d.
Proof. intros (_ & _ & _ & _ & _ & H). exact H. Qed.
Lemma plain_row_setup (d x : sdrive R) ovr i p : same_setup d x -> changes_cycle (d_sp d) = false -> plain_row x ovr i p = plain_row d ovr i p.
Proof.
  intros S C. pose proof (setup_eqs _ _ S C) as Q. destruct S as (a & b & c & e & f & g).
  unfold plain_row, plain_solve, plain_env, plain_grade. now rewrite a, b, c, e, Q.
Qed.
Lemma twin_setup ovr d e x y : same_setup d x -> same_setup e y -> wf_sd x -> wf_sd y -> twin ovr d e -> twin ovr x y.
Proof.
  intros S S' W W' T. pose proof (setup_eqs _ _ S (tw_plain _ _ _ T)) as Q. pose proof (setup_eqs _ _ S' (tw_plain' _ _ _ T)) as Q'.
  pose proof S as (a & b & c & f & g & _). pose proof S' as (a' & b' & c' & f' & g' & _).
  constructor; auto; rewrite ?a, ?b, ?c, ?g, ?a', ?b', ?c', ?g'; try apply T.
  - intros i Hi. rewrite Q, Q'. now apply T.
  - intros s r. pose proof (tw_first _ _ _ T s r) as G. unfold first_row in *. now rewrite a, f, a', f'.
  - intros i p Hi. rewrite (plain_row_setup e y), (plain_row_setup d x); auto; try apply T; auto.
Qed.
Lemma twin_count ovr d e n : twin ovr d e -> twin ovr (with_count d n) (with_count e n).
Proof. intros T. eapply twin_setup; try apply setup_count; try exact T; apply T. Qed.

Lemma walk_err (d : sdrive R) s ovr : wf_sd d -> changes_cycle (d_sp d) = false ->
  sim_drive_walk d s ovr =
    if (negb (pt_eqb (veh_pt_type (d_veh d)) CONV) && (nltb (max_soc (d_veh d)) s || nltb s (min_soc (d_veh d))))%bool
    then Err ValueError else if Nat.eqb (clen (d_cyc d)) 0 then Err IndexError else sim_drive_walk d s ovr.
Proof.
  intros W C. destruct (_ && _)%bool eqn:E; [unfold sim_drive_walk, init_for_step; now rewrite E|].
  destruct (Nat.eqb_spec (clen (d_cyc d)) 0) as [Q|Q]; [|reflexivity].
  unfold sim_drive_walk, init_for_step. rewrite E. cbn [init_arrays d_rows].
  rewrite Q. cbn [repeat]. destruct ovr as [l|]; [|reflexivity]. cbn [override_aux length].
  destruct (Nat.eqb _ _); [|reflexivity]. now destruct l.
Qed.
Lemma walk_cases (d : sdrive R) s ovr : wf_sd d -> changes_cycle (d_sp d) = false ->
  (exists x, sim_drive_walk d s ovr = Ok x /\ (0 < clen (d_cyc d))%nat /\
     (negb (pt_eqb (veh_pt_type (d_veh d)) CONV) && (nltb (max_soc (d_veh d)) s || nltb s (min_soc (d_veh d))))%bool = false) \/
  sim_drive_walk d s ovr =
    Err (if (negb (pt_eqb (veh_pt_type (d_veh d)) CONV) && (nltb (max_soc (d_veh d)) s || nltb s (min_soc (d_veh d))))%bool
         then ValueError else IndexError) /\
  ((negb (pt_eqb (veh_pt_type (d_veh d)) CONV) && (nltb (max_soc (d_veh d)) s || nltb s (min_soc (d_veh d))))%bool = true \/ clen (d_cyc d) = 0%nat).
Proof.
  intros W C. pose proof (walk_err d s ovr W C) as E. destruct (_ && _)%bool eqn:B; [right; auto|].
  destruct (Nat.eqb_spec (clen (d_cyc d)) 0) as [Q|Q]; [right; auto|]. left.
  destruct (walk_total d s ovr) as (x & X); [lia|exact C| |exists x; split; [exact X|split; [lia|reflexivity]]].
  apply Bool.andb_false_iff in B as [B|B].
  - left. apply Bool.negb_false_iff in B. destruct (veh_pt_type (d_veh d)); auto; discriminate.
  - right. now apply Bool.orb_false_iff in B.
Qed.

Lemma rows_ext (x y : sdrive R) : length (d_rows x) = length (d_rows y) ->
  (forall i, (i < length (d_rows x))%nat -> row_at x i = row_at y i) -> d_rows x = d_rows y.
Proof. intros L H. apply nth_ext with (d := zero_row) (d' := zero_row); auto. Qed.
Lemma twin_walk ovr d e s : twin ovr d e -> d_hev_sim_count e = d_hev_sim_count d ->
  match sim_drive_walk d s ovr, sim_drive_walk e s ovr with
  | Ok x, Ok y => d_rows x = d_rows y /\ twin ovr x y /\ d_hev_sim_count y = d_hev_sim_count x
  | Err a, Err b => a = b
  | _, _ => False
  end.
Proof.
  intros T Q.
  pose proof (walk_cases d s ovr (tw_wf _ _ _ T) (tw_plain _ _ _ T)) as A.
  pose proof (walk_cases e s ovr (tw_wf' _ _ _ T) (tw_plain' _ _ _ T)) as B.
  rewrite (tw_pt _ _ _ T), (tw_min _ _ _ T), (tw_max _ _ _ T), (tw_len _ _ _ T) in B.
  destruct A as [(x & X & P & G)|[X P]], B as [(y & Y & P' & G')|[Y P']]; rewrite X, Y.
  2: destruct P' as [P'|P']; [congruence|lia].
  2: destruct P as [P|P]; [congruence|lia].
  2: reflexivity.
  pose proof (walk_walked _ _ _ _ (tw_wf _ _ _ T) X) as KX. pose proof (walk_walked _ _ _ _ (tw_wf' _ _ _ T) Y) as KY.
  destruct (plain_walk _ _ _ _ (tw_wf _ _ _ T) (tw_plain _ _ _ T) X) as [X0 XI].
  destruct (plain_walk _ _ _ _ (tw_wf' _ _ _ T) (tw_plain' _ _ _ T) Y) as [Y0 YI].
  destruct (walk_setup _ _ _ _ (tw_wf _ _ _ T) X) as [SX WX]. destruct (walk_setup _ _ _ _ (tw_wf' _ _ _ T) Y) as [SY WY].
  split; [|split; [eapply twin_setup; eauto|now rewrite (wk_count _ _ _ _ KX), (wk_count _ _ _ _ KY)]].
  apply rows_ext; [now rewrite (wk_len _ _ _ _ KX), (wk_len _ _ _ _ KY), (tw_len _ _ _ T)|].
  rewrite (wk_len _ _ _ _ KX). induction i as [|i IH]; intros Hi.
  - rewrite X0, Y0, (tw_len _ _ _ T). symmetry. apply T.
  - rewrite XI, YI by (rewrite ?(tw_len _ _ _ T); lia). rewrite Nat.sub_succ, Nat.sub_0_r, IH by lia.
    symmetry. apply T. lia.
Qed.
Lemma swing_rows ovr x y : twin ovr x y -> d_rows x = d_rows y -> length (d_rows x) = clen (d_cyc x) -> swing x = swing y.
Proof.
  intros T RR L. unfold swing, supplied_kJ, final_soc, row_at. rewrite RR, (tw_kwh _ _ _ T).
  assert (E : forall f : nat -> R, map (fun i => f i * step_dt x i) (seq 1 (length (d_rows y) - 1)) =
              map (fun i => f i * step_dt y i) (seq 1 (length (d_rows y) - 1))).
  { intros f. apply map_ext_in. intros i Hi. apply in_seq in Hi. f_equal.
    pose proof (tw_dt _ _ _ T i ltac:(rewrite <- L, RR; lia)) as Q. unfold cdt, ctime in Q.
    destruct (Nat.ltb_spec i 1); [lia|]. unfold step_dt. symmetry. exact Q. }
  now rewrite E.
Qed.
Lemma twin_balance ovr : forall fuel d e s m, twin ovr d e -> d_hev_sim_count e = d_hev_sim_count d ->
  match balance_loop fuel d ovr s m, balance_loop fuel e ovr s m with
  | Ok (x, sx), Ok (y, sy) => sx = sy /\ twin ovr x y /\ d_hev_sim_count y = d_hev_sim_count x
  | Err a, Err b => a = b
  | _, _ => False
  end.
Proof.
  induction fuel as [|f IH]; intros d e s m T Q; cbn [balance_loop]; rewrite (tw_ok _ _ _ T), (tw_cap _ _ _ T), Q;
    destruct (_ && _)%bool; auto.
  pose proof (twin_walk ovr _ _ s (twin_count ovr d e (S (d_hev_sim_count d)) T) eq_refl) as A.
  destruct (sim_drive_walk (with_count d _) s ovr) as [x|a] eqn:X, (sim_drive_walk (with_count e _) s ovr) as [y|b] eqn:Y;
    cbn [bindR]; try contradiction; auto.
  destruct A as (RR & T' & C).
  pose proof (walk_walked (with_count d _) _ _ _ (tw_wf _ _ _ T) X) as KX.
  pose proof (walk_setup (with_count d _) _ _ _ (tw_wf _ _ _ T) X) as [SX _].
  assert (L : length (d_rows x) = clen (d_cyc x)).
  { rewrite (wk_len _ _ _ _ KX). destruct SX as (_ & _ & _ & _ & SX & _). auto. }
  rewrite (swing_ess (with_count d _) _ _ _ (tw_wf _ _ _ T) X), (swing_ess (with_count e _) _ _ _ (tw_wf' _ _ _ T) Y).
  rewrite <- (swing_rows ovr x y T' RR L).
  assert (NS : next_soc y = next_soc x) by (unfold next_soc, soc_last, row_at; now rewrite RR).
  rewrite NS. now apply IH.
Qed.
Lemma twin_drive ovr d e si : twin ovr d e -> same_rows (sim_drive d si ovr) (sim_drive e si ovr).
Proof.
  intros T. unfold sim_drive. cbv zeta. pose proof (twin_count ovr d e 0 T) as T0.
  assert (G : forall x y s, twin ovr x y -> d_hev_sim_count y = d_hev_sim_count x ->
              same_rows (sim_drive_walk x s ovr) (sim_drive_walk y s ovr)).
  { intros x y s TT C. pose proof (twin_walk ovr x y s TT C) as A. unfold same_rows.
    destruct (sim_drive_walk x s ovr), (sim_drive_walk y s ovr); auto. apply A. }
  destruct si as [s|]; [now apply G|]. rewrite (tw_pt _ _ _ T).
  assert (MS : mid_soc (d_veh e) = mid_soc (d_veh d)) by (unfold mid_soc; now rewrite (tw_min _ _ _ T), (tw_max _ _ _ T)).
  rewrite MS, (tw_max _ _ _ T), (tw_cap _ _ _ T).
  destruct (veh_pt_type (d_veh d)); try (now apply G).
  pose proof (twin_balance ovr (sim_count_max (d_sp d)) _ _ (mid_soc (d_veh d)) n1 T0 eq_refl) as B.
  destruct (balance_loop _ (with_count d 0) _ _ _) as [[x sx]|], (balance_loop _ (with_count e 0) _ _ _) as [[y sy]|];
    cbn [bindR fst snd]; try contradiction; [|exact B].
  destruct B as (-> & TB & CB). now apply G.
Qed.

(** ** Agreement up to a sample *)
Lemma prefix_walk ovr ovr' (d e : sdrive R) s x y k : wf_sd d -> wf_sd e -> changes_cycle (d_sp d) = false -> changes_cycle (d_sp e) = false ->
  (k <= clen (d_cyc d))%nat -> (k <= clen (d_cyc e))%nat ->
  ((0 < k)%nat -> first_row d s (row_aux (aux_start ovr (clen (d_cyc d)) 0) zero_row) =
   first_row e s (row_aux (aux_start ovr' (clen (d_cyc e)) 0) zero_row)) ->
  (forall i p, (1 <= i < k)%nat -> plain_row d ovr i p = plain_row e ovr' i p) ->
  sim_drive_walk d s ovr = Ok x -> sim_drive_walk e s ovr' = Ok y ->
  forall i, (i < k)%nat -> row_at x i = row_at y i.
Proof.
  intros W W' C C' L L' H0 HI X Y. destruct (plain_walk _ _ _ _ W C X) as [X0 XI]. destruct (plain_walk _ _ _ _ W' C' Y) as [Y0 YI].
  induction i as [|i IH]; intros Hi.
  - rewrite X0, Y0. apply H0. lia.
  - rewrite XI, YI by lia. rewrite Nat.sub_succ, Nat.sub_0_r, IH by lia. apply HI. lia.
Qed.
Lemma all_zero_nth (l : list R) i : all_zero l = true -> nth i l 0 = 0.
Proof.
  intros H. destruct (Nat.lt_ge_cases i (length l)) as [Q|Q]; [|now apply nth_overflow].
  unfold all_zero in H. rewrite forallb_forall in H. specialize (H _ (nth_In l 0 Q)). unR. now destruct (Reqb_spec (nth i l 0) 0).
Qed.
Lemma plain_grade_new v pr sp c i : plain_grade (new_sd v pr sp c) i = nth i (grade c) 0.
Proof.
  unfold plain_grade. cbn [d_cyc d_cyc0 new_sd init_arrays].
  destruct (grade_all_zero (build_cache c)) eqn:Z; [|reflexivity]. cbn [grade_all_zero build_cache] in Z.
  now rewrite all_zero_nth.
Qed.
