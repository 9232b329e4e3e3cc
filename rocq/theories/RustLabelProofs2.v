(** Lemmas for C122: the runs behind the label in the two implementations. *)
From Coq Require Import Lia.
From Verif Require Import Num Numpy ListFacts CycleModel CycleSpec VehModel SimModel SimState WalkModel PostModel UtilModel LabelModel
  FrameProofs WalkProofs WalkSpec WalkProofs2 LabelSpec LabelProofs RustModel RustWalkModel RustPostModel RustVehModel RustCycModel RustSpec
  RustProofs RustProofs2 RustProofs3 PlainProofs PlainProofs2 PlainSpec PlainProofs3 PlainProofs4 PlainProofs6 RustProps RustProps2
  StepEqs StepProofs SimSpec SimProofs3 SimDemo SimProps SimProps2 RustVehProofs RustCycProofs RustLabelModel RustLabelSpec RustLabelProofs.
Local Open Scope R_scope.

Section Runs.
  Variables (v : vehicle R) (c : cyc R).
  Hypothesis AL : alike v c.
  Let d := fresh v c.
  Let P : plain_run d None := al_plain v c AL.
  Lemma l_plain_off : changes_cycle (d_sp d) = false.
  Proof. unfold changes_cycle. now rewrite (pr_trace _ _ P), (pr_coast _ _ P), (pr_idm _ _ P). Qed.
  Lemma l_wf : wf_sd d.
  Proof. split; [apply P|split; apply P]. Qed.
  Lemma l_setup_plain d' : same_setup d d' -> plain_run d' None.
  Proof.
    intros (a & b & x & e & f & g). specialize (g l_plain_off). constructor; rewrite ?g, ?a, ?x, ?e; try apply P. intros l Q. discriminate.
  Qed.
  Lemma l_walk d' s x : same_setup d d' -> sim_drive_walk d' s None = Ok x -> r_walk d' s None = Ok x.
  Proof.
    intros SU E'. pose proof (l_setup_plain d' SU) as P'. apply C109_identical; auto. intros j.
    rewrite (walk_ext (with_count d (d_hev_sim_count d')) d') in E' by (auto using l_plain_off; exact SU). pose proof l_wf as W.
    destruct (walk_total d s None) as (y & Y); try exact l_plain_off.
    - pose proof (wk_len _ _ _ _ (walk_walked (with_count d (d_hev_sim_count d')) s None x W E')) as Q1. pose proof (wk_pos _ _ _ _ (walk_walked (with_count d (d_hev_sim_count d')) s None x W E')) as Q2. cbn in Q1. cbn. lia.
    - exact (wk_soc_ok _ _ _ _ (walk_walked (with_count d (d_hev_sim_count d')) s None x W E')).
    - rewrite (walk_rows_count d _ s None y x W l_plain_off Y E' j).
      rewrite (wk_veh _ _ _ _ (walk_walked (with_count d (d_hev_sim_count d')) s None x W E')). cbn [d_veh with_count].
      rewrite <- (wk_veh _ _ _ _ (walk_walked d s None y W Y)). apply (al_calm v c AL s y Y).
  Qed.
  Lemma l_rows d' s x : same_setup d d' -> sim_drive d' s None = Ok x -> length (d_rows x) = clen c /\ (0 < length (d_rows x))%nat.
  Proof.
    intros SU E. rewrite (drive_ext d d' s None SU) in E.
    assert (G : forall e s', same_setup d e -> wf_sd e -> sim_drive_walk e s' None = Ok x -> length (d_rows x) = clen c /\ (0 < length (d_rows x))%nat).
    { intros e s' (_ & _ & _ & _ & f & _) W Q. pose proof (walk_walked _ _ _ _ W Q) as K. split; [|apply K]. rewrite (wk_len _ _ _ _ K), f. reflexivity. }
    unfold sim_drive in E. cbv zeta in E. destruct s as [s|]; [exact (G (with_count d 0) s (setup_refl d) l_wf E)|].
    destruct (veh_pt_type (d_veh d)); try exact (G (with_count d 0) _ (setup_refl d) l_wf E).
    inv_ok E. destruct x0 as [y sy]. cbn [fst snd] in E. destruct (balance_setup _ (with_count d 0) _ _ _ _ _ l_wf E0) as (S1 & W1).
    exact (G y sy S1 W1 E).
  Qed.
  Lemma l_post x : same_setup d x -> length (d_rows x) = clen c -> (0 < length (d_rows x))%nat -> r_set_post_scalars x = Ok (set_post_scalars x).
  Proof.
    intros SU L0 L1. pose proof SU as (a & b & y & e & f & g). specialize (g l_plain_off). cbn in e, g.
    rewrite post_same; rewrite ?g, ?e; auto; try apply P; try apply (al_clock v c AL).
    - assert (G : 0 < nsum (dist_m c)). { apply dist_pos; try apply P; try apply AL. }
      destruct (Rltb_spec 0 (nsum (dist_m c))); [reflexivity|contradiction].
    - rewrite y. apply P.
  Qed.
  Lemma l_run d' s x : same_setup d d' -> s <> None \/ veh_pt_type v <> HEV -> sim_drive d' s None = Ok x ->
    r_sim_drive_post d' s None = Ok (x, set_post_scalars x) /\ same_setup d x.
  Proof.
    intros SU H E. pose proof SU as (a & _). cbn in a. assert (H' : s <> None \/ veh_pt_type (d_veh d') <> HEV) by now rewrite a.
    assert (W' : wf_sd d') by (pose proof (l_setup_plain d' SU) as Q; split; [apply Q|split; apply Q]).
    destruct (run_setup d' None x W' (or_intror (ex_intro _ s E))) as (S1 & _). pose proof (setup_trans _ _ _ SU S1) as S2.
    split; [|exact S2]. destruct (l_rows d' s x SU E) as (L0 & L1).
    unfold r_sim_drive_post. rewrite r_drive_is_walk by exact H'. rewrite drive_is_walk in E by exact H'. fold (start_soc d' s) in E.
    rewrite (l_walk (with_count d' 0) _ x SU E). cbn [bindR]. now rewrite (l_post x S2 L0 L1).
  Qed.
  Lemma l_first x : charge_limits v \/ veh_pt_type v <> HEV -> sim_drive d None None = Ok x ->
    r_sim_drive_post d None None = Ok (x, set_post_scalars x) /\ same_setup d x.
  Proof.
    intros H E. destruct (veh_pt_type v) eqn:T; try (apply l_run; [apply setup_refl|right; congruence|exact E]).
    destruct H as [(H1 & H2 & H3)|H]; [|congruence].
    assert (E' : r_sim_drive d None None = Ok x). { apply C109_hybrid; auto. exact (al_calm v c AL). }
    destruct (run_setup d None x l_wf (or_intror (ex_intro _ None E))) as (S2 & _). split; [|exact S2].
    destruct (l_rows d None x (setup_refl d) E) as (L0 & L1).
    unfold r_sim_drive_post. rewrite E'. cbn [bindR]. now rewrite (l_post x S2 L0 L1).
  Qed.
  (** The three runs of a plug-in hybrid. *)
  Lemma l_phev d' cd ru : same_setup d d' -> sim_drive d' (Some (max_soc v)) None = Ok cd -> phev_runs_of cd = Ok ru ->
    r_phev_runs_of d' = Ok ru.
  Proof.
    intros SU E H. pose proof SU as (a & _). cbn in a. unfold r_phev_runs_of. cbv zeta. rewrite a.
    assert (NN : forall z, Some z <> @None R \/ veh_pt_type v <> HEV) by (left; discriminate).
    destruct (l_run d' (Some (max_soc v)) cd SU (NN _) E) as (R1 & S1). rewrite R1. cbn [bindR fst snd].
    pose proof S1 as (a1 & _). cbn in a1. unfold phev_runs_of in H. cbv zeta in H. rewrite a1 in H.
    bind_in H tr ET. bind_in H cs ES.
    destruct (l_run cd _ tr S1 (NN _) ET) as (R2 & S2).
    match type of R2 with r_sim_drive_post _ (Some ?s) _ = _ => match goal with |- bindR (r_sim_drive_post _ (Some ?s') _) _ = _ => change s' with s end end.
    rewrite R2. cbn [bindR fst snd]. destruct (l_run tr _ cs S2 (NN _) ES) as (R3 & S3). rewrite R3. cbn [bindR fst snd]. exact H.
  Qed.
End Runs.

(** ** The acceleration test *)
Lemma net_total (mph times : list R) : length times = length mph -> hd 0 mph < 60 -> exists t, r_net_accel mph times = Ok t.
Proof.
  intros L H. unfold r_net_accel. destruct (existsb _ mph) eqn:E; [|eauto]. rewrite interp_knots; [eauto|exact L|].
  apply existsb_exists in E as (x & I & G). unR. apply Rleb_true in G. destruct mph as [|a mph]; [destruct I|]. destruct times as [|t times]; [discriminate|].
  cbn [hd] in H. cbn [combine r_knots length]. enough (r_rising a (combine mph times) <> []) by (destruct (r_rising a (combine mph times)); [congruence|cbn; lia]).
  apply (rising_more _ x); [|lra]. destruct I as [<-|I]; [lra|]. rewrite combine_fst by (cbn in *; lia). exact I.
Qed.
Lemma net_same (mph times : list R) : length times = length mph -> rises_past_60 mph -> r_net_accel mph times = Ok (net_accel mph times).
Proof.
  intros L (k & a & b & A & B & AB & U & _). unfold r_net_accel, net_accel.
  assert (E : existsb (fun x : R => (x >=? nofZ 60)%num) mph = true).
  { apply existsb_exists. exists b. split; [eapply nth_error_In; eauto|]. unR. apply Rleb_true. change (@nofZ R _ 60) with 60. lra. }
  rewrite E. destruct mph as [|x0 mph]; [destruct k; discriminate|]. destruct times as [|t times]; [discriminate|].
  assert (X0 : forall i x, (i <= k)%nat -> nth_error (x0 :: mph) i = Some x -> x0 <= x <= a).
  { assert (G1 : forall i x, (i <= k)%nat -> nth_error (x0 :: mph) i = Some x -> x0 <= x).
    { induction i as [|i IH]; intros x Hi Hx; [cbn in Hx; injection Hx as <-; lra|].
      destruct (nth_error (x0 :: mph) i) as [y|] eqn:Y; [|apply nth_error_None in Y; assert (S i < length (x0 :: mph))%nat by (apply nth_error_Some; congruence); lia].
      pose proof (IH y ltac:(lia) eq_refl). pose proof (U i y x ltac:(lia) Y Hx). lra. }
    assert (G2 : forall n i x, (i + n = k)%nat -> nth_error (x0 :: mph) i = Some x -> x <= a).
    { induction n as [|n IH]; intros i x Hi Hx; [replace i with k in Hx by lia; rewrite A in Hx; injection Hx as ->; lra|].
      destruct (nth_error (x0 :: mph) (S i)) as [y|] eqn:Y; [|apply nth_error_None in Y; assert (k < length (x0 :: mph))%nat by (apply nth_error_Some; congruence); lia].
      pose proof (IH (S i) y ltac:(lia) Y). pose proof (U i x y ltac:(lia) Hx Y). lra. }
    intros i x Hi Hx. split; [eapply G1; eauto|eapply (G2 (k - i)%nat); eauto; lia]. }
  assert (LE : x0 <= 60) by (pose proof (X0 0%nat x0 ltac:(lia) eq_refl); lra).
  assert (CF : map fst (combine mph times) = mph) by (apply combine_fst; cbn in L; lia).
  rewrite interp_knots; [|exact L|].
  - f_equal. cbn [combine r_knots interp1]. unR. change (@nofZ R _ 60) with 60. destruct (Rltb 60 x0); [reflexivity|].
    apply (rising_prefix (S k)); rewrite ?CF.
    + intros i x y Hi Hx Hy. apply (U i x y); [lia|exact Hx|exact Hy].
    + exists b. split; [exact B|]. change (@nofZ R _ 60) with 60. lra.
    + change (@nofZ R _ 60) with 60. lra.
  - cbn [combine r_knots length]. enough (r_rising x0 (combine mph times) <> []) by (destruct (r_rising x0 (combine mph times)); [congruence|cbn; lia]).
    apply (rising_more _ b); [|lra]. rewrite CF. cbn [nth_error] in B. eapply nth_error_In; eauto.
Qed.
Lemma accel_moves : moves (accel_cycle (F := R)).
Proof.
  assert (Q : 0 < @nofZ R _ 90 / MPH_PER_MPS).
  { apply Rdiv_lt_0_compat; [change (@nofZ R _ 90) with 90; lra|]. unfold MPH_PER_MPS. rewrite ?lit_R. unR. lra. }
  assert (E : (@n1 R _ * nofZ 90 / MPH_PER_MPS)%num = @nofZ R _ 90 / MPH_PER_MPS) by (unR; unfold Rdiv; ring).
  split; unfold accel_cycle; cbn [mps]; rewrite E.
  - intros x [<-|I]; [unR; lra|]. apply repeat_spec in I. subst. lra.
  - exists 1%nat. cbn [length nth]. rewrite repeat_length. split; [lia|]. cbn [repeat]. exact Q.
Qed.
Lemma accel_inc : increasing (time_s (accel_cycle (F := R))).
Proof.
  unfold accel_cycle. cbn [time_s]. intros i j x y Hij Hx Hy. rewrite nth_error_map in Hx, Hy.
  destruct (nth_error (seq 0 3000) i) as [p|] eqn:Ei; [|discriminate]. destruct (nth_error (seq 0 3000) j) as [q|] eqn:Ej; [|discriminate].
  assert (W : forall n m p, nth_error (seq 0 m) n = Some p -> p = n).
  { intros n m r Hr. assert (n < length (seq 0 m))%nat by (apply nth_error_Some; congruence). rewrite seq_length in H.
    rewrite (nth_error_nth' _ 0%nat) in Hr by (now rewrite seq_length). rewrite seq_nth in Hr by exact H. cbn in Hr. congruence. }
  rewrite (W _ _ _ Ei) in Hx. rewrite (W _ _ _ Ej) in Hy. cbn [option_map] in Hx, Hy. 
  assert (EX : x = (@nofN R _ i * lit 1 10)%num) by congruence. assert (EY : y = (@nofN R _ j * lit 1 10)%num) by congruence.
  rewrite EX, EY, !nofN_R, lit_R. unR. apply Rmult_lt_compat_r; [lra|]. now apply lt_INR.
Qed.
Lemma accel_plain v : comparable v -> loads_ok None v -> plain_run (fresh v accel_cycle) None.
Proof.
  intros V Q. constructor; cbn [fresh new_sd init_arrays d_cyc d_cyc0 d_sp d_veh]; try reflexivity; auto using accel_cycle_wf, accel_inc.
  intros l X. discriminate.
Qed.
Lemma accel_same v a : comparable v -> loads_ok None v -> run_simdrive_for_accel_test (fresh v accel_cycle) = Ok a ->
  exists dr p, r_sim_drive_accel (fresh v r_accel_cycle) = Ok (dr, p) /\ map (fun r => mph_ach (spd r)) (d_rows dr) = speeds a /\
    length (d_rows dr) = 3000%nat /\ hd 0 (speeds a) = 0.
Proof.
  intros V Q H. pose proof (accel_plain v V Q) as P. change (r_accel_cycle (F := R)) with (accel_cycle (F := R)).
  set (s := match veh_pt_type v with CONV | HEV => mid_soc v | _ => max_soc v end).
  assert (E : sim_drive_walk (fresh v accel_cycle) s None = Ok a) by (unfold run_simdrive_for_accel_test in H; cbn [fresh new_sd init_arrays d_veh] in H; unfold s; destruct (veh_pt_type v); exact H).
  pose proof (run_twin _ s None P) as R0. rewrite E in R0. destruct R0 as (dr & R1 & T & LV).
  assert (W : wf_sd (fresh v accel_cycle)) by (split; [apply P|split; apply P]).
  pose proof (walk_walked _ _ _ _ W E) as K. pose proof (cyc_of_walk _ _ _ _ P E) as CC.
  assert (LN : length (d_rows a) = 3000%nat). { rewrite (wk_len _ _ _ _ K). cbn [fresh new_sd init_arrays d_cyc]. unfold clen, accel_cycle. cbn [time_s]. now rewrite map_length, seq_length. }
  assert (A0 : nth 0 (time_s (accel_cycle (F := R))) 0 = 0).
  { unfold accel_cycle. cbn [time_s seq map nth]. rewrite nofN_R. cbn [INR]. unR. lra. }
  assert (PS : r_set_post_scalars dr = Ok (set_post_scalars dr)).
  { pose proof (wk_cyc0 _ _ _ _ K) as C0. pose proof (wk_sp _ _ _ _ K) as SP.
    rewrite post_same; rewrite ?(k_cyc _ _ T), ?(k_cyc0 _ _ T), ?(k_len _ _ T), ?(k_sp _ _ T), ?CC, ?C0, ?SP; try reflexivity.
    - assert (G : 0 < nsum (dist_m (accel_cycle (F := R)))). { apply (proj1 (dist_pos (accel_cycle (F := R)) accel_cycle_wf accel_inc A0 (proj1 accel_moves))). exact accel_moves. }
      cbn [fresh new_sd init_arrays d_cyc0]. destruct (Rltb_spec 0 (nsum (dist_m accel_cycle))); [reflexivity|contradiction].
    - exact A0.
    - rewrite LN. lia.
    - rewrite (wk_len _ _ _ _ K). reflexivity.
    - apply P. }
  exists dr, (set_post_scalars dr). split; [|split; [|split; [rewrite (k_len _ _ T); exact LN|]]].
  - unfold r_sim_drive_accel. cbv zeta. cbn [fresh new_sd init_arrays d_veh]. fold (mid_soc v). fold s. unfold fresh, new_sd in R1. cbn [init_arrays] in R1.
    match goal with |- bindR ?r _ = _ => change r with (r_walk (fresh v accel_cycle) s None) end. 
    unfold fresh, new_sd. cbn [init_arrays]. rewrite R1. cbn [bindR]. now rewrite PS.
  - unfold speeds. apply (twins_map a dr _ T). intros x y [? ? ? SS]. now rewrite SS.
  - unfold speeds. destruct (d_rows a) as [|r0 rs] eqn:RW; [cbn in LN; lia|]. cbn [map hd].
    pose proof (wk_first _ _ _ _ K) as F0. unfold row_at in F0. rewrite RW in F0. cbn [nth] in F0. rewrite F0.
    unfold first_row, cmps, accel_cycle. cbn [spd mph_ach fresh new_sd init_arrays d_cyc0 mps nth]. unR. lra.
Qed.
