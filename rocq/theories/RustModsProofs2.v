(** Lemmas on the Rust implementation's correction of a missed trace. *)
From Verif Require Import Num Numpy ListFacts CycleModel CycleSpec DistProofs VehModel SimModel SimState WalkModel SimSpec WalkSpec
  RustModel RustWalkModel RustPostModel RustCycModel RustModsModel RustSpec
  FrameProofs WalkProofs StepProofs PlainProofs SimProofs1 SimProofs3 WalkProofs3 RustProofs RustProofs2 RustProofs3 RustCycProofs RustCycProofs2 RustModsProofs.
From Coq Require Import FunctionalExtensionality.
Local Open Scope R_scope.

(** Equal but for fuel, wherever the two are in a step. *)
Record kin (dp dr : sdrive R) : Prop := {
  n_veh : d_veh dr = d_veh dp; n_props : d_props dr = d_props dp; n_sp : d_sp dr = d_sp dp;
  n_cyc : d_cyc dr = d_cyc dp; n_cyc0 : d_cyc0 dr = d_cyc0 dp; n_i : d_i dr = d_i dp;
  n_len : length (d_rows dr) = length (d_rows dp); n_cache : d_cache dr = d_cache dp; n_count : d_hev_sim_count dr = d_hev_sim_count dp;
  n_rows : forall j, same_but_fuel (row_at dp j) (row_at dr j) }.
Lemma kin_refl d : kin d d.
Proof. constructor; auto. intros j. apply sbf_refl. Qed.
Lemma twins_kin dp dr : twins dp dr -> kin dp dr.
Proof. intros []. constructor; auto. Qed.
Lemma kin_i dp dr i : kin dp dr -> kin (with_i dp i) (with_i dr i).
Proof. intros []. constructor; auto. Qed.

(** What a solve of step [i] needs to be the same in both. *)
Record ready (d : sdrive R) (i : nat) : Prop := {
  y_cmp : comparable (d_veh d); y_road : replans (d_sp d) = false \/ r_grade_all_zero (d_cyc0 d) = true;
  y_cache : d_cache d = build_cache (d_cyc0 d); y_pos : (1 <= i < length (d_rows d))%nat;
  y_len : length (d_rows d) = length (time_s (d_cyc d));
  y_dt : 0 < cdt (d_cyc d) i;
  y_aux : no_motor (d_veh d) -> 0 <= default_aux (d_veh d) /\ 0 <= aux_in_kw (misc (row_at d i));
  y_chg : cur_max_roadway_chg_kw (ctl (row_at d i)) = 0;
  y_fc : forall j, 0 <= fc_kw_out_ach (fc (row_at d j)) <= fc_max_kw (d_veh d) }.
Lemma live_ready d : live d -> (d_i d < length (d_rows d))%nat -> ready d (d_i d).
Proof.
  intros L H. constructor; try apply L; auto.
  - split; [apply L|exact H].
  - pose proof (v_pos _ L). rewrite <- (v_len _ L). lia.
  - intros M. split; apply (v_aux _ L M). auto.
Qed.
Lemma ready_kin dp dr i : kin dp dr -> ready dp i -> ready dr i.
Proof.
  intros K Y. constructor; rewrite ?(n_veh _ _ K), ?(n_sp _ _ K), ?(n_cyc _ _ K), ?(n_cyc0 _ _ K), ?(n_cache _ _ K), ?(n_len _ _ K), <- ?(sf_misc _ _ (n_rows _ _ K i)), <- ?(sf_ctl _ _ (n_rows _ _ K i)); try apply Y.
  intros j. rewrite <- (sf_out _ _ (n_rows _ _ K j)). apply Y.
Qed.

Lemma env_kin dp dr i : kin dp dr -> ready dp i -> r_full_env dr i = env_at dp i.
Proof.
  intros K Y. assert (EF : r_full_env dr i = r_env_at dr i).
  { destruct (y_road _ _ Y) as [Q|Q].
      - unfold replans in Q. apply Bool.orb_false_iff in Q as [Q1 Q2]. apply full_env_plain; rewrite ?(n_cache _ _ K), ?(n_cyc0 _ _ K), ?(n_sp _ _ K); auto. apply Y.
      - apply full_env_flat; rewrite ?(n_cache _ _ K), ?(n_cyc0 _ _ K); auto. apply Y. }
  rewrite EF.
  assert (RA : (forall v, lookup_grade dp i v = r_plain_grade dp i) /\ estimate_grade dp i = r_plain_grade dp i).
  { unfold lookup_grade, estimate_grade, r_plain_grade. rewrite (y_cache _ _ Y).
    change (grade_all_zero (build_cache (d_cyc0 dp))) with (r_grade_all_zero (d_cyc0 dp)).
    destruct (y_road _ _ Y) as [H|H]; [|rewrite H; auto]. unfold replans in H. apply Bool.orb_false_iff in H as [-> ->]. cbn [andb negb]. auto. }
  unfold r_env_at, env_at, r_plain_grade. rewrite (n_cyc _ _ K), (n_cyc0 _ _ K). pose proof (y_pos _ _ Y) as P1. f_equal.
  - unfold cdt. destruct (Nat.ltb_spec i 1); [lia|reflexivity].
  - apply functional_extensionality. intros x. symmetry. apply RA.
  - symmetry. apply RA.
  - unfold all_zero.
    rewrite (map_skipn_seq _ _ zero_row).
    replace (skipn i (d_rows dr)) with (map (fun j => nth j (d_rows dr) zero_row) (seq i (length (d_rows dr) - i)))
      by (rewrite <- (map_skipn_seq (fun x => x)); apply map_id).
    rewrite (n_len _ _ K).
    replace (map (fun j => aux_in_kw (misc (nth j (d_rows dp) zero_row))) (seq i (length (d_rows dp) - i)))
      with (map (fun x => x) (map (fun j => aux_in_kw (misc (nth j (d_rows dp) zero_row))) (seq i (length (d_rows dp) - i)))) by apply map_id.
    rewrite map_map. set (l := seq _ _). clearbody l. induction l as [|j l IH]; [reflexivity|]. cbn [map forallb]. rewrite IH.
    change (nth j (d_rows dr) zero_row) with (row_at dr j). change (nth j (d_rows dp) zero_row) with (row_at dp j).
    now rewrite (sf_misc _ _ (n_rows _ _ K j)).
Qed.

Lemma solve_kin dp dr i : kin dp dr -> ready dp i ->
  exists dr', r_solve_step dr i = Ok dr' /\ kin (solve_step dp i) dr' /\ ready (solve_step dp i) i.
Proof.
  intros K Y. pose proof (y_pos _ _ Y) as P. pose proof (env_kin _ _ _ K Y) as EE.
  set (e := env_at dp i) in *. set (p := row_at dp (i - 1)). set (cur := row_at dp i).
  set (p' := row_at dr (i - 1)). set (cur' := row_at dr i).
  set (rp := solve_row (d_veh dp) (d_props dp) (d_sp dp) e p cur). set (rr := solve_row (d_veh dp) (d_props dp) (d_sp dp) e p' cur').
  assert (D : 0 < e_dt e) by apply Y.
  destruct (row_cong (d_veh dp) (d_props dp) (d_sp dp) e p p' cur cur' (n_rows _ _ K _) (n_rows _ _ K _)) as (C1 & _). fold rp rr in C1.
  pose proof (y_cmp _ _ Y) as V.
  assert (FP : 0 <= fc_kw_out_ach (fc p')) by (unfold p'; rewrite <- (sf_out _ _ (n_rows _ _ K _)); apply Y).
  assert (AX : no_motor (d_veh dp) -> 0 <= aux_in_kw (misc rp)) by (intros M; destruct (y_aux _ _ Y M); now apply aux_of_solve).
  assert (GE : forall x, Rabs (e_grade_est e - e_grade e x) <= 1/1000000).
  { intros x. rewrite <- EE. rewrite (env_kin _ _ _ K Y). cbn.
    assert (RA : (forall v, lookup_grade dp i v = r_plain_grade dp i) /\ estimate_grade dp i = r_plain_grade dp i).
    { unfold lookup_grade, estimate_grade, r_plain_grade. rewrite (y_cache _ _ Y).
      change (grade_all_zero (build_cache (d_cyc0 dp))) with (r_grade_all_zero (d_cyc0 dp)).
      destruct (y_road _ _ Y) as [H|H]; [|rewrite H; auto]. unfold replans in H. apply Bool.orb_false_iff in H as [-> ->]. cbn [andb negb]. auto. }
    destruct RA as [-> ->]. rewrite Rminus_diag_eq, Rabs_R0 by reflexivity. lra. }
  assert (AX' : no_motor (d_veh dp) -> 0 <= aux_in_kw (misc rr)) by (rewrite <- (sf_misc _ _ C1); exact AX).
  assert (RD : cur_max_roadway_chg_kw (ctl cur') <= cur_max_ess_chg_kw (lims rr)).
  { unfold cur'. rewrite <- (sf_ctl _ _ (n_rows _ _ K _)), (y_chg _ _ Y). apply chg_of_solve. apply (cp_ess _ V). }
  destruct (row_same (d_veh dp) (d_props dp) (d_sp dp) e p' cur' V D FP GE AX' RD) as (x & RS & _). fold rr in RS.
  set (rw := with_fuel rr x (e_dt e)) in *.
  exists (with_rows dr (set_nth (d_rows dr) i rw)). split.
  { unfold r_solve_step. rewrite EE, (n_veh _ _ K), (n_props _ _ K), (n_sp _ _ K). fold p' cur'. rewrite RS. reflexivity. }
  assert (RA : forall j, row_at (solve_step dp i) j = if Nat.eqb j i then rp else row_at dp j).
  { intros j. unfold row_at at 1. cbn [d_rows solve_step upd_row with_rows]. now apply row_at_set. }
  assert (RB : forall j, row_at (with_rows dr (set_nth (d_rows dr) i rw)) j = if Nat.eqb j i then rw else row_at dr j).
  { intros j. unfold row_at at 1. cbn [d_rows with_rows]. apply row_at_set. rewrite (n_len _ _ K). apply P. }
  split.
  - constructor; try (cbn; apply K).
    + cbn. rewrite !set_nth_length. apply K.
    + intros j. rewrite RA, RB. destruct (Nat.eqb_spec j i); [|apply K]. eapply sbf_trans; [exact C1|apply sbf_fuel].
  - constructor; try (cbn; apply Y).
    + cbn. rewrite set_nth_length. apply Y.
    + cbn. rewrite set_nth_length. apply Y.
    + intros M. rewrite RA, Nat.eqb_refl. split; [apply (y_aux _ _ Y M)|apply (AX M)].
    + rewrite RA, Nat.eqb_refl. unfold rp. rewrite ctl_of_solve. apply Y.
    + intros j. rewrite RA. destruct (Nat.eqb_spec j i); [|apply Y]. apply fc_of_solve; [exact V|exact D|apply Y].
Qed.

(** ** The pieces of the correction *)

Lemma shift_split (l : list R) i s : firstn i l ++ map (fun x => x + s) (skipn i l) = mapi_from (fun j x => if Nat.ltb j i then x else x + s) 0 l.
Proof.
  assert (G : forall l j, (i <= j)%nat -> map (fun x => x + s) l = mapi_from (fun j x => if Nat.ltb j i then x else x + s) j l).
  { clear l. induction l as [|x l IH]; intros j H; cbn [map mapi_from]; [reflexivity|]. destruct (Nat.ltb_spec j i); [lia|]. now rewrite (IH (S j)) by lia. }
  assert (A : forall l k, (k <= i)%nat -> firstn (i - k) l ++ map (fun x => x + s) (skipn (i - k) l) = mapi_from (fun j x => if Nat.ltb j i then x else x + s) k l).
  { clear l. induction l as [|x l IH]; intros k H; [now rewrite firstn_nil, skipn_nil|].
    destruct (Nat.eq_dec k i) as [->|Q]; [rewrite Nat.sub_diag; apply G; lia|].
    replace (i - k)%nat with (S (i - S k)) by lia. cbn [firstn skipn app mapi_from]. destruct (Nat.ltb_spec k i); [|lia]. rewrite (IH (S k)) by lia. reflexivity. }
  specialize (A l 0%nat ltac:(lia)). now rewrite Nat.sub_0_r in A.
Qed.
Lemma dilate_same (d : sdrive R) i t : (1 <= i)%nat -> r_dilate d i t = dilate d i t.
Proof.
  intros H. unfold r_dilate, dilate, cdt, ctime. cbv zeta. destruct (Nat.ltb_spec i 1); [lia|].
  change (fun x : R => (x + (nth i (time_s (d_cyc d)) n0 - nth (i - 1) (time_s (d_cyc d)) n0) * t)%num)
    with (fun x : R => x + (nth i (time_s (d_cyc d)) n0 - nth (i - 1) (time_s (d_cyc d)) n0) * t).
  rewrite shift_split. reflexivity.
Qed.
Lemma bump_same (d : sdrive R) i : r_bump d i = bump_iters d i.
Proof. unfold r_bump, bump_iters. f_equal. f_equal. apply functional_extensionality. intros c. now rewrite Nat.add_1_r. Qed.
Lemma sbf_iters a b n : same_but_fuel a b -> same_but_fuel (row_ctl (fun c => ctl_iters (n c) c) a) (row_ctl (fun c => ctl_iters (n c) c) b).
Proof. intros []. constructor; cbn; try assumption. now rewrite sf_ctl. Qed.
Lemma bump_kin dp dr i : (i < length (d_rows dp))%nat -> kin dp dr -> kin (bump_iters dp i) (bump_iters dr i).
Proof.
  intros H K. constructor; try (cbn; apply K).
  - cbn. rewrite !set_nth_length. apply K.
  - intros j. unfold bump_iters. rewrite !row_upd by (rewrite ?(n_len _ _ K); exact H). destruct (Nat.eqb_spec j i); [|apply K]. apply (sbf_iters _ _ (fun c => S (trace_miss_iters c))), K.
Qed.
Lemma bump_ready d i : ready d i -> ready (bump_iters d i) i.
Proof.
  intros Y. pose proof (y_pos _ _ Y) as P.
  constructor; try (cbn; rewrite ?set_nth_length; apply Y); unfold bump_iters.
  - intros M. rewrite row_upd by apply P. rewrite Nat.eqb_refl. apply (y_aux _ _ Y M).
  - rewrite row_upd by apply P. rewrite Nat.eqb_refl. apply Y.
  - intros j. rewrite row_upd by apply P. destruct (Nat.eqb_spec j i) as [->|]; apply Y.
Qed.
Lemma dilate_kin dp dr i t : kin dp dr -> kin (dilate dp i t) (dilate dr i t).
Proof. intros K. constructor; try (cbn; apply K). unfold dilate. cbn. now rewrite (n_cyc _ _ K). Qed.
Lemma dilate_ready d i t : -1 < t -> ready d i -> ready (dilate d i t) i.
Proof.
  intros T Y. pose proof (y_pos _ _ Y) as P. pose proof (y_len _ _ Y) as LL.
  constructor; try (cbn; apply Y).
  - cbn. rewrite mapi_from_length. apply Y.
  - rewrite cdt_step by lia. unfold step_dt. rewrite !dilate_time by lia. destruct (Nat.ltb_spec i i); [lia|]. destruct (Nat.ltb_spec (i - 1) i); [|lia].
    pose proof (y_dt _ _ Y) as D. rewrite cdt_step in * by lia. unfold step_dt in *. set (a := nth i _ 0) in *. set (b := nth (i - 1) _ 0) in *. nra.
Qed.
Lemma clamp_above (s : simparams R) x : -1 < min_time_dilation s -> -1 < max_time_dilation s -> -1 < clamp_dilation s x.
Proof. intros A B. unfold clamp_dilation. rewrite nmin_R, nmax_R. apply Rmin_glb_lt; [|exact B]. eapply Rlt_le_trans; [exact A|apply Rmax_r]. Qed.

Lemma ach_kin dp dr n : kin dp dr -> nsum (firstn n (map (fun r => dist_m_ach (spd r)) (d_rows dr))) = ach_dist_to dp n.
Proof.
  intros K. unfold ach_dist_to, ach_dists. f_equal. f_equal. apply nth_ext with (d := dist_m_ach (spd zero_row)) (d' := dist_m_ach (spd zero_row)); rewrite !map_length.
  - apply K.
  - intros j _. rewrite !(map_nth (fun r => dist_m_ach (spd r))). pose proof (sf_spd _ _ (n_rows _ _ K j)) as Q. unfold row_at in Q. now rewrite Q.
Qed.
Lemma short_kin dp dr i : kin dp dr -> hd 0 (time_s (d_cyc0 dp)) = 0 -> r_short dr i = short_of dp i.
Proof.
  intros K H. unfold r_short, short_of, r_ach_dist, r_cyc_dist. rewrite (ach_kin _ _ _ K), (n_cyc0 _ _ K), r_dist_same0 by exact H. reflexivity.
Qed.
Lemma close_kin dp dr i : kin dp dr -> hd 0 (time_s (d_cyc0 dp)) = 0 -> r_close dr i = dist_close dp i.
Proof.
  intros K H. unfold r_close, dist_close. rewrite (short_kin _ _ _ K H). unfold r_cyc_dist. rewrite (n_cyc0 _ _ K), (n_sp _ _ K), r_dist_same0 by exact H. reflexivity.
Qed.
Lemma iters_kin dp dr i : kin dp dr -> trace_miss_iters (ctl (row_at dr i)) = trace_miss_iters (ctl (row_at dp i)).
Proof. intros K. now rewrite (sf_ctl _ _ (n_rows _ _ K i)). Qed.

Lemma dloop_kin i : forall fuel dp dr t2 t1 s1, kin dp dr -> ready dp i -> hd 0 (time_s (d_cyc0 dp)) = 0 ->
  -1 < min_time_dilation (d_sp dp) -> -1 < max_time_dilation (d_sp dp) ->
  match dilation_loop fuel dp i t2 t1 s1 with
  | Ok dp' => exists dr', r_dilation_loop fuel dr i t2 t1 s1 = Ok dr' /\ kin dp' dr' /\ ready dp' i
  | Err x => r_dilation_loop fuel dr i t2 t1 s1 = Err x
  end.
Proof.
  induction fuel as [|f IH]; intros dp dr t2 t1 s1 K Y HZ MN MX; cbn [dilation_loop r_dilation_loop]; [reflexivity|]. cbv zeta.
  pose proof (y_pos _ _ Y) as P.
  rewrite (short_kin _ _ _ K HZ), (n_sp _ _ K). change r_clamp with (@clamp_dilation R RNum). set (s := short_of dp i). set (t := clamp_dilation _ _).
  assert (T : -1 < t) by (now apply clamp_above). rewrite dilate_same by lia.
  destruct (solve_kin _ _ i (dilate_kin _ _ i t K) (dilate_ready _ i t T Y)) as (d0 & R0 & K0 & Y0). rewrite R0. cbn [bindR]. rewrite bump_same.
  pose proof (y_pos _ _ Y0) as P0. pose proof (bump_kin _ _ i (proj2 P0) K0) as K1. pose proof (bump_ready _ _ Y0) as Y1.
  set (p1 := bump_iters (solve_step (dilate dp i t) i) i) in *. set (r1 := bump_iters d0 i) in *.
  rewrite (close_kin p1 r1 i K1 HZ), (iters_kin p1 r1 i K1).
  change (r_edge r1 t) with (dilation_edge r1 t). unfold dilation_edge. rewrite (n_sp _ _ K1).
  destruct (_ || _)%bool; [exists r1; auto|]. apply IH; auto.
Qed.


(** ** Counting *)
Definition misses (d : sdrive R) (i : nat) : nat := trace_miss_iters (ctl (row_at d i)).
Lemma misses_solve d i : (i < length (d_rows d))%nat -> misses (solve_step d i) i = misses d i.
Proof. intros H. unfold misses, solve_step. rewrite row_upd by exact H. rewrite Nat.eqb_refl, ctl_of_solve. reflexivity. Qed.
Lemma misses_bump d i : (i < length (d_rows d))%nat -> misses (bump_iters d i) i = S (misses d i).
Proof. intros H. unfold misses, bump_iters. rewrite row_upd by exact H. rewrite Nat.eqb_refl. reflexivity. Qed.
Lemma misses_dilate d i t : misses (dilate d i t) i = misses d i.
Proof. reflexivity. Qed.
Lemma len_solve (d : sdrive R) i : length (d_rows (solve_step d i)) = length (d_rows d).
Proof. apply set_nth_length. Qed.
Lemma len_bump (d : sdrive R) i : length (d_rows (bump_iters d i)) = length (d_rows d).
Proof. apply set_nth_length. Qed.
Lemma loop_misses i : forall fuel d t2 t1 s1 d', (i < length (d_rows d))%nat -> dilation_loop fuel d i t2 t1 s1 = Ok d' -> (misses d i <= misses d' i)%nat.
Proof.
  induction fuel as [|f IH]; intros d t2 t1 s1 d' H E; cbn [dilation_loop] in E; [discriminate|]. cbv zeta in E. set (t := clamp_dilation _ _) in E.
  assert (M : misses (bump_iters (solve_step (dilate d i t) i) i) i = S (misses d i)).
  { rewrite misses_bump by (rewrite len_solve; exact H). rewrite misses_solve by exact H. reflexivity. }
  destruct (_ || _)%bool in E.
  - injection E as <-. rewrite M. lia.
  - apply IH in E; [rewrite M in E; lia|]. rewrite len_bump, len_solve. exact H.
Qed.

(** The correction, when nothing has been stretched before. *)
Lemma dilation_kin i dp dr : kin dp dr -> ready dp i -> hd 0 (time_s (d_cyc0 dp)) = 0 -> d_cyc dp = d_cyc0 dp ->
  -1 < min_time_dilation (d_sp dp) -> -1 < max_time_dilation (d_sp dp) ->
  match set_time_dilation dp i with
  | Ok dp' => exists dr', r_set_time_dilation dr i = Ok dr' /\ kin dp' dr' /\ (misses dp' i = misses dp i -> dp' = dp /\ dr' = dr)
  | Err x => r_set_time_dilation dr i = Err x
  end.
Proof.
  intros K Y HZ EC MN MX. unfold set_time_dilation, r_set_time_dilation. pose proof (y_pos _ _ Y) as P. pose proof (y_len _ _ Y) as LL.
  assert (M : r_met_first dr i = (dist_close dp i || (cmps (d_cyc dp) i =? n0)%num)%bool).
  { unfold r_met_first. rewrite (n_cyc _ _ K), <- (close_kin _ _ _ K HZ). unfold r_close, r_short. rewrite (n_cyc0 _ _ K), EC. reflexivity. }
  rewrite M. destruct (_ || _)%bool; [exists dr; auto|].
  cbv zeta. rewrite (short_kin _ _ _ K HZ), (n_cyc0 _ _ K), r_dt_at_ok by (rewrite <- EC, <- LL; lia). cbn [bindR].
  replace (cdt (d_cyc0 dp) i) with (nth i (time_s (d_cyc0 dp)) 0 - nth (i - 1) (time_s (d_cyc0 dp)) 0).
  2:{ unfold cdt, ctime. destruct (Nat.ltb_spec i 1); [lia|reflexivity]. }
  replace (mps_ach_at dr i) with (mps_ach_at dp i) by (unfold mps_ach_at; now rewrite (sf_spd _ _ (n_rows _ _ K i))).
  rewrite (n_sp _ _ K). change r_clamp with (@clamp_dilation R RNum). set (s := short_of dp i). set (t := clamp_dilation _ _).
  assert (T : -1 < t) by (now apply clamp_above). rewrite dilate_same, bump_same by lia.
  pose proof (dilate_kin _ _ i t (bump_kin _ _ i (proj2 P) K)) as K0. pose proof (dilate_ready _ i t T (bump_ready _ _ Y)) as Y0.
  destruct (solve_kin _ _ i K0 Y0) as (r1 & R1 & K1 & Y1). rewrite R1. cbn [bindR].
  set (p1 := solve_step _ i) in *. rewrite (close_kin p1 r1 i K1 HZ).
  assert (M1 : misses p1 i = S (misses dp i)).
  { unfold p1. rewrite misses_solve by (cbn; rewrite set_nth_length; apply P). rewrite misses_dilate, misses_bump by apply P. reflexivity. }
  change (r_edge r1 t) with (dilation_edge r1 t). unfold dilation_edge. rewrite (n_sp _ _ K1).
  destruct (_ || _)%bool; [exists r1; split; [reflexivity|]; split; [exact K1|]; rewrite M1; lia|].
  pose proof (dloop_kin i (S (max_trace_miss_iters (d_sp dp))) p1 r1 0 t s K1 Y1 HZ MN MX) as G.
  change (@n0 R RNum) with 0. destruct (dilation_loop _ p1 i 0 t s) as [p2|x] eqn:EL; [|exact G]. destruct G as (dr' & G1 & G2 & _). exists dr'.
  split; [exact G1|]. split; [exact G2|]. apply loop_misses in EL; [|apply Y1]. rewrite M1 in EL. lia.
Qed.

(** ** Steps *)
(** A run with only the correction switched on, so far without a correction. *)
Record on_trace (d : sdrive R) : Prop := {
  o_live : live d; o_cyc : d_cyc d = d_cyc0 d; o_start : hd 0 (time_s (d_cyc0 d)) = 0;
  o_mtc : missed_trace_correction (d_sp d) = true; o_idm : idm_allow (d_sp d) = false; o_coast : coast_allow (d_sp d) = false;
  o_min : -1 < min_time_dilation (d_sp d); o_max : -1 < max_time_dilation (d_sp d);
  o_new : forall j, (d_i d <= j)%nat -> misses d j = 0%nat }.
Lemma trace_step dp dr : on_trace dp -> twins dp dr -> (d_i dp < length (d_rows dp))%nat ->
  match sim_drive_step dp with
  | Ok dp' => exists dr', r_step dr = Ok dr' /\ kin dp' dr' /\ (misses dp' (d_i dp) = 0%nat -> on_trace dp' /\ twins dp' dr')
  | Err x => r_step dr = Err x
  end.
Proof.
  intros O T H. pose proof (o_live _ O) as L. pose proof (live_ready _ L H) as Y.
  unfold sim_drive_step, r_step. rewrite (k_sp _ _ T), (k_i _ _ T), (o_idm _ O), (o_coast _ O), (o_mtc _ O). cbn [orb andb bindR].
  set (i := d_i dp) in *.
  destruct (step_twin dp dr L T H) as (dr1 & R1 & L1 & T1). fold i in L1, T1.
  pose proof (twins_kin _ _ T) as K. destruct (solve_kin dp dr i K Y) as (ar & RS & K1 & Y1).
  assert (dr1 = with_i ar (S i)) as ->.
  { rewrite plain_is in R1. 2:{ rewrite (k_i _ _ T). fold i. rewrite (env_kin _ _ _ K Y). symmetry. apply (env_twin _ _ L T). }
    rewrite (k_i _ _ T) in R1. fold i in R1. rewrite RS in R1. cbn [bindR] in R1. congruence. }
  rewrite RS. cbn [bindR]. set (p := solve_step dp i) in *.
  assert (M0 : misses p i = 0%nat) by (unfold p; rewrite misses_solve by exact H; apply O; auto).
  assert (ON : on_trace (with_i p (S i))).
  { constructor; try (cbn; apply O); auto. cbn [d_i with_i]. intros j Hj. transitivity (misses dp j); [|apply O; fold i; lia].
    unfold misses, p, solve_step. change (row_at (with_i ?a ?b) j) with (row_at a j). rewrite row_upd by exact H. destruct (Nat.eqb_spec j i); [lia|reflexivity]. }
  rewrite (n_cyc0 _ _ K1 : d_cyc0 ar = d_cyc0 dp), r_dist_same0 by apply O.
  change (nsum (firstn i (dist_m (d_cyc0 dp)))) with (cyc0_dist_to p i).
  destruct (cyc0_dist_to p i >? n0)%num; cbn [bindR].
  - pose proof (dilation_kin i p ar K1 Y1 (o_start _ O) (o_cyc _ O) (o_min _ O) (o_max _ O)) as G.
    destruct (set_time_dilation p i) as [p2|x]; cbn [bindR]; [|rewrite G; reflexivity].
    destruct G as (r2 & -> & K2 & S2). cbn [bindR]. exists (with_i r2 (S i)). split; [reflexivity|]. split; [now apply kin_i|].
    change (misses (with_i p2 (S i)) i) with (misses p2 i). rewrite M0 in S2. intros Q. destruct (S2 Q) as [-> ->]. auto.
  - exists (with_i ar (S i)). split; [reflexivity|]. split; [now apply kin_i|]. auto.
Qed.

(** What the Rust step leaves alone. *)
Record rframe (i : nat) (d d' : sdrive R) : Prop := {
  rf_i : d_i d' = d_i d; rf_sp : d_sp d' = d_sp d; rf_len : length (d_rows d') = length (d_rows d);
  rf_tlen : length (time_s (d_cyc d')) = length (time_s (d_cyc d));
  rf_rows : forall j, (j < i)%nat -> row_at d' j = row_at d j;
  rf_times : forall j, (j < i)%nat -> nth j (time_s (d_cyc d')) 0 = nth j (time_s (d_cyc d)) 0 }.
Lemma rf_refl i d : rframe i d d.
Proof. constructor; auto. Qed.
Lemma rf_trans i a b c : rframe i a b -> rframe i b c -> rframe i a c.
Proof.
  intros A B. destruct A, B. constructor; try congruence.
  - intros j Hj. rewrite rf_rows1, rf_rows0; auto.
  - intros j Hj. rewrite rf_times1, rf_times0; auto.
Qed.
Lemma rf_solve d i d' : r_solve_step d i = Ok d' -> rframe i d d'.
Proof.
  unfold r_solve_step. intros E. inv_ok E. injection E as <-. constructor; auto; cbn; try apply set_nth_length.
  intros j Hj. unfold row_at. cbn [d_rows with_rows]. apply nth_set_other. lia.
Qed.
Lemma rf_dilate d i t : rframe i d (r_dilate d i t).
Proof.
  unfold r_dilate. cbv zeta. set (s := nmul _ _). clearbody s. constructor; auto; cbn [d_cyc with_cyc time_s].
  - rewrite app_length, map_length, <- app_length, firstn_skipn. reflexivity.
  - intros j Hj. destruct (Nat.lt_ge_cases j (length (time_s (d_cyc d)))) as [Q|Q].
    + rewrite app_nth1 by (rewrite firstn_length; lia). now rewrite nth_firstn by lia.
    + rewrite !nth_overflow; auto. rewrite app_length, map_length, <- app_length, firstn_skipn. exact Q.
Qed.
Lemma rf_bump d i : rframe i d (r_bump d i).
Proof.
  constructor; auto; cbn; try apply set_nth_length. intros j Hj. unfold r_bump, upd_row, row_at at 1. cbn [d_rows with_rows]. apply nth_set_other. lia.
Qed.
Lemma rf_loop i : forall fuel d t2 t1 s1 d', r_dilation_loop fuel d i t2 t1 s1 = Ok d' -> rframe i d d'.
Proof.
  induction fuel as [|f IH]; intros d t2 t1 s1 d' E; cbn [r_dilation_loop] in E; [discriminate|]. cbv zeta in E. inv_ok E.
  pose proof (rf_trans _ _ _ _ (rf_trans _ _ _ _ (rf_dilate d i _) (rf_solve _ _ _ E0)) (rf_bump x i)) as G.
  destruct (_ || _)%bool in E; [injection E as <-; exact G|]. eapply rf_trans; [exact G|eapply IH; exact E].
Qed.
Lemma rf_correct d i d' : r_set_time_dilation d i = Ok d' -> rframe i d d'.
Proof.
  unfold r_set_time_dilation. destruct (r_met_first d i); [intros [= <-]; apply rf_refl|]. cbv zeta. intros E. inv_ok E. inv_ok E.
  pose proof (rf_trans _ _ _ _ (rf_trans _ _ _ _ (rf_bump d i) (rf_dilate _ i _)) (rf_solve _ _ _ E1)) as G.
  destruct (_ || _)%bool in E; [injection E as <-; exact G|]. eapply rf_trans; [exact G|eapply rf_loop; exact E].
Qed.
Lemma rf_step d d' : replans (d_sp d) = false -> r_step d = Ok d' -> rframe (d_i d) d (with_i d' (d_i d)) /\ d_i d' = S (d_i d).
Proof.
  intros Q. unfold replans in Q. apply Bool.orb_false_iff in Q as [Q1 Q2]. unfold r_step. rewrite Q1, Q2. cbn [bindR orb]. intros E. inv_ok E. inv_ok E. injection E as <-.
  pose proof (rf_solve _ _ _ E0) as G1.
  assert (G2 : rframe (d_i d) x x0).
  { destruct (_ && _)%bool in E1; [now apply rf_correct in E1|]. injection E1 as <-. apply rf_refl. }
  pose proof (rf_trans _ _ _ _ G1 G2) as G. split; [|reflexivity]. destruct G. constructor; auto.
Qed.
Lemma rf_all : forall fuel d d', replans (d_sp d) = false -> r_full_loop fuel d = Ok d' ->
  (forall j, (j < d_i d)%nat -> row_at d' j = row_at d j /\ nth j (time_s (d_cyc d')) 0 = nth j (time_s (d_cyc d)) 0) /\ length (d_rows d') = length (d_rows d).
Proof.
  induction fuel as [|f IH]; intros d d' Q E; cbn [r_full_loop] in E; destruct (Nat.ltb_spec (d_i d) (length (time_s (d_cyc d)))) in E; try discriminate; try (injection E as <-; auto; fail).
  inv_ok E. destruct (rf_step _ _ Q E0) as [G1 G2]. destruct (IH x d') as [I1 I2]; auto.
  - rewrite <- Q. f_equal. apply (rf_sp _ _ _ G1).
  - split; [|rewrite I2; apply (rf_len _ _ _ G1)]. intros j Hj. destruct (I1 j) as [A B]; [lia|]. rewrite A, B. split; [apply (rf_rows _ _ _ G1); exact Hj|apply (rf_times _ _ _ G1); exact Hj].
Qed.
(** ** Whole runs *)
Lemma py_frame : forall fuel (d d' : sdrive R), (1 <= d_i d)%nat -> length (d_rows d) = length (time_s (d_cyc d)) -> walk_loop fuel d = Ok d' ->
  (forall j, (j < d_i d)%nat -> row_at d' j = row_at d j /\ ctime (d_cyc d') j = ctime (d_cyc d) j) /\
  length (d_rows d') = length (d_rows d) /\ (length (d_rows d') <= d_i d')%nat.
Proof.
  induction fuel as [|f IH]; intros d d' H1 HL E; cbn [walk_loop] in E; destruct (Nat.ltb_spec (d_i d) (length (time_s (d_cyc d)))) in E; try discriminate; try (injection E as <-; rewrite HL; auto; fail).
  inv_ok E. pose proof (step_stepped d x ltac:(lia) E0) as ST.
  destruct (IH x d') as (I1 & I2 & I3); auto.
  - rewrite (st_i _ _ _ ST). lia.
  - rewrite (st_len _ _ _ ST), (st_tlen _ _ _ ST). exact HL.
  - split; [|split; [rewrite I2; apply ST|exact I3]]. intros j Hj. destruct (I1 j) as [A B]; [rewrite (st_i _ _ _ ST); lia|]. rewrite A, B. split; [apply (st_below _ _ _ ST)|apply (st_time _ _ _ ST)]; exact Hj.
Qed.
Lemma kin_mono_misses x y i : kin x y -> misses y i = misses x i.
Proof. apply iters_kin. Qed.
Lemma trace_loop : forall fuel dp dr dp', on_trace dp -> twins dp dr -> walk_loop fuel dp = Ok dp' ->
  (forall k, misses dp' k = 0%nat) -> exists dr', r_full_loop fuel dr = Ok dr' /\ on_trace dp' /\ twins dp' dr' /\ (length (d_rows dp') <= d_i dp')%nat.
Proof.
  induction fuel as [|f IH]; intros dp dr dp' O T E M; cbn [walk_loop r_full_loop] in *; rewrite (k_i _ _ T), (k_cyc _ _ T);
    pose proof (v_len _ (o_live _ O)) as LL;
    destruct (Nat.ltb_spec (d_i dp) (length (time_s (d_cyc dp)))) as [Q|Q]; try discriminate; try (injection E as <-; exists dr; rewrite LL; exact (conj eq_refl (conj O (conj T Q)))).
  inv_ok E. rename x into dp1. pose proof (trace_step dp dr O T ltac:(lia)) as ST. rewrite E0 in ST. destruct ST as (dr1 & -> & K & G). cbn [bindR].
  pose proof (v_pos _ (o_live _ O)) as P1. pose proof (step_stepped dp dp1 ltac:(lia) E0) as SS.
  destruct (py_frame f dp1 dp') as (F1 & F2 & F3); auto.
  { rewrite (st_i _ _ _ SS). lia. } { rewrite (st_len _ _ _ SS), (st_tlen _ _ _ SS). exact LL. }
  assert (M1 : misses dp1 (d_i dp) = 0%nat).
  { rewrite <- (M (d_i dp)). unfold misses. destruct (F1 (d_i dp)) as [-> _]; [rewrite (st_i _ _ _ SS); lia|reflexivity]. }
  destruct (G M1) as [O1 T1]. eapply IH; eauto.
Qed.
(** Up to and including the first corrected step. *)
Lemma trace_until : forall fuel dp dr dp' dr', on_trace dp -> twins dp dr -> walk_loop fuel dp = Ok dp' -> r_full_loop fuel dr = Ok dr' ->
  forall j, (forall k, (k < j)%nat -> misses dp' k = 0%nat) ->
  same_but_fuel (row_at dp' j) (row_at dr' j) /\ ctime (d_cyc dr') j = ctime (d_cyc dp') j.
Proof.
  induction fuel as [|f IH]; intros dp dr dp' dr' O T E E' j M; cbn [walk_loop r_full_loop] in *; rewrite (k_i _ _ T), (k_cyc _ _ T) in E';
    pose proof (v_len _ (o_live _ O)) as LL;
    destruct (Nat.ltb_spec (d_i dp) (length (time_s (d_cyc dp)))) as [Q|Q]; try discriminate;
    try (injection E as <-; injection E' as <-; split; [apply T|now rewrite (k_cyc _ _ T)]).
  inv_ok E. rename x into dp1. pose proof (trace_step dp dr O T ltac:(lia)) as ST. rewrite E0 in ST. destruct ST as (dr1 & RR & K & G). rewrite RR in E'. cbn [bindR] in E'.
  pose proof (v_pos _ (o_live _ O)) as P1. pose proof (step_stepped dp dp1 ltac:(lia) E0) as SS.
  destruct (py_frame f dp1 dp') as (F1 & F2 & F3); auto.
  { rewrite (st_i _ _ _ SS). lia. } { rewrite (st_len _ _ _ SS), (st_tlen _ _ _ SS). exact LL. }
  destruct (Nat.eq_dec (misses dp1 (d_i dp)) 0) as [M1|M1].
  - destruct (G M1) as [O1 T1]. eapply IH; eauto.
  - destruct (Nat.lt_ge_cases (d_i dp) j) as [HJ|HJ].
    + exfalso. apply M1. rewrite <- (M (d_i dp) HJ). unfold misses. destruct (F1 (d_i dp)) as [-> _]; [rewrite (st_i _ _ _ SS); lia|reflexivity].
    + assert (RQ : replans (d_sp dr1) = false).
      { rewrite (n_sp _ _ K), (st_sp _ _ _ SS). unfold replans. now rewrite (o_coast _ O), (o_idm _ O). }
      destruct (rf_all f dr1 dr' RQ E') as [R1 _]. assert (DI : d_i dr1 = S (d_i dp)) by (rewrite (n_i _ _ K); apply SS).
      destruct (R1 j) as [A B]; [lia|]. destruct (F1 j) as [C D]; [rewrite (st_i _ _ _ SS); lia|].
      rewrite A, C, D. split; [apply K|]. unfold ctime in *. change (@n0 R RNum) with 0 in *. rewrite B. now rewrite (n_cyc _ _ K).
Qed.

(** ** The Rust run always completes *)
Record goes (i : nat) (d : sdrive R) : Prop := {
  g_ready : forall k, (i <= k < length (d_rows d))%nat -> ready d k; g_pos : (1 <= i)%nat;
  g_len : length (d_rows d) = length (time_s (d_cyc d)); g_len0 : length (d_rows d) = length (time_s (d_cyc0 d));
  g_min : -1 < min_time_dilation (d_sp d); g_max : -1 < max_time_dilation (d_sp d); g_replans : replans (d_sp d) = false }.
Lemma goes_solve d i : goes i d -> (i < length (d_rows d))%nat ->
  exists d', r_solve_step d i = Ok d' /\ goes i d' /\ misses d' i = misses d i /\ length (d_rows d') = length (d_rows d) /\ d_sp d' = d_sp d /\ d_i d' = d_i d.
Proof.
  intros G H. pose proof (g_ready _ _ G i ltac:(lia)) as Y. destruct (solve_kin d d i (kin_refl d) Y) as (d' & E & K & Y'). exists d'. split; [exact E|].
  assert (LN : length (d_rows d') = length (d_rows d)) by (rewrite (n_len _ _ K); apply len_solve).
  split; [|split; [rewrite (kin_mono_misses _ _ i K); now apply misses_solve|split; [exact LN|split; [exact (n_sp _ _ K)|exact (n_i _ _ K)]]]].
  constructor; rewrite ?(n_sp _ _ K), ?(n_cyc _ _ K), ?(n_cyc0 _ _ K), ?LN; try (cbn; apply G).
  intros k Hk. apply (ready_kin _ _ k K). destruct (Nat.eq_dec k i) as [->|Q]; [exact Y'|]. pose proof (g_ready _ _ G k Hk) as YK.
  assert (RK : row_at (solve_step d i) k = row_at d k) by (unfold solve_step; rewrite row_upd by exact H; destruct (Nat.eqb_spec k i); [contradiction|reflexivity]).
  constructor; try (cbn; rewrite ?set_nth_length; apply YK); rewrite ?RK; try apply YK. apply Y'. all: lia.
Qed.
Lemma goes_bump d i : goes i d -> (i < length (d_rows d))%nat -> goes i (r_bump d i).
Proof.
  intros G H. rewrite bump_same. constructor; rewrite ?len_bump; try (cbn; apply G). intros k Hk. destruct (Nat.eq_dec k i) as [->|Q]; [apply bump_ready, G; exact Hk|].
  pose proof (g_ready _ _ G k Hk) as YK. constructor; try (cbn; rewrite ?set_nth_length; apply YK); unfold bump_iters.
  - rewrite row_upd by exact H. destruct (Nat.eqb_spec k i); [contradiction|]. apply YK.
  - rewrite row_upd by exact H. destruct (Nat.eqb_spec k i); [contradiction|]. apply YK.
  - intros j. rewrite row_upd by exact H. destruct (Nat.eqb_spec j i) as [->|]; apply YK.
  - lia.
Qed.
Lemma goes_dilate d i t : -1 < t -> goes i d -> (i < length (d_rows d))%nat -> goes i (r_dilate d i t).
Proof.
  intros T G H. rewrite dilate_same by exact (g_pos _ _ G). pose proof (g_pos _ _ G). pose proof (g_len _ _ G) as LL. constructor; try exact (g_pos _ _ G); try (cbn; apply G).
  - cbn [d_rows dilate with_cyc]. intros k Hk. destruct (Nat.eq_dec k i) as [->|Q]; [apply dilate_ready; [exact T|apply G; exact Hk]|].
    pose proof (g_ready _ _ G k Hk) as YK. constructor; try (cbn; apply YK).
    + cbn. rewrite mapi_from_length. exact LL.
    + rewrite cdt_step by lia. unfold step_dt. rewrite !dilate_time by lia. destruct (Nat.ltb_spec k i); [lia|]. destruct (Nat.ltb_spec (k - 1) i); [lia|].
      pose proof (y_dt _ _ YK) as D. rewrite cdt_step in D by lia. unfold step_dt in D. lra.
  - cbn. rewrite mapi_from_length. exact LL.
Qed.
Lemma goes_loop i : forall fuel d t2 t1 s1, goes i d -> (i < length (d_rows d))%nat -> (max_trace_miss_iters (d_sp d) < fuel + misses d i)%nat -> (1 <= fuel)%nat ->
  exists d', r_dilation_loop fuel d i t2 t1 s1 = Ok d' /\ goes i d'.
Proof.
  induction fuel as [|f IH]; intros d t2 t1 s1 G H M FF; [lia|]. cbn [r_dilation_loop]. cbv zeta. set (s := r_short d i). set (t := r_clamp _ _).
  assert (T : -1 < t) by (apply clamp_above; apply G). pose proof (goes_dilate d i t T G H) as G0.
  destruct (goes_solve _ _ G0 H) as (d1 & R1 & G1 & M1 & L1 & S1 & _). rewrite R1. cbn [bindR].
  assert (H1 : (i < length (d_rows d1))%nat) by (rewrite L1; exact H). pose proof (goes_bump _ _ G1 H1) as G2. set (d2 := r_bump d1 i) in *.
  assert (L2 : length (d_rows d2) = length (d_rows d)) by (unfold d2; rewrite bump_same, len_bump, L1; reflexivity).
  assert (M2 : misses d2 i = S (misses d i)). { unfold d2. rewrite bump_same, misses_bump by exact H1. rewrite M1. reflexivity. }
  assert (S2 : d_sp d2 = d_sp d) by exact S1.
  change (trace_miss_iters (ctl (row_at d2 i))) with (misses d2 i). rewrite M2.
  destruct (Nat.leb_spec (max_trace_miss_iters (d_sp d)) (S (misses d i))).
  - rewrite Bool.orb_true_r. cbn [orb]. exists d2. auto.
  - rewrite Bool.orb_false_r. destruct (_ || _)%bool; [exists d2; auto|]. apply IH; auto; rewrite ?L2, ?S2, ?M2; lia.
Qed.
Lemma goes_correct d i : goes i d -> (i < length (d_rows d))%nat -> exists d', r_set_time_dilation d i = Ok d' /\ goes i d'.
Proof.
  intros G H. unfold r_set_time_dilation. destruct (r_met_first d i); [exists d; auto|]. cbv zeta. pose proof (g_pos _ _ G) as GP.
  rewrite r_dt_at_ok by (rewrite <- (g_len0 _ _ G); lia). cbn [bindR]. set (t := r_clamp _ _). assert (T : -1 < t) by (apply clamp_above; apply G).
  pose proof (goes_bump _ _ G H) as G0. assert (H0 : (i < length (d_rows (r_bump d i)))%nat) by (rewrite bump_same, len_bump; exact H).
  pose proof (goes_dilate _ i t T G0 H0) as G1. destruct (goes_solve _ _ G1 H0) as (d1 & R1 & G2 & M1 & L1 & S1 & _). rewrite R1. cbn [bindR].
  destruct (_ || _)%bool; [exists d1; auto|]. apply goes_loop; auto.
  - rewrite L1. exact H0.
  - rewrite S1. change (d_sp (r_dilate (r_bump d i) i t)) with (d_sp d). lia.
  - lia.
Qed.
Lemma goes_step d : goes (d_i d) d -> (d_i d < length (d_rows d))%nat -> exists d', r_step d = Ok d' /\ goes (d_i d') d' /\ d_i d' = S (d_i d) /\ length (d_rows d') = length (d_rows d).
Proof.
  intros G H. pose proof (g_replans _ _ G) as Q. assert (Q' := Q). unfold replans in Q. apply Bool.orb_false_iff in Q as [Q1 Q2].
  destruct (goes_solve _ _ G H) as (d1 & R1 & G1 & M1 & L1 & S1 & I1).
  assert (X : exists d2, (if (missed_trace_correction (d_sp d) && (nsum (firstn (d_i d) (r_dist_m (d_cyc0 d1))) >? n0)%num)%bool then r_set_time_dilation d1 (d_i d) else Ok d1) = Ok d2 /\ goes (d_i d) d2).
  { destruct (_ && _)%bool; [|exists d1; auto]. apply goes_correct; [exact G1|rewrite L1; exact H]. }
  destruct X as (d2 & E2 & G2).
  assert (E : r_step d = Ok (with_i d2 (S (d_i d)))).
  { unfold r_step. rewrite Q1, Q2. cbn [bindR orb]. rewrite R1. cbn [bindR]. rewrite E2. reflexivity. }
  exists (with_i d2 (S (d_i d))). split; [exact E|]. destruct (rf_step _ _ Q' E) as [F1 F2]. split; [|split; [exact F2|apply (rf_len _ _ _ F1)]].
  cbn [d_i with_i]. constructor; try lia; try (cbn; apply G2). intros k Hk. cbn [d_rows with_i] in Hk. pose proof (g_ready _ _ G2 k ltac:(lia)) as Y. destruct Y. constructor; assumption.
Qed.
Lemma goes_full : forall fuel d, goes (d_i d) d -> (length (d_rows d) <= d_i d + fuel)%nat -> exists d', r_full_loop fuel d = Ok d'.
Proof.
  induction fuel as [|f IH]; intros d G H; cbn [r_full_loop]; destruct (Nat.ltb_spec (d_i d) (length (time_s (d_cyc d)))) as [Q|Q]; eauto; rewrite <- (g_len _ _ G) in Q; [lia|].
  destruct (goes_step d G Q) as (d1 & -> & G1 & I1 & L1). cbn [bindR]. apply IH; [exact G1|]. rewrite I1, L1. lia.
Qed.
Lemma live_goes d : live d -> length (d_rows d) = length (time_s (d_cyc0 d)) -> -1 < min_time_dilation (d_sp d) -> -1 < max_time_dilation (d_sp d) -> replans (d_sp d) = false -> goes (d_i d) d.
Proof.
  intros L H A B Q. constructor; auto; try apply L. intros k Hk. constructor; try apply L; auto.
  - pose proof (v_pos _ L). lia.
  - pose proof (v_pos _ L). rewrite <- (v_len _ L). lia.
  - intros M. split; apply (v_aux _ L M). lia.
  - lia.
Qed.

(** ** From the start *)
Lemma start_trace d s ovr d1 : wf_sd d -> missed_trace_correction (d_sp d) = true -> coast_allow (d_sp d) = false -> idm_allow (d_sp d) = false ->
  comparable (d_veh d) -> increasing (time_s (d_cyc0 d)) -> hd 0 (time_s (d_cyc0 d)) = 0 -> loads_ok ovr (d_veh d) ->
  -1 < min_time_dilation (d_sp d) -> -1 < max_time_dilation (d_sp d) -> init_for_step d s ovr = Ok d1 ->
  on_trace d1 /\ twins d1 d1 /\ goes (d_i d1) d1 /\ length (d_rows d1) = length (time_s (d_cyc d1)).
Proof.
  intros W M C Z V I HZ A MN MX E.
  assert (CC : changes_cycle (d_sp d) = true) by (unfold changes_cycle; now rewrite M).
  assert (RP : replans (d_sp d) = false) by (unfold replans; now rewrite C, Z).
  destruct (start_live d s ovr d1 W (or_introl RP) V ltac:(rewrite CC; exact I) A E) as [L T].
  destruct (init_rows _ _ _ _ E) as (i1 & i2 & i3 & i4 & i5 & i6 & i7 & i8 & i9 & i10 & i11 & i12 & i13). rewrite CC in i8.
  assert (LL := v_len _ L).
  split; [|split; [exact T|split; [|exact LL]]].
  - constructor; rewrite ?i3, ?i4, ?i8; auto. intros j Hj. rewrite i7 in Hj. unfold misses.
    destruct (Nat.lt_ge_cases j (length (d_rows d1))) as [Q|Q].
    + rewrite i13 by lia. reflexivity.
    + unfold row_at. rewrite nth_overflow by lia. reflexivity.
  - apply live_goes; rewrite ?i3, ?i4; auto. rewrite LL, i8. reflexivity.
Qed.
