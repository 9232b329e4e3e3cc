(** The compiled coasting functions on states that differ at most by fuel. *)
From Verif Require Import Num Numpy ListFacts CycleModel CycleSpec DistProofs VehModel SimModel SimState WalkModel SimSpec WalkSpec CoastSpec
  RustModel RustWalkModel RustPostModel RustCycModel RustModsModel RustSpec RustCycSpec RustModsSpec RustCoastSpec
  FrameProofs WalkProofs StepProofs PlainProofs SimProofs1 SimProofs3 WalkProofs3 RustProofs RustProofs2 RustProofs3 RustCycProofs RustCycProofs2
  RustModsProofs RustModsProofs2 RustCoastProofs RustCoastProofs2 RustCoastProofs3.
From Coq Require Import FunctionalExtensionality Lia.
Local Open Scope R_scope.

Section Kin.
  Variables (dp dr : sdrive R).
  Hypothesis (K : kin dp dr).
  Lemma dvdd_kin v g : r_calc_dvdd dr v g = r_calc_dvdd dp v g.
  Proof. unfold r_calc_dvdd. now rewrite (n_props _ _ K), (n_veh _ _ K). Qed.
  Lemma inner_kin ug : forall n v va gr dt x k vn, r_coast_inner dr ug n v va gr dt x k vn = r_coast_inner dp ug n v va gr dt x k vn.
  Proof.
    induction n as [|n IH]; intros; [reflexivity|]. cbn [r_coast_inner]. cbv zeta. rewrite dvdd_kin, (n_sp _ _ K), (n_cyc0 _ _ K), (n_cache _ _ K).
    match goal with |- bindR ?a _ = _ => destruct a; cbn [bindR]; [|reflexivity] end. apply IH.
  Qed.
  Lemma cloop_kin ug d0 dmax s vb ab : forall f v x sp it ix, r_coast_loop f dr ug d0 dmax s vb ab v x sp it ix = r_coast_loop f dp ug d0 dmax s vb ab v x sp it ix.
  Proof.
    induction f as [|f IH]; intros; [reflexivity|]. cbn [r_coast_loop]. cbv zeta. rewrite (n_len _ _ K), (n_cyc0 _ _ K), (n_cache _ _ K), (n_sp _ _ K).
    match goal with |- (if ?b then _ else _) = _ => destruct b; [|reflexivity] end.
    destruct (r_dt_at _ _); cbn [bindR]; [|reflexivity].
    match goal with |- bindR ?a _ = _ => destruct a; cbn [bindR]; [|reflexivity] end. rewrite dvdd_kin, inner_kin.
    destruct (r_coast_inner _ _ _ _ _ _ _ _ _ _); cbn [bindR]; [|reflexivity].
    match goal with |- (if ?b then _ else _) = _ => destruct b; [reflexivity|] end.
    match goal with |- (if ?b then _ else _) = _ => destruct b; [reflexivity|] end.
    match goal with |- (if ?b then _ else _) = _ => destruct b; [reflexivity|] end. apply IH.
  Qed.
  Lemma ach_kin_at j : mps_ach_at dr j = mps_ach_at dp j.
  Proof. unfold mps_ach_at. now rewrite (sf_spd _ _ (n_rows _ _ K j)). Qed.
  Lemma generate_kin i : r_generate_coast_trajectory dr i = r_generate_coast_trajectory dp i.
  Proof.
    unfold r_generate_coast_trajectory. cbv zeta. rewrite (n_len _ _ K), (n_cyc0 _ _ K), (n_cache _ _ K), (n_sp _ _ K), (n_cyc _ _ K).
    destruct (r_pred i) as [j|]; cbn [bindR]; [|reflexivity]. rewrite ach_kin_at.
    match goal with |- bindR ?a _ = _ => destruct a; cbn [bindR]; [|reflexivity] end.
    destruct (r_trapz_step_start_distance _ _); cbn [bindR]; [|reflexivity].
    match goal with |- match ?l with [] => _ | _ => _ end = _ => destruct l; [reflexivity|] end.
    match goal with |- (if ?b then _ else _) = _ => destruct b; [reflexivity|] end.
    match goal with |- bindR ?a _ = _ => destruct a; cbn [bindR]; [|reflexivity] end.
    match goal with |- bindR ?a _ = _ => destruct a; cbn [bindR]; [|reflexivity] end. now rewrite cloop_kin.
  Qed.
  Lemma estimate_kin i : r_calc_distance_to_stop_coast_v2 dr i = r_calc_distance_to_stop_coast_v2 dp i.
  Proof.
    unfold r_calc_distance_to_stop_coast_v2. cbv zeta.
    rewrite (n_cyc0 _ _ K), (n_cache _ _ K), (n_sp _ _ K), (n_cyc _ _ K), (n_props _ _ K), (n_veh _ _ K), generate_kin. reflexivity.
  Qed.
  Lemma should_kin i : r_should_impose_coast dr i = r_should_impose_coast dp i.
  Proof.
    unfold r_should_impose_coast. cbv zeta. rewrite (n_cyc0 _ _ K), (n_cache _ _ K), (n_sp _ _ K), (n_cyc _ _ K), estimate_kin.
    match goal with |- (if ?b then _ else _) = _ => destruct b; [reflexivity|] end.
    destruct (r_pred i) as [j|]; cbn [bindR]; [|reflexivity]. now rewrite ach_kin_at.
  Qed.
  Lemma rloop_kin i : forall f idx p h v0 vb dt L amn amx b, r_rdv_loop f dr i idx p h v0 vb dt L amn amx b = r_rdv_loop f dp i idx p h v0 vb dt L amn amx b.
  Proof.
    induction f as [|f IH]; intros; [reflexivity|]. cbn [r_rdv_loop]. cbv zeta. rewrite (n_cyc0 _ _ K).
    match goal with |- (if ?b then _ else _) = _ => destruct b; [|reflexivity] end.
    destruct (r_dt_at _ _); cbn [bindR]; [|reflexivity]. destruct (Nat.eqb _ 1).
    - match goal with |- (if ?b then _ else _) = _ => destruct b; [reflexivity|] end. apply IH.
    - match goal with |- bindR ?a _ = _ => destruct a; cbn [bindR]; [|reflexivity] end. apply IH.
  Qed.
  Lemma rendezvous_kin i mn mx : r_calc_next_rendezvous_trajectory dr i mn mx = r_calc_next_rendezvous_trajectory dp i mn mx.
  Proof.
    unfold r_calc_next_rendezvous_trajectory. cbv zeta. rewrite (n_cyc0 _ _ K), (n_cache _ _ K), (n_sp _ _ K), (n_cyc _ _ K).
    destruct (r_pred i) as [j|]; cbn [bindR]; [|reflexivity]. destruct (r_get (mps (d_cyc dp)) j) as [v0|]; [|reflexivity]. cbn [bindR].
    match goal with |- (if ?b then _ else _) = _ => destruct b; [reflexivity|] end.
    match goal with |- (let '(a, b) := ?p in _) = _ => destruct p as [amn amx] end.
    destruct (r_trapz_step_start_distance _ _); cbn [bindR]; [|reflexivity].
    match goal with |- bindR ?a _ = _ => destruct a; cbn [bindR]; [|reflexivity] end.
    match goal with |- (if ?b then _ else _) = _ => destruct b; [reflexivity|] end.
    destruct (r_dt_at _ _); cbn [bindR]; [|reflexivity].
    match goal with |- (if ?b then _ else _) = _ => destruct b; [reflexivity|] end. now rewrite rloop_kin.
  Qed.
  Lemma coast_kin j : coast_at dr j = coast_at dp j.
  Proof. unfold coast_at. now rewrite (sf_ctl _ _ (n_rows _ _ K j)). Qed.
  Lemma candidate_kin p fbs idx n : r_collision_candidate dr p fbs idx n = r_collision_candidate dp p fbs idx n.
  Proof. unfold r_collision_candidate. cbv zeta. rewrite (n_cyc _ _ K), (n_sp _ _ K). reflexivity. Qed.
  Lemma cscan_kin p fbs i : forall f idx b, r_collision_scan f dr p fbs i idx b = r_collision_scan f dp p fbs i idx b.
  Proof.
    induction f as [|f IH]; intros; [reflexivity|]. cbn [r_collision_scan]. cbv zeta. rewrite coast_kin, (n_cyc _ _ K).
    destruct (negb _). { destruct (Nat.eqb idx i); [reflexivity|apply IH]. }
    destruct (Nat.ltb (pi_idx p) idx); [reflexivity|]. destruct (Nat.ltb (pi_idx p - idx + 1) fbs); [reflexivity|].
    destruct (Nat.ltb _ 2); [reflexivity|]. destruct (Nat.leb _ _); [reflexivity|]. rewrite candidate_kin.
    destruct (r_collision_candidate _ _ _ _ _); cbn [bindR]; [|reflexivity]. apply IH.
  Qed.
  Lemma csearch_kin p i : forall l, r_collision_search l dr p i = r_collision_search l dp p i.
  Proof.
    induction l as [|f l IH]; [reflexivity|]. cbn [r_collision_search]. rewrite cscan_kin, (n_len _ _ K).
    destruct (r_collision_scan _ _ _ _ _ _ _) as [[q|]|]; cbn [bindR]; [reflexivity|exact IH|reflexivity].
  Qed.
  Lemma delayed_kin i : r_delayed_speed dr i = r_delayed_speed dp i.
  Proof. unfold r_delayed_speed. now rewrite (n_cyc0 _ _ K), (sf_ctl _ _ (n_rows _ _ K i)). Qed.
End Kin.

(** ** Functions that change the state *)
Definition near_res (n : nat) (a b : Res (sdrive R)) : Prop :=
  match a with Ok x => exists y, b = Ok y /\ near n x y | Err e => b = Err e end.
Definition near_res2 {B} (n : nat) (a b : Res (sdrive R * B)) : Prop :=
  match a with Ok (x, z) => exists y, b = Ok (y, z) /\ near n x y | Err e => b = Err e end.
Lemma until_near n dp dr i a : near n dp dr -> near n (r_coast_until dp i a) (r_coast_until dr i a).
Proof. apply near_ctl. Qed.
Lemma apply_near n dp dr t : near n dp dr -> near_res n (r_apply_coast_trajectory dp t) (r_apply_coast_trajectory dr t).
Proof.
  intros E. pose proof (e_kin _ _ _ E) as K. unfold r_apply_coast_trajectory. cbv zeta. rewrite (n_cyc _ _ K), (n_sp _ _ K).
  match goal with |- context [bindR ?a _] => destruct a as [x|]; [|reflexivity] end. cbn [bindR near_res]. eexists. split; [reflexivity|].
  apply until_near, near_cyc, E.
Qed.
Lemma delay_near n dp dr i : near n dp dr -> near_res n (r_set_coast_delay dp i) (r_set_coast_delay dr i).
Proof.
  intros E. pose proof (e_kin _ _ _ E) as K. unfold r_set_coast_delay. cbv zeta. rewrite (n_cyc _ _ K), (n_sp _ _ K), (n_cache _ _ K), (n_cyc0 _ _ K).
  match goal with |- context [bindR ?a _] => destruct a as [x|]; [|reflexivity] end. cbn [bindR near_res]. eexists. split; [reflexivity|]. apply near_ctl, E.
Qed.
Lemma brake_near n idx : forall ks dp dr, near n dp dr -> near n (r_full_brake dp idx ks) (r_full_brake dr idx ks).
Proof.
  induction ks as [|k ks IH]; intros dp dr E; [exact E|]. cbn [r_full_brake]. cbv zeta. pose proof (e_kin _ _ _ E) as K. rewrite (n_cyc _ _ K), (n_sp _ _ K).
  destruct (Nat.leb _ _); [exact E|]. apply IH, near_upd_ctl, near_mps, E.
Qed.
Lemma capply_near n dp dr q : near n dp dr -> near_res n (r_apply_collision dp q) (r_apply_collision dr q).
Proof.
  intros E. unfold r_apply_collision. cbv zeta. pose proof (brake_near n (pc_idx q) (seq 0 (pc_fbs q)) dp dr E) as B. rewrite (n_cyc _ _ (e_kin _ _ _ B)).
  match goal with |- context [bindR ?a _] => destruct a as [x|]; [|reflexivity] end. cbn [bindR near_res]. eexists. split; [reflexivity|]. apply near_ctl, near_cyc, B.
Qed.
Lemma prevent_near n i : forall f dp dr tol, near n dp dr -> near_res2 n (r_prevent_collisions f dp i tol) (r_prevent_collisions f dr i tol).
Proof.
  induction f as [|f IH]; intros dp dr tol E; [reflexivity|]. cbn [r_prevent_collisions]. cbv zeta. pose proof (e_kin _ _ _ E) as K. rewrite (n_cyc _ _ K), (n_cyc0 _ _ K), (n_sp _ _ K).
  destruct (r_detect_passing _ _ _ _) as [p|]; cbn [bindR]; [|reflexivity]. destruct (negb (has_collision p)). { cbn. eauto. }
  match goal with |- near_res2 _ (if ?b then _ else _) _ => destruct b; [reflexivity|] end. rewrite (csearch_kin _ _ K).
  destruct (r_collision_search _ _ _ _) as [[q|]|]; [| |reflexivity]; cbn [bindR].
  - pose proof (capply_near n dp dr q E) as A. destruct (r_apply_collision dp q) as [x|]; cbn [near_res] in A; [|rewrite A; reflexivity]. destruct A as (y & -> & A). cbn. eauto.
  - match goal with |- near_res2 _ (if ?b then _ else _) _ => destruct b; [cbn; eauto|] end. now apply IH.
Qed.
Lemma start_near n dp dr i : near n dp dr -> near_res n (r_start_coast dp i) (r_start_coast dr i).
Proof.
  intros E. pose proof (e_kin _ _ _ E) as K. unfold r_start_coast. rewrite (ach_kin_at _ _ K), (coast_kin _ _ K), (should_kin _ _ K), (generate_kin _ _ K), (n_sp _ _ K).
  match goal with |- near_res _ (if ?b then _ else _) _ => destruct b; [|cbn; eauto] end.
  destruct (r_should_impose_coast dp i) as [[|]|]; [|cbn; eauto|reflexivity]. cbn [bindR].
  destruct (r_generate_coast_trajectory dp i) as [[q|]|]; [|cbn; eauto|reflexivity]. cbn [bindR].
  assert (A : near_res n (if (rt_dist q <? n0)%num then Ok (r_coast_until dp i 0) else r_apply_coast_trajectory dp q)
                         (if (rt_dist q <? n0)%num then Ok (r_coast_until dr i 0) else r_apply_coast_trajectory dr q)).
  { destruct (rt_dist q <? n0)%num; [cbn; eexists; split; [reflexivity|apply until_near, E]|apply apply_near, E]. }
  destruct (if (rt_dist q <? n0)%num then Ok (r_coast_until dp i 0) else r_apply_coast_trajectory dp q) as [x|]; cbn [near_res] in A; [|rewrite A; reflexivity].
  destruct A as (y & -> & A). cbn [bindR]. destruct (coast_allow_passing (d_sp dp)); [cbn; eauto|].
  pose proof (prevent_near n i 12 x y n1 A) as B. destruct (r_prevent_collisions 12 x i n1) as [[u b]|]; cbn [near_res2] in B; [|rewrite B; reflexivity].
  destruct B as (w & -> & B). cbn. eauto.
Qed.
Lemma adjust_near n dp dr i a : near n dp dr -> near_res2 n (r_adjust_coast dp i a) (r_adjust_coast dr i a).
Proof.
  intros E. pose proof (e_kin _ _ _ E) as K. unfold r_adjust_coast. cbv zeta. rewrite (n_cyc _ _ K), (n_sp _ _ K), (rendezvous_kin _ _ K).
  match goal with |- near_res2 _ (if ?b then _ else _) _ => destruct b end.
  - match goal with |- context [bindR ?a _] => destruct a as [x|]; [|reflexivity] end. cbn [bindR near_res2]. eexists. split; [reflexivity|]. apply until_near, near_cyc, E.
  - destruct (r_calc_next_rendezvous_trajectory _ _ _ _) as [[[[m k] c]|]|]; [|cbn; eauto|reflexivity]. cbn [bindR].
    destruct (r_modify_by_const_jerk_trajectory _ _ _ _ _) as [x|]; cbn [bindR]; [|reflexivity].
    pose proof (until_near n _ _ i (i + m) (near_cyc n _ _ (fst x) E)) as B. set (u := r_coast_until (with_cyc dp (fst x)) i (i + m)) in *. set (w := r_coast_until (with_cyc dr (fst x)) i (i + m)) in *.
    rewrite (n_cyc _ _ (e_kin _ _ _ B)).
    match goal with |- near_res2 _ (if ?b then _ else _) _ => destruct b; [|cbn; eauto] end.
    match goal with |- context [bindR ?a _] => destruct a as [y|]; [|reflexivity] end. cbn [bindR near_res2]. eexists. split; [reflexivity|]. apply until_near, near_cyc, B.
Qed.
