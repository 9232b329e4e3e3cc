(** Proofs for C85: the motions that it speaks of exist. *)
From Coq Require Import Lia Lra.
From Verif Require Import Num Numpy ListFacts CycleModel CycleSpec VehModel SimModel SimState WalkModel SimSpec CoastSpec CoastProofs.
From Coq Require Import Ratan.
Local Open Scope R_scope.

Lemma line_lim p w t : derivable_pt_lim (fun t => p - w * t) t (- w).
Proof.
  replace (- w) with (0 - (0 * t + w * 1)) by lra.
  apply (derivable_pt_lim_minus (fun _ => p) (fun t => w * t)); [apply derivable_pt_lim_const|].
  apply (derivable_pt_lim_mult (fun _ => w) (fun t => t)); [apply derivable_pt_lim_const|apply derivable_pt_lim_id].
Qed.
Lemma tan_lim x : - PI / 2 < x < PI / 2 -> derivable_pt_lim tan x (1 + tan x ^ 2).
Proof. intros H. pose proof (derive_pt_tan x H) as E. apply derive_pt_eq_1 in E. exact E. Qed.
Lemma brake_exists a v : a < 0 -> 0 <= v -> exists T pos vel, 0 <= T /\ motion T pos vel (braking a) /\ vel 0 = v /\ vel T = 0.
Proof.
  intros A V. exists (v / - a), (fun t => v * t - - a * (t * t) / 2), (fun t => v - - a * t).
  assert (0 <= v / - a). { unfold Rdiv. apply Rmult_le_pos; [exact V|]. left. apply Rinv_0_lt_compat. lra. }
  split; [exact H|]. split; [|split; [lra|field; lra]].
  intros t _. split.
  - replace (v - - a * t) with ((0 * t + v * 1) - (0 * (t * t) + (- a / 2) * (1 * t + t * 1))) by lra.
    assert (E : derivable_pt_lim (fun t => v * t - (- a / 2) * (t * t)) t ((0 * t + v * 1) - (0 * (t * t) + (- a / 2) * (1 * t + t * 1)))).
    { apply (derivable_pt_lim_minus (fun t => v * t) (fun t => (- a / 2) * (t * t))).
      - apply (derivable_pt_lim_mult (fun _ => v) (fun t => t)); [apply derivable_pt_lim_const|apply derivable_pt_lim_id].
      - apply (derivable_pt_lim_mult (fun _ => - a / 2) (fun t => t * t)); [apply derivable_pt_lim_const|].
        apply (derivable_pt_lim_mult (fun t => t) (fun t => t)); apply derivable_pt_lim_id. }
    intros eps HE. destruct (E eps HE) as [dl HD]. exists dl. intros h H1 H2. specialize (HD h H1 H2).
    replace ((v * (t + h) - - a * ((t + h) * (t + h)) / 2 - (v * t - - a * (t * t) / 2)) / h)
      with ((v * (t + h) - - a / 2 * ((t + h) * (t + h)) - (v * t - - a / 2 * (t * t))) / h) by (field; exact H1). exact HD.
  - unfold braking. pose proof (line_lim v (- a) t) as E. now replace (- - a) with a in E by lra.
Qed.
Lemma roll_exists c1 c2 v0 v1 : 0 < c1 -> 0 < c2 -> 0 <= v1 <= v0 ->
  exists T pos vel, 0 <= T /\ motion T pos vel (fun u => - (c1 + c2 * u ^ 2)) /\ vel 0 = v0 /\ vel T = v1.
Proof.
  intros C1 C2 V. set (s := sqrt (c1 / c2)). set (w := sqrt (c1 * c2)).
  assert (Q1 : 0 < c1 / c2). { unfold Rdiv. apply Rmult_lt_0_compat; [lra|]. now apply Rinv_0_lt_compat. }
  assert (SP : 0 < s) by (apply sqrt_lt_R0; exact Q1).
  assert (WP : 0 < w) by (apply sqrt_lt_R0; nra).
  assert (SW : s * w = c1).
  { unfold s, w. rewrite <- sqrt_mult by nra. replace (c1 / c2 * (c1 * c2)) with (c1 * c1) by (field; lra). apply sqrt_square. lra. }
  assert (S2 : s * s = c1 / c2) by (apply sqrt_sqrt; lra).
  assert (SC : c2 * s = w).
  { apply (Rmult_eq_reg_l s); [|lra]. rewrite SW. replace (s * (c2 * s)) with (c2 * (s * s)) by lra. rewrite S2. field. lra. }
  set (p := atan (v0 / s)). set (q := atan (v1 / s)).
  assert (PQ : q <= p).
  { destruct (Req_dec v0 v1) as [E|E]; [unfold p, q; rewrite E; lra|]. left. apply atan_increasing. unfold Rdiv.
    apply Rmult_lt_compat_r; [now apply Rinv_0_lt_compat|lra]. }
  assert (PB : - PI / 2 < p < PI / 2) by apply atan_bound. assert (QB : - PI / 2 < q < PI / 2) by apply atan_bound.
  set (T := (p - q) / w).
  assert (TW : w * T = p - q) by (unfold T; field; lra).
  assert (HT : 0 <= T). { unfold T, Rdiv. apply Rmult_le_pos; [lra|]. left. now apply Rinv_0_lt_compat. }
  exists T, (fun t => / c2 * ln (cos (p - w * t))), (fun t => s * tan (p - w * t)).
  split; [exact HT|].
  assert (RG : forall t, 0 <= t <= T -> - PI / 2 < p - w * t < PI / 2).
  { intros t Ht. assert (w * t <= w * T) by nra. assert (0 <= w * t) by nra. lra. }
  split; [|split].
  - intros t Ht. pose proof (RG t Ht) as B.
    assert (CP : 0 < cos (p - w * t)) by (apply cos_gt_0; lra). split.
    + assert (E : derivable_pt_lim (fun t => ln (cos (p - w * t))) t (/ cos (p - w * t) * (- sin (p - w * t) * - w))).
      { apply (derivable_pt_lim_comp (fun t => cos (p - w * t)) ln); [|apply derivable_pt_lim_ln; exact CP].
        apply (derivable_pt_lim_comp (fun t => p - w * t) cos); [apply line_lim|apply derivable_pt_lim_cos]. }
      replace (s * tan (p - w * t)) with (0 * ln (cos (p - w * t)) + / c2 * (/ cos (p - w * t) * (- sin (p - w * t) * - w))).
      * apply (derivable_pt_lim_mult (fun _ => / c2) (fun t => ln (cos (p - w * t)))); [apply derivable_pt_lim_const|exact E].
      * unfold tan. set (y := p - w * t) in *. rewrite <- SC. field. split; lra.
    + assert (E : derivable_pt_lim (fun t => tan (p - w * t)) t ((1 + tan (p - w * t) ^ 2) * - w)).
      { apply (derivable_pt_lim_comp (fun t => p - w * t) tan); [apply line_lim|apply tan_lim; exact B]. }
      set (y := tan (p - w * t)) in *.
      replace (- (c1 + c2 * (s * y) ^ 2)) with (0 * y + s * ((1 + y ^ 2) * - w)).
      * apply (derivable_pt_lim_mult (fun _ => s) (fun t => tan (p - w * t))); [apply derivable_pt_lim_const|exact E].
      * replace (c2 * (s * y) ^ 2) with (c2 * s * s * y ^ 2) by ring. rewrite SC. rewrite <- SW. ring.
  - rewrite Rmult_0_r, Rminus_0_r. unfold p. rewrite tan_atan. field. lra.
  - rewrite TW. replace (p - (p - q)) with q by lra. unfold q. rewrite tan_atan. field. lra.
Qed.
(** So for every vehicle on a road that slows it down. *)
Lemma rolling_exists (v : vehicle R) (pp : physprops R) g v0 v1 : 0 < veh_kg v -> 0 < air_density_kg_per_m3 pp * drag_coef v * frontal_area_m2 v ->
  0 < a_grav_mps2 pp * (sin (atan g) + wheel_rr_coef v * cos (atan g)) -> 0 <= v1 <= v0 ->
  exists T pos vel, 0 <= T /\ motion T pos vel (rolling v pp g) /\ vel 0 = v0 /\ vel T = v1 /\
    forall t, 0 < road_force v pp g (vel t).
Proof.
  intros M D G V.
  destruct (roll_exists (a_grav_mps2 pp * (sin (atan g) + wheel_rr_coef v * cos (atan g)))
    (air_density_kg_per_m3 pp * drag_coef v * frontal_area_m2 v / (2 * veh_kg v)) v0 v1) as (T & pos & vel & H1 & H2 & H3 & H4); auto.
  { unfold Rdiv. apply Rmult_lt_0_compat; [exact D|]. apply Rinv_0_lt_compat. lra. }
  exists T, pos, vel. split; [exact H1|]. split; [|split; [exact H3|split; [exact H4|]]].
  - intros t Ht. destruct (H2 t Ht) as [P Q]. split; [exact P|]. unfold rolling, road_force.
    match type of Q with derivable_pt_lim _ _ ?x => match goal with |- derivable_pt_lim _ _ ?y => replace y with x by (field; lra) end end.
    exact Q.
  - intros t. unfold road_force. assert (0 <= vel t ^ 2) by nra.
    replace (veh_kg v * a_grav_mps2 pp * sin (atan g) + wheel_rr_coef v * (veh_kg v * a_grav_mps2 pp * cos (atan g)))
      with (veh_kg v * (a_grav_mps2 pp * (sin (atan g) + wheel_rr_coef v * cos (atan g)))) by ring.
    assert (0 < veh_kg v * (a_grav_mps2 pp * (sin (atan g) + wheel_rr_coef v * cos (atan g)))) by (apply Rmult_lt_0_compat; assumption).
    nra.
Qed.
