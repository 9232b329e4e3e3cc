(** Lemmas for C125-C127. *)
From Coq Require Import Lia.
From Verif Require Import Num Numpy ListFacts CycleModel CycleSpec VehModel VehProofs SimModel SimState WalkModel WalkProofs3 UtilModel UtilSpec UtilProofs
  RustVehModel RustVehProofs RustUtilModel RustUtilProofs RustAirSpec RustAirProofs RustUtilProps RustThermalModel.
Local Open Scope R_scope.

(** ** Properties of the air *)
Lemma some_mu (t : R) : exists m, get_mu t = Ok m /\ 0 < m.
Proof. destruct (C124_defined t) as (_ & _ & (m & E & B) & _). exists m. split; [exact E|lra]. Qed.
Lemma some_pr (t : R) : exists m, get_pr t = Ok m /\ 0 < m.
Proof. destruct (C124_defined t) as (_ & _ & _ & (m & E & B)). exists m. split; [exact E|lra]. Qed.
Lemma some_k (t : R) : exists m, get_k t = Ok m /\ 0 < m.
Proof. destruct (C124_defined t) as ((m & E & B) & _). exists m. split; [exact E|lra]. Qed.
Lemma some_te (h : R) : exists t, get_te_from_h h = Ok t.
Proof. eexists. apply te_lookup. Qed.
Lemma some_h (t : R) : exists h, get_h t = Ok h.
Proof. eexists. unfold get_h. apply air_lookup. reflexivity. Qed.
Global Opaque get_h get_te_from_h get_mu get_pr get_k r_get_rho r_get_fuel_lhv.
Lemma h_low (t : R) : t <= -60 -> get_h t = Ok 338940.
Proof. intros H. destruct (C124_outside t) as [A _]. apply A in H. tauto. Qed.
Lemma h_high (t : R) : 5000 <= t -> get_h t = Ok 6662000.
Proof. intros H. destruct (C124_outside t) as [_ A]. apply A in H. tauto. Qed.
Lemma h_in (t t' y y' : R) : -60 <= t -> t <= t' -> t' <= 5000 -> get_h t = Ok y -> get_h t' = Ok y' -> 1004 * (t' - t) <= y' - y <= 1337 * (t' - t).
Proof.
  intros A B C E E'. destruct (C124_rising t t' A B C) as ((h & h' & D & D' & X) & _).
  assert (h = y) by congruence. assert (h' = y') by congruence. subst. exact X.
Qed.
Lemma h_rise (t t' y y' : R) : t <= t' -> get_h t = Ok y -> get_h t' = Ok y' -> 0 <= y' - y <= 1337 * (t' - t).
Proof.
  intros H E E'. destruct (Rle_lt_dec t' (-60)).
  { rewrite h_low in E, E' by lra. assert (y = 338940) by congruence. assert (y' = 338940) by congruence. lra. }
  destruct (Rle_lt_dec 5000 t).
  { rewrite h_high in E, E' by lra. assert (y = 6662000) by congruence. assert (y' = 6662000) by congruence. lra. }
  pose proof (h_low (-60) ltac:(lra)) as EL. pose proof (h_high 5000 ltac:(lra)) as EH.
  destruct (Rle_lt_dec t (-60)) as [L|L]; destruct (Rle_lt_dec 5000 t') as [U|U].
  - rewrite h_low in E by lra. rewrite h_high in E' by lra. pose proof (h_in (-60) 5000 _ _ ltac:(lra) ltac:(lra) ltac:(lra) EL EH).
    assert (y = 338940) by congruence. assert (y' = 6662000) by congruence. lra.
  - rewrite h_low in E by lra. pose proof (h_in (-60) t' _ _ ltac:(lra) ltac:(lra) ltac:(lra) EL E'). assert (y = 338940) by congruence. lra.
  - rewrite h_high in E' by lra. pose proof (h_in t 5000 _ _ ltac:(lra) ltac:(lra) ltac:(lra) E EH). assert (y' = 6662000) by congruence. lra.
  - pose proof (h_in t t' _ _ ltac:(lra) ltac:(lra) ltac:(lra) E E'). lra.
Qed.

(** ** The engine *)
Lemma pi_pos : 0 < @f64_pi R RNum.
Proof. unfold f64_pi. rewrite lit_R. lra. Qed.
Lemma area_pos (l : R) : 0 <= area_ext l.
Proof. unfold area_ext. unR. apply Rmult_le_pos; [pose proof pi_pos; lra|apply Rpow_py_nonneg]. Qed.
Lemma area_value (l : R) : 0 <= l -> area_ext l = f64_pi * sqrt l.
Proof. intros H. unfold area_ext. unR. replace (2 / 4) with (1 / 2) by lra. now rewrite sqrt_half. Qed.
Lemma params_pos (re : R) : 0 < fst (sphere_params re).
Proof.
  unfold sphere_params. unR. rewrite ?lit_R.
  repeat match goal with |- context [Rltb ?a ?b] => destruct (Rltb_spec a b) end; cbn [fst]; lra.
Qed.
Lemma sphere_value (re film l : R) : 0 < l -> exists q, sphere_htc re film l = Ok q /\ 0 <= q.
Proof.
  intros L. unfold sphere_htc. destruct (some_pr film) as (pr & -> & P). destruct (some_k film) as (k & -> & K). cbn [bindR]. unR.
  eexists. split; [reflexivity|]. pose proof (params_pos re).
  repeat (apply Rmult_le_pos || apply Rpow_py_nonneg); try lra. left. now apply Rinv_0_lt_compat.
Qed.
Lemma tstat_value (te a b lo hi : R) : a < b -> exists y, r_interpolate te [a; b] [lo; hi] false = Ok y /\
  (te <= a -> y = lo) /\ (b <= te -> y = hi) /\ (a <= te <= b -> y = lo + (hi - lo) * ((te - a) / (b - a))).
Proof.
  intros H. eexists. split; [apply r_interp; [cbn; lia|reflexivity|]|].
  { intros i j x y L E1 E2. destruct i as [|[|i]]; [| |destruct i; discriminate]; (destruct j as [|[|j]]; [lia| |destruct j; discriminate]); [|lia].
    cbn in E1, E2. injection E1 as <-. injection E2 as <-. exact H. }
  cbn [combine interp1 interp_from]. unR.
  destruct (Rltb_spec te a); [repeat split; intros; lra|]. destruct (Rltb_spec te b).
  - destruct (Reqb_spec te a) as [->|]; repeat split; intros; try lra; field; lra.
  - repeat split; intros; try lra. assert (te = b) by lra. subst. field. lra.
Qed.
Lemma between_ends (te a b lo hi y : R) : a < b -> (te <= a -> y = lo) -> (b <= te -> y = hi) -> (a <= te <= b -> y = lo + (hi - lo) * ((te - a) / (b - a))) ->
  Rmin lo hi <= y <= Rmax lo hi.
Proof.
  intros H A B C. pose proof (Rmin_l lo hi). pose proof (Rmin_r lo hi). pose proof (Rmax_l lo hi). pose proof (Rmax_r lo hi).
  destruct (Rle_lt_dec te a) as [D|D]; [rewrite (A D); lra|]. destruct (Rle_lt_dec b te) as [E|E]; [rewrite (B E); lra|]. rewrite C by lra.
  set (w := (te - a) / (b - a)). assert (0 <= w <= 1) by (unfold w; apply slope_in; lra).
  assert (lo + (hi - lo) * w = (1 - w) * lo + w * hi) as -> by ring. split; nra.
Qed.
Definition ambient (d : drive R) (s : thermal R) : R := match d_amb d with Some a => a | None => th_amb s end.
Lemma fc_ok pp p d amb s s' : set_fc_thermal pp p d amb s = Ok s' -> exists ad passive htc share,
  s' = mkfc (fc_te s) (fc_coeff s) share (share * (d_kw_in d - d_kw_out d)) (htc * (1 / 1000) * area_ext (vt_fc_l p) * (fc_te s - amb)) (fc_to_htr s) htc (fc_lambda s) ad /\
  share = Rmax (Rmin (vt_fc_comb p * (ad - fc_te s)) 1) 0 /\ (d_mps d < 1 -> passive = vt_fc_htc_stop p) /\
  (1 <= d_mps d -> 0 < vt_fc_l p -> 0 <= passive) /\
  r_interpolate (fc_te s) [vt_tstat_sto p; vt_tstat_sto p + vt_tstat_delta p] [passive; passive * vt_rad_eps p] false = Ok htc.
Proof.
  unfold set_fc_thermal. destruct (some_h amb) as (h & ->). cbn [bindR].
  match goal with |- context [get_te_from_h ?x] => destruct (some_te x) as (ad & ->) end. cbn [bindR].
  match goal with |- context [get_mu ?x] => destruct (some_mu x) as (mu & -> & MU) end. cbn [bindR].
  match goal with |- context [bindR ?x _] => destruct x as [passive|] eqn:EP; [|discriminate] end. cbn [bindR].
  match goal with |- context [bindR ?x _] => destruct x as [htc|] eqn:EH; [|discriminate] end. cbn [bindR].
  intros E. exists ad, passive, htc, (Rmax (Rmin (vt_fc_comb p * (ad - fc_te s)) 1) 0).
  rewrite nmax_R, nmin_R, lit_R in E. unR. unfold tstat_fo in EH. unR.
  split; [congruence|]. split; [reflexivity|]. destruct (Rltb_spec (d_mps d) 1) as [L|L].
  - split; [intros _; congruence|]. split; [lra|exact EH].
  - split; [lra|]. split; [|exact EH]. intros _ LL.
    match type of EP with sphere_htc ?a ?b ?c = _ => destruct (sphere_value a b c LL) as (q & EQ & Q) end. rewrite EQ in EP. injection EP as <-. exact Q.
Qed.
Lemma step_ok pp p d s s' : set_thermal pp p d s = Ok s' ->
  exists fc, (match vt_fc_model p with Some _ => set_fc_thermal pp p d (ambient d s) (th_fc s) = Ok fc | None => fc = th_fc s end) /\
  (match th_hvac s with
   | Some h => exists h', set_cab_thermal p d (ambient d s) (fc_te fc) (fc_to_htr fc) (th_cab s) h = Ok (th_cab s', h', fc_to_htr (th_fc s')) /\ th_hvac s' = Some h'
   | None => th_cab s' = th_cab s /\ th_hvac s' = None /\ fc_to_htr (th_fc s') = fc_to_htr fc end) /\
  (exists fce, fc_te fce = fc_te fc /\ fc_share fce = fc_share fc /\ fc_lambda fce = fc_lambda fc /\ fc_adiabatic fce = fc_adiabatic fc /\
     (if vt_exh_internal p then set_exh_thermal pp p d fce (th_exh s) = Ok (th_exh s') else th_exh s' = th_exh s)) /\
  (if vt_cat_internal p then set_cat_thermal p d (ambient d s) (fc_adiabatic fc) (fc_htc fc) (th_exh s') (th_cat s) = Ok (th_cat s', fc_htc (th_fc s'))
   else th_cat s' = th_cat s /\ fc_htc (th_fc s') = fc_htc fc) /\
  th_amb s' = ambient d s /\ fc_coeff (th_fc s') = fc_coeff fc /\ fc_share (th_fc s') = fc_share fc /\ fc_qdot (th_fc s') = fc_qdot fc /\
  fc_to_amb (th_fc s') = fc_to_amb fc /\ fc_lambda (th_fc s') = fc_lambda fc /\ fc_adiabatic (th_fc s') = fc_adiabatic fc /\
  fc_te (th_fc s') = (match vt_fc_model p with
     | Some _ => fc_te fc + (fc_qdot fc - fc_to_amb fc - fc_to_htr (th_fc s')) / vt_fc_c p * d_dt d | None => fc_te fc end).
Proof.
  unfold set_thermal. fold (ambient d s). set (amb := ambient d s).
  match goal with |- context [bindR ?x _] => destruct x as [fc|] eqn:E1; [|discriminate] end. cbn [bindR].
  match goal with |- context [bindR ?x _] => destruct x as [[[c ho] q]|] eqn:E2; [|discriminate] end. cbn [bindR fst snd].
  set (fce := mkfc _ _ _ _ _ _ _ _ _).
  match goal with |- context [bindR ?x _] => destruct x as [e|] eqn:E3; [|discriminate] end. cbn [bindR].
  match goal with |- context [bindR ?x _] => destruct x as [[k fh]|] eqn:E4; [|discriminate] end. cbn [bindR fst snd].
  intros E. assert (E' : s' = mkth _ _ _ _ _ _) by (symmetry; injection E as E; exact E). clear E. subst s'. exists fc.
  cbn [th_fc th_cab th_hvac th_exh th_cat th_amb fc_te fc_coeff fc_share fc_qdot fc_to_amb fc_to_htr fc_htc fc_lambda fc_adiabatic].
  split; [destruct (vt_fc_model p); congruence|]. split.
  { destruct (th_hvac s) as [h|].
    - destruct (set_cab_thermal p d amb (fc_te fc) (fc_to_htr fc) (th_cab s) h) as [[[c' h'] q']|]; [|discriminate]. cbn [bindR fst snd] in E2.
      exists h'. assert (c' = c /\ Some h' = ho /\ q' = q) as (-> & <- & ->) by (repeat split; congruence). split; reflexivity.
    - assert (c = th_cab s /\ ho = None /\ q = fc_to_htr fc) as (-> & -> & ->) by (repeat split; congruence). repeat split. }
  split. { exists fce. unfold fce at 1 2 3 4. cbn. repeat split. destruct (vt_exh_internal p); congruence. }
  split. { unfold fce in E4. cbn [fc_adiabatic fc_htc] in E4. destruct (vt_cat_internal p); [congruence|]. split; congruence. }
  unfold fce. cbn. repeat split.
Qed.

(** ** The cabin *)
Lemma div_nonneg a b : 0 <= a -> 0 <= b -> 0 <= a / b.
Proof.
  intros A [B| <-]; [|unfold Rdiv; rewrite Rinv_0; lra]. unfold Rdiv. apply Rmult_le_pos; [exact A|]. left. now apply Rinv_0_lt_compat.
Qed.
Lemma turbulent (re : R) : 500000 <= re -> 871 <= 37 / 1000 * Rpow_py re (8 / 10).
Proof.
  intros H. rewrite Rpow_pos by lra. set (y := Rpower re (8 / 10)).
  assert (Y0 : 0 < y) by (unfold y, Rpower; apply exp_pos).
  assert (Y : y ^ 5 = re ^ 4).
  { rewrite <- !Rpower_pow by lra. unfold y. rewrite Rpower_mult. f_equal. cbn [INR]. lra. }
  destruct (Rle_lt_dec 871 (37 / 1000 * y)) as [L|L]; [exact L|exfalso].
  assert (y < 23541) by lra. assert (y ^ 5 <= 23541 ^ 5) by (apply pow_incr; lra). assert (500000 ^ 4 <= re ^ 4) by (apply pow_incr; lra). lra.
Qed.
Lemma cab_ok_g (p : vthermal R) d film : exists g, cab_conductance p d film = Ok g /\
  (0 < vt_cab_len p -> 0 <= vt_cab_width p -> 0 <= vt_cab_r p -> 0 <= vt_cab_htc_stop p -> 0 <= g).
Proof.
  unfold cab_conductance. destruct (some_mu film) as (mu & -> & MU). destruct (some_pr film) as (pr & -> & PR). destruct (some_k film) as (k & -> & K). cbn [bindR].
  eexists. split; [reflexivity|]. intros A B C D. rewrite ?lit_R. unR. set (re := _ / mu).
  match goal with |- context [?n * k / vt_cab_len p] => set (nu := n); assert (NU : 0 <= nu) end.
  { unfold nu. destruct (Rltb_spec re 500000) as [L|L].
    - repeat (apply Rmult_le_pos || apply Rpow_py_nonneg); lra.
    - pose proof (turbulent re ltac:(lra)). nra. }
  assert (AB : 0 <= 1 / 1000 * (vt_cab_len p * vt_cab_width p)) by (assert (0 <= vt_cab_len p * vt_cab_width p) by (apply Rmult_le_pos; lra); lra).
  destruct (Rltb 2 (d_mph d)); (apply div_nonneg; [exact AB|]); (apply Rplus_le_le_0_compat; [|exact C]); (apply div_nonneg; [lra|]); [|exact D].
  apply div_nonneg; [apply Rmult_le_pos; lra|lra].
Qed.
(** What the controller does, by mode; [want] is the heat it asks for. *)
Lemma cab_ok p d amb fte htr c h c' h' q : set_cab_thermal p d amb fte htr c h = Ok (c', h', q) -> exists g,
  cab_conductance p d (1 / 2 * (cab_te c + amb)) = Ok g /\
  cab_te c' = cab_te c + (cab_from_hvac c' - cab_to_amb c') / vt_cab_c p * d_dt d /\ cab_prev c' = cab_te c /\ cab_to_amb c' = g * (cab_te c - amb) /\
  hv_set h' = hv_set h /\ hv_band h' = hv_band h /\ hv_aux_max h' = hv_aux_max h /\ hv_waste h' = hv_waste h /\ hv_max h' = hv_max h /\ hv_frac h' = hv_frac h /\
  (hv_set h - hv_band h <= cab_te c <= hv_set h + hv_band h -> cab_from_hvac c' = 0 /\ cab_aux c' = cab_aux c /\ q = htr /\ hv_i h' = 0) /\
  (hv_set h + hv_band h < cab_te c -> 0 < hv_cop h' /\ cab_aux c' = Rmax (Rmin (- Rmax (- hv_p h' - hv_i h' - hv_d h') (- hv_max h) / hv_cop h') (hv_aux_max h)) 0 /\
     cab_from_hvac c' = - cab_aux c' * hv_cop h' /\ q = htr /\ hv_i h' = Rmin (Rmax (hv_i h + hv_i_gain h * (cab_te c - hv_set h) * d_dt d) 0) (hv_max h)) /\
  (cab_te c < hv_set h - hv_band h -> 0 <= hv_band h -> 0 < hv_cop h' /\ hv_i h' = Rmax (Rmin (hv_i h + hv_i_gain h * (cab_te c - hv_set h) * d_dt d) 0) (- hv_max h) /\ exists want, want = Rmin (- hv_p h' - hv_i h' - hv_d h') (hv_max h) /\
     (if hv_waste h
      then d_bev d = false /\ cab_from_hvac c' = Rmax (Rmin want ((fte - cab_te c) * (1 / 10) * vt_cab_c p / d_dt d)) 0 /\ cab_aux c' = cab_aux c /\ q = cab_from_hvac c'
      else cab_aux c' = Rmax (Rmin (want / hv_cop h') (hv_aux_max h)) 0 /\ cab_from_hvac c' = cab_aux c' * hv_cop h' /\ q = htr)) /\
  (cab_te c < hv_set h - hv_band h \/ hv_set h + hv_band h < cab_te c ->
     hv_cop h' = (cab_te c + 27315 / 100) / Rmax (Rabs (cab_te c - amb)) 5 * hv_frac h /\ hv_p h' = hv_p_gain h * (cab_te c - hv_set h) /\
     hv_d h' = hv_d_gain h * ((cab_te c - cab_prev c) / d_dt d)).
Proof.
  unfold set_cab_thermal. rewrite !lit_R. unR. destruct (cab_ok_g p d (1 / 2 * (cab_te c + amb))) as (g & EG & _). rewrite EG. cbn [bindR]. intros E. exists g.
  split; [reflexivity|].
  assert (M5 : (if Rltb (Rabs (cab_te c - amb)) 5 then 5 else Rabs (cab_te c - amb)) = Rmax (Rabs (cab_te c - amb)) 5).
  { destruct (Rltb_spec (Rabs (cab_te c - amb)) 5); [rewrite Rmax_right by lra|rewrite Rmax_left by lra]; reflexivity. }
  rewrite M5 in E. clear M5. set (ic := hv_i h + _) in *.
  assert (I1 : (if Rltb ic 0 then 0 else ic) = Rmax ic 0) by (destruct (Rltb_spec ic 0); [rewrite Rmax_right by lra|rewrite Rmax_left by lra]; reflexivity).
  assert (I2 : (if Rltb 0 ic then 0 else ic) = Rmin ic 0) by (destruct (Rltb_spec 0 ic); [rewrite Rmin_right by lra|rewrite Rmin_left by lra]; reflexivity).
  rewrite I1, I2 in E. clear I1 I2.
  destruct (Rleb_spec (cab_te c) (hv_set h + hv_band h)) as [A|A]; destruct (Rleb_spec (hv_set h - hv_band h) (cab_te c)) as [B|B]; cbn [andb] in E.
  1: { injection E as <- <- <-. cbn. repeat split; intros; try lra. }
  all: set (cop := _ * hv_frac h) in E; destruct (Rltb_spec 0 cop) as [PC|PC]; [|discriminate]; cbn [assertR bindR] in E;
    destruct (Rltb_spec (hv_set h + hv_band h) (cab_te c)) as [CM|CM]; try lra; rewrite ?nmax_R, ?nmin_R in E.
  1: { destruct (hv_waste h) eqn:W.
    - destruct (d_bev d) eqn:BV; [discriminate|]. cbn [negb assertR bindR] in E. injection E as <- <- <-. cbn. repeat split; intros; try lra.
      eexists. split; [reflexivity|]. rewrite ?nmax_R, ?nmin_R. repeat split.
    - injection E as <- <- <-. cbn. repeat split; intros; try lra. eexists. split; [reflexivity|]. rewrite ?nmax_R, ?nmin_R. repeat split. }
  all: injection E as <- <- <-; cbn; rewrite ?nmax_R, ?nmin_R; repeat split; intros; try lra.
Qed.

(** ** Exhaust port and catalyst *)
Lemma part_of (f C dt gap : R) : 0 < C -> 0 < dt ->
  (0 < gap -> 0 <= f <= C * 1000 * gap / dt) -> (gap <= 0 -> C * 1000 * gap / dt <= f <= 0) ->
  exists w, 0 <= w <= 1 /\ f * dt = w * (C * 1000 * gap).
Proof.
  intros HC HD U L. assert (S1 : C * 1000 * gap / dt * dt = C * 1000 * gap) by (field; lra).
  destruct (Req_dec gap 0) as [->|Z].
  - exists 0. specialize (L ltac:(lra)). assert (C * 1000 * 0 / dt = 0) as Q by (unfold Rdiv; ring). rewrite Q in L. assert (f = 0) by lra. subst. split; [lra|ring].
  - exists (f * dt / (C * 1000 * gap)). assert (NZ : C * 1000 * gap <> 0) by (apply Rmult_integral_contrapositive; split; lra).
    split; [|field; exact Z || (split; lra)].
    destruct (Rlt_le_dec 0 gap) as [P|P].
    + specialize (U P). assert (0 < C * 1000 * gap) by (apply Rmult_lt_0_compat; lra). apply slope_in; [lra|]. split; [|rewrite Rmult_1_l, <- S1]; nra.
    + specialize (L P). assert (P' : gap < 0) by lra. replace (f * dt / (C * 1000 * gap)) with ((- f * dt) / (C * 1000 * - gap)) by (field; split; lra).
      assert (0 < C * 1000 * - gap) by (apply Rmult_lt_0_compat; lra). apply slope_in; [lra|]. split; [nra|]. assert (C * 1000 * - gap = - (C * 1000 * gap / dt * dt)) as -> by lra. nra.
Qed.
Lemma most_sign (C dt gap : R) : 0 < C -> 0 < dt -> (0 <= gap -> 0 <= C * 1000 * gap / dt) /\ (gap <= 0 -> C * 1000 * gap / dt <= 0).
Proof.
  intros A B. assert (0 < C * 1000 / dt) by (apply Rdiv_lt_0_compat; lra). replace (C * 1000 * gap / dt) with (C * 1000 / dt * gap) by (field; lra). split; intros; nra.
Qed.
Lemma limited_flow (a C dt gap : R) : 0 <= a -> 0 < C -> 0 < dt ->
  exists w, 0 <= w <= 1 /\ (if Rltb 0 gap then Rmin (a * gap) (C * 1000 * gap / dt) else Rmax (a * gap) (C * 1000 * gap / dt)) * dt = w * (C * 1000 * gap).
Proof.
  intros A HC HD. destruct (most_sign C dt gap HC HD) as [M1 M2]. destruct (Rltb_spec 0 gap) as [P|P]; (apply part_of; [exact HC|exact HD| |]); intros G; try lra.
  - split; [apply Rmin_glb; [nra|apply M1; lra]|apply Rmin_r].
  - split; [apply Rmax_r|apply Rmax_lub; [nra|apply M2; lra]].
Qed.
Lemma flow_sign (m t t' y y' : R) : 0 <= m -> get_h t = Ok y -> get_h t' = Ok y' -> (0 < t' - t -> 0 <= m * (y' - y)) /\ (t' - t <= 0 -> m * (y' - y) <= 0).
Proof.
  intros M E E'. split; intros G.
  - destruct (h_rise t t' y y' ltac:(lra) E E'). nra.
  - destruct (h_rise t' t y' y ltac:(lra) E' E). nra.
Qed.
Lemma exh_ok pp p d fc s s' : set_exh_thermal pp p d fc s = Ok s' ->
  exh_mdot s' = d_fs_out d / r_get_fuel_lhv pp * (1 + pp_fuel_afr pp * fc_lambda fc) /\ exh_hdot s' = (1 - fc_share fc) * (d_kw_in d - d_kw_out d) /\
  (exh_mdot s' <= 5 / 10000 -> exh_te_in s' = exh_te_in s) /\ (5 / 10000 < exh_mdot s' -> exh_te_in s' <= fc_adiabatic fc) /\
  (5 / 10000 < exh_mdot s' -> exists t, get_te_from_h (exh_hdot s' * 1000 / exh_mdot s') = Ok t /\ exh_te_in s' = Rmin t (fc_adiabatic fc)) /\
  exh_net s' = exh_from s' - exh_to_amb s' /\ exh_te s' = exh_te s + exh_net s' / (vt_exh_c p * 1000) * d_dt d /\
  (0 < vt_exh_c p -> 0 < d_dt d -> 0 <= vt_exh_ha_amb p -> exists w, 0 <= w <= 1 /\ exh_to_amb s' * d_dt d = w * (vt_exh_c p * 1000 * (exh_te s - fc_te fc))) /\
  (0 < vt_exh_c p -> 0 < d_dt d -> 0 <= vt_exh_ha_int p -> 0 <= exh_mdot s' ->
   exists w, 0 <= w <= 1 /\ exh_from s' * d_dt d = w * (vt_exh_c p * 1000 * (exh_te_in s' - exh_te s))).
Proof.
  unfold set_exh_thermal. unR. set (mdot := _ * (1 + _)). set (hdot := (1 - _) * _).
  match goal with |- context [bindR ?x _] => destruct x as [te_in|] eqn:ET; [|discriminate] end. cbn [bindR].
  destruct (some_h te_in) as (yi & EI). destruct (some_h (exh_te s)) as (yt & EY). rewrite EI, EY. cbn [bindR]. rewrite ?nmin_R, ?nmax_R.
  intros E. injection E as <-. cbn [exh_mdot exh_hdot exh_te_in exh_to_amb exh_te exh_from exh_net].
  assert (T : (mdot <= 5 / 10000 -> te_in = exh_te_in s) /\
              (5 / 10000 < mdot -> exists t, get_te_from_h (hdot * 1000 / mdot) = Ok t /\ te_in = Rmin t (fc_adiabatic fc))).
  { rewrite lit_R in ET. destruct (Rltb_spec (5 / 10000) mdot) as [L|L].
    - split; [lra|intros _]. destruct (some_te (hdot * 1000 / mdot)) as (t & Et). rewrite Et in ET. cbn [bindR] in ET. rewrite nmin_R in ET. exists t. split; [exact Et|congruence].
    - split; [intros; congruence|lra]. }
  destruct T as [T1 T2]. split; [reflexivity|]. split; [reflexivity|]. split; [exact T1|].
  split. { intros L. destruct (T2 L) as (t & _ & ->). apply Rmin_r. } split; [exact T2|]. split; [reflexivity|]. split; [reflexivity|]. split.
  - intros C D A. apply limited_flow; assumption.
  - intros C D A M. destruct (most_sign (vt_exh_c p) (d_dt d) (te_in - exh_te s) C D) as [M1 M2]. destruct (flow_sign mdot (exh_te s) te_in yt yi M EY EI) as [F1 F2].
    destruct (Rltb_spec 0 (te_in - exh_te s)) as [P|P]; (apply part_of; [exact C|exact D| |]); intros G; try lra.
    + split; [|apply Rmin_r]. apply Rmin_glb; [apply Rmin_glb; [nra|auto]|apply M1; lra].
    + split; [apply Rmax_r|]. apply Rmax_lub; [apply Rmax_lub; [nra|auto]|apply M2; lra].
Qed.
Lemma cat_ok p d amb ad fh e s s' fh' : set_cat_thermal p d amb ad fh e s = Ok (s', fh') ->
  (d_mps d < 1 -> cat_htc s' = vt_cat_htc_stop p /\ fh' = fh) /\ (1 <= d_mps d -> cat_htc s' = cat_htc s) /\
  (exh_mdot e <= 5 / 10000 -> cat_te_in s' = cat_te_in s) /\
  (5 / 10000 < exh_mdot e -> exists t, get_te_from_h ((exh_hdot e * 1000 - exh_from e) / exh_mdot e) = Ok t /\ cat_te_in s' = Rmin t ad) /\
  cat_qdot s' = 0 /\ cat_net s' = cat_from s' - cat_to_amb s' /\ cat_te s' = cat_te s + cat_net s' * (1 / 1000) / vt_cat_c p * d_dt d /\
  (cat_htc s' = 0 -> 0 < vt_cat_c p -> 0 < d_dt d -> cat_to_amb s' = 0) /\
  (0 < vt_cat_c p -> 0 < d_dt d -> 0 <= cat_htc s' -> exists w, 0 <= w <= 1 /\ cat_to_amb s' * d_dt d = w * (vt_cat_c p * 1000 * (cat_te s - amb))) /\
  (0 < vt_cat_c p -> 0 < d_dt d -> 0 <= exh_mdot e -> cat_te_in s' <= cat_te s \/ 0 <= vt_cab_c p <= vt_cat_c p \/ (0 <= vt_cab_c p /\ exh_mdot e * 1337 * d_dt d <= vt_cat_c p * 1000) ->
   exists w, 0 <= w <= 1 /\ cat_from s' * d_dt d = w * (vt_cat_c p * 1000 * (cat_te_in s' - cat_te s))) /\
  (exists y y', get_h (cat_te s) = Ok y /\ get_h (cat_te_in s') = Ok y' /\
   (cat_te s < cat_te_in s' -> cat_from s' = Rmin (exh_mdot e * (y' - y)) (vt_cab_c p * 1000 * (cat_te_in s' - cat_te s) / d_dt d))).
Proof.
  unfold set_cat_thermal. unR. rewrite ?lit_R.
  match goal with |- context [get_mu ?x] => destruct (some_mu x) as (mu & -> & MU) end. cbn [bindR].
  match goal with |- context [bindR ?x _] => destruct x as [[htc q]|] eqn:EX; [|discriminate] end. cbn [bindR fst snd].
  match goal with |- context [bindR ?x _] => destruct x as [te_in|] eqn:ET; [|discriminate] end. cbn [bindR].
  destruct (some_h te_in) as (yi & EI). destruct (some_h (cat_te s)) as (yt & EY). rewrite EI, EY. cbn [bindR]. rewrite ?nmin_R, ?nmax_R.
  intros E. injection E as <- <-. cbn [cat_qdot cat_htc cat_to_amb cat_te cat_te_in cat_re cat_from cat_net].
  assert (X : (d_mps d < 1 -> htc = vt_cat_htc_stop p /\ q = fh) /\ (1 <= d_mps d -> htc = cat_htc s)).
  { destruct (Rltb_spec (d_mps d) 1) as [L|L]; [split; [intros _; split; congruence|lra]|]. split; [lra|]. intros _.
    match type of EX with bindR ?x _ = _ => destruct x; [|discriminate] end. cbn [bindR] in EX. congruence. }
  destruct X as [X1 X2]. split; [exact X1|]. split; [exact X2|].
  assert (T : (exh_mdot e <= 5 / 10000 -> te_in = cat_te_in s) /\
              (5 / 10000 < exh_mdot e -> exists t, get_te_from_h ((exh_hdot e * 1000 - exh_from e) / exh_mdot e) = Ok t /\ te_in = Rmin t ad)).
  { destruct (Rltb_spec (5 / 10000) (exh_mdot e)) as [L|L].
    - split; [lra|intros _]. destruct (some_te ((exh_hdot e * 1000 - exh_from e) / exh_mdot e)) as (t & Et). rewrite Et in ET. cbn [bindR] in ET. rewrite nmin_R in ET. exists t. split; [exact Et|congruence].
    - split; [intros; congruence|lra]. }
  destruct T as [T1 T2]. split; [exact T1|]. split; [exact T2|]. split; [reflexivity|]. split; [ring|]. split; [reflexivity|].
  split. { intros -> C D. destruct (most_sign (vt_cat_c p) (d_dt d) (cat_te s - amb) C D) as [M1 M2].
    rewrite !Rmult_0_l. destruct (Rltb_spec 0 (cat_te s - amb)); [apply Rmin_left, M1; lra|apply Rmax_left, M2; lra]. }
  split. { intros C D A. apply limited_flow; [apply Rmult_le_pos; [exact A|apply area_pos]|exact C|exact D]. }
  split.
  - intros C D M W. destruct (most_sign (vt_cat_c p) (d_dt d) (te_in - cat_te s) C D) as [M1 M2]. destruct (flow_sign (exh_mdot e) (cat_te s) te_in yt yi M EY EI) as [F1 F2].
    destruct (Rltb_spec 0 (te_in - cat_te s)) as [P|P]; (apply part_of; [exact C|exact D| |]); intros G; try lra.
    + assert (KB : 0 <= vt_cab_c p) by (destruct W as [W|[W|W]]; lra).
      split.
      * apply Rmin_glb; [auto|]. apply div_nonneg; [|lra]. apply Rmult_le_pos; lra.
      * destruct W as [W|[W|[_ W]]]; [lra| |].
        -- eapply Rle_trans; [apply Rmin_r|]. unfold Rdiv. apply Rmult_le_compat_r; [left; now apply Rinv_0_lt_compat|]. nra.
        -- eapply Rle_trans; [apply Rmin_l|]. destruct (h_rise (cat_te s) te_in yt yi ltac:(lra) EY EI) as [HR1 HR2].
           apply (Rmult_le_reg_r (d_dt d)); [exact D|]. replace (vt_cat_c p * 1000 * (te_in - cat_te s) / d_dt d * d_dt d) with (vt_cat_c p * 1000 * (te_in - cat_te s)) by (field; lra).
           assert (exh_mdot e * (yi - yt) <= exh_mdot e * (1337 * (te_in - cat_te s))) by (apply Rmult_le_compat_l; lra). nra.
    + split; [apply Rmax_r|]. apply Rmax_lub; [auto|apply M2; lra].
  - exists yt, yi. split; [reflexivity|]. split; [exact EI|]. intros L. destruct (Rltb_spec 0 (te_in - cat_te s)); [reflexivity|lra].
Qed.

(** ** The whole step *)
Lemma fc_defined pp p d amb s : 0 < vt_tstat_delta p -> 0 < vt_fc_l p \/ d_mps d < 1 -> exists s', set_fc_thermal pp p d amb s = Ok s'.
Proof.
  intros D L. unfold set_fc_thermal. destruct (some_h amb) as (h & ->). cbn [bindR].
  match goal with |- context [get_te_from_h ?x] => destruct (some_te x) as (ad & ->) end. cbn [bindR].
  match goal with |- context [get_mu ?x] => destruct (some_mu x) as (mu & -> & MU) end. cbn [bindR]. unR.
  match goal with |- context [bindR ?x _] => assert (exists y, x = Ok y) as (passive & ->) end.
  { destruct (Rltb_spec (d_mps d) 1); [eexists; reflexivity|]. destruct L as [L|L]; [|lra].
    match goal with |- context [sphere_htc ?a ?b ?c] => destruct (sphere_value a b c L) as (q & -> & _) end. eexists. reflexivity. }
  cbn [bindR]. unfold tstat_fo. unR.
  destruct (tstat_value (fc_te s) (vt_tstat_sto p) (vt_tstat_sto p + vt_tstat_delta p) passive (passive * vt_rad_eps p) ltac:(lra)) as (y & -> & _).
  cbn [bindR]. eexists. reflexivity.
Qed.
Lemma cab_defined p d amb fte htr c h : -27315 / 100 < cab_te c -> 0 < hv_frac h -> hv_waste h = false \/ d_bev d = false ->
  exists r, set_cab_thermal p d amb fte htr c h = Ok r.
Proof.
  intros T FR W. unfold set_cab_thermal. rewrite !lit_R. unR. destruct (cab_ok_g p d (1 / 2 * (cab_te c + amb))) as (g & -> & _). cbn [bindR].
  match goal with |- context [if ?b then _ else _] => destruct b end; [eexists; reflexivity|].
  match goal with |- context [assertR (Rltb 0 ?x)] => destruct (Rltb_spec 0 x) as [C|C] end.
  2: { exfalso. apply C. apply Rmult_lt_0_compat; [|exact FR]. apply Rdiv_lt_0_compat; [lra|]. destruct (Rltb_spec (Rabs (cab_te c - amb)) 5); lra. }
  cbn [assertR bindR]. match goal with |- context [if ?b then _ else _] => destruct b end; [eexists; reflexivity|].
  destruct (hv_waste h); [|eexists; reflexivity]. destruct W as [W|W]; [discriminate|]. rewrite W. cbn [negb assertR bindR]. eexists. reflexivity.
Qed.
Lemma exh_defined pp p d fc s : exists s', @set_exh_thermal R RNum pp p d fc s = Ok s'.
Proof.
  unfold set_exh_thermal. match goal with |- context [bindR ?x _] => assert (exists y, x = Ok y) as (te & ->) end.
  { destruct (_ <? _)%num; [|eexists; reflexivity]. match goal with |- context [get_te_from_h ?x] => destruct (some_te x) as (t & ->) end. eexists. reflexivity. }
  cbn [bindR]. destruct (some_h te) as (y & ->). destruct (some_h (exh_te s)) as (y' & ->). eexists. reflexivity.
Qed.
Lemma cat_defined p d amb ad fh e s : 0 < vt_cat_l p \/ d_mps d < 1 -> exists r, @set_cat_thermal R RNum p d amb ad fh e s = Ok r.
Proof.
  intros L. unfold set_cat_thermal. match goal with |- context [get_mu ?x] => destruct (some_mu x) as (mu & -> & MU) end. cbn [bindR]. unR.
  match goal with |- context [bindR (if Rltb (d_mps d) 1 then ?a else ?b) _] => assert (exists y, (if Rltb (d_mps d) 1 then a else b) = Ok y) as (hq & ->) end.
  { destruct (Rltb_spec (d_mps d) 1); [eexists; reflexivity|]. destruct L as [L|L]; [|lra].
    match goal with |- context [sphere_htc ?a ?b ?c] => destruct (sphere_value a b c L) as (q & -> & _) end. eexists. reflexivity. }
  cbn [bindR]. match goal with |- context [bindR ?x _] => assert (exists y, x = Ok y) as (te & ->) end.
  { destruct (Rltb _ _); [|eexists; reflexivity]. match goal with |- context [get_te_from_h ?x] => destruct (some_te x) as (t & ->) end. eexists. reflexivity. }
  cbn [bindR]. destruct (some_h te) as (y & ->). destruct (some_h (cat_te s)) as (y' & ->). eexists. reflexivity.
Qed.
Lemma step_defined pp p d s : 0 < vt_tstat_delta p -> 0 < vt_fc_l p -> 0 < vt_cat_l p ->
  (forall h, th_hvac s = Some h -> -27315 / 100 < cab_te (th_cab s) /\ 0 < hv_frac h /\ (hv_waste h = false \/ d_bev d = false)) ->
  exists s', set_thermal pp p d s = Ok s'.
Proof.
  intros A B C H. unfold set_thermal. set (amb := match d_amb d with Some a => a | None => th_amb s end).
  match goal with |- context [bindR ?x _] => assert (exists y, x = Ok y) as (fc & ->) end.
  { destruct (vt_fc_model p); [apply fc_defined; auto|eexists; reflexivity]. }
  cbn [bindR]. match goal with |- context [bindR ?x _] => assert (exists y, x = Ok y) as (ch & ->) end.
  { destruct (th_hvac s) as [h|]; [|eexists; reflexivity]. destruct (H h eq_refl) as (H1 & H2 & H3).
    destruct (cab_defined p d amb (fc_te fc) (fc_to_htr fc) (th_cab s) h H1 H2 H3) as (r & ->). eexists. reflexivity. }
  cbn [bindR]. match goal with |- context [bindR ?x _] => assert (exists y, x = Ok y) as (e & ->) end.
  { destruct (vt_exh_internal p); [apply exh_defined|eexists; reflexivity]. }
  cbn [bindR]. match goal with |- context [bindR ?x _] => assert (exists y, x = Ok y) as (k & ->) end.
  { destruct (vt_cat_internal p); [apply cat_defined; auto|eexists; reflexivity]. }
  cbn [bindR]. eexists. reflexivity.
Qed.
(** The size of a limited flow. *)
Lemma limited_size (a C dt gap : R) : 0 <= a -> 0 < C -> 0 < dt ->
  Rabs (if Rltb 0 gap then Rmin (a * gap) (C * 1000 * gap / dt) else Rmax (a * gap) (C * 1000 * gap / dt)) = Rmin (a * Rabs gap) (C * 1000 * Rabs gap / dt).
Proof.
  intros A HC HD. destruct (most_sign C dt gap HC HD) as [M1 M2]. destruct (Rltb_spec 0 gap) as [P|P].
  - rewrite (Rabs_right gap) by lra. apply Rabs_right. apply Rle_ge. apply Rmin_glb; [nra|apply M1; lra].
  - rewrite (Rabs_left1 gap) by lra. rewrite Rabs_left1 by (apply Rmax_lub; [nra|apply M2; lra]). rewrite Ropp_Rmax. f_equal; [ring|field; lra].
Qed.
Lemma limited_size3 (a m u C dt gap : R) : 0 <= a -> 0 <= m -> 0 < C -> 0 < dt -> (0 < gap -> 0 <= m * u) /\ (gap <= 0 -> m * u <= 0) ->
  Rabs (if Rltb 0 gap then Rmin (Rmin (a * gap) (m * u)) (C * 1000 * gap / dt) else Rmax (Rmax (a * gap) (m * u)) (C * 1000 * gap / dt)) =
  Rmin (Rmin (a * Rabs gap) (m * Rabs u)) (C * 1000 * Rabs gap / dt).
Proof.
  intros A M HC HD [S1 S2]. destruct (most_sign C dt gap HC HD) as [M1 M2].
  assert (MU : m * Rabs u = Rabs (m * u)) by (rewrite Rabs_mult, (Rabs_right m) by lra; reflexivity). rewrite MU.
  destruct (Rltb_spec 0 gap) as [P|P].
  - rewrite (Rabs_right gap), (Rabs_right (m * u)) by (try apply Rle_ge; try apply S1; lra). apply Rabs_right. apply Rle_ge. apply Rmin_glb; [apply Rmin_glb; [nra|apply S1; lra]|apply M1; lra].
  - rewrite (Rabs_left1 gap), (Rabs_left1 (m * u)) by (try apply S2; lra).
    rewrite Rabs_left1 by (apply Rmax_lub; [apply Rmax_lub; [nra|apply S2; lra]|apply M2; lra]). rewrite !Ropp_Rmax. f_equal; [f_equal; ring|field; lra].
Qed.
Lemma exh_flows pp p d fc s s' : set_exh_thermal pp p d fc s = Ok s' -> 0 < vt_exh_c p -> 0 < d_dt d -> 0 <= vt_exh_ha_amb p -> 0 <= vt_exh_ha_int p -> 0 <= exh_mdot s' ->
  Rabs (exh_to_amb s') = Rmin (vt_exh_ha_amb p * Rabs (exh_te s - fc_te fc)) (vt_exh_c p * 1000 * Rabs (exh_te s - fc_te fc) / d_dt d) /\
  exists y y', get_h (exh_te s) = Ok y /\ get_h (exh_te_in s') = Ok y' /\
  Rabs (exh_from s') = Rmin (Rmin (vt_exh_ha_int p * Rabs (exh_te_in s' - exh_te s)) (exh_mdot s' * Rabs (y' - y))) (vt_exh_c p * 1000 * Rabs (exh_te_in s' - exh_te s) / d_dt d).
Proof.
  unfold set_exh_thermal. unR. set (mdot := _ * (1 + _)). set (hdot := (1 - _) * _).
  match goal with |- context [bindR ?x _] => destruct x as [te_in|] eqn:ET; [|discriminate] end. cbn [bindR].
  destruct (some_h te_in) as (yi & EI). destruct (some_h (exh_te s)) as (yt & EY). rewrite EI, EY. cbn [bindR]. rewrite ?nmin_R, ?nmax_R.
  intros E. injection E as <-. cbn [exh_mdot exh_hdot exh_te_in exh_to_amb exh_te exh_from exh_net]. intros C D A B M.
  split; [apply limited_size; assumption|]. exists yt, yi. split; [reflexivity|]. split; [exact EI|].
  apply limited_size3; try assumption. apply flow_sign; assumption.
Qed.
Lemma cat_flows p d amb ad fh e s s' fh' : set_cat_thermal p d amb ad fh e s = Ok (s', fh') -> 0 < vt_cat_c p -> 0 < d_dt d -> 0 <= cat_htc s' -> 0 <= exh_mdot e ->
  Rabs (cat_to_amb s') = Rmin (cat_htc s' * area_ext (vt_cat_l p) * Rabs (cat_te s - amb)) (vt_cat_c p * 1000 * Rabs (cat_te s - amb) / d_dt d) /\
  exists y y', get_h (cat_te s) = Ok y /\ get_h (cat_te_in s') = Ok y' /\
  (cat_te_in s' <= cat_te s -> Rabs (cat_from s') = Rmin (exh_mdot e * Rabs (y' - y)) (vt_cat_c p * 1000 * Rabs (cat_te_in s' - cat_te s) / d_dt d)).
Proof.
  unfold set_cat_thermal. unR. rewrite ?lit_R.
  match goal with |- context [get_mu ?x] => destruct (some_mu x) as (mu & -> & MU) end. cbn [bindR].
  match goal with |- context [bindR ?x _] => destruct x as [[htc q]|] eqn:EX; [|discriminate] end. cbn [bindR fst snd].
  match goal with |- context [bindR ?x _] => destruct x as [te_in|] eqn:ET; [|discriminate] end. cbn [bindR].
  destruct (some_h te_in) as (yi & EI). destruct (some_h (cat_te s)) as (yt & EY). rewrite EI, EY. cbn [bindR]. rewrite ?nmin_R, ?nmax_R.
  intros E. injection E as <- <-. cbn [cat_qdot cat_htc cat_to_amb cat_te cat_te_in cat_re cat_from cat_net]. intros C D A M.
  split. { apply limited_size; [apply Rmult_le_pos; [exact A|apply area_pos]|exact C|exact D]. }
  exists yt, yi. split; [reflexivity|]. split; [exact EI|]. intros L.
  destruct (flow_sign (exh_mdot e) (cat_te s) te_in yt yi M EY EI) as [_ F2]. specialize (F2 ltac:(lra)).
  destruct (most_sign (vt_cat_c p) (d_dt d) (te_in - cat_te s) C D) as [_ M2]. specialize (M2 ltac:(lra)).
  destruct (h_rise te_in (cat_te s) yi yt L EI EY) as [HR _].
  destruct (Rltb_spec 0 (te_in - cat_te s)); [lra|]. rewrite (Rabs_left1 (te_in - _)), (Rabs_left1 (yi - yt)) by lra.
  rewrite Rabs_left1 by (apply Rmax_lub; lra). rewrite Ropp_Rmax. f_equal; [ring|field; lra].
Qed.
Lemma cat_coeff p d amb ad fh e s s' fh' : set_cat_thermal p d amb ad fh e s = Ok (s', fh') -> exists mu, get_mu (1 / 2 * (cat_te s + amb)) = Ok mu /\ 0 < mu /\
  cat_re s' = r_get_rho (1 / 2 * (cat_te s + amb)) None * d_mps d * vt_cat_l p / mu /\
  (1 <= d_mps d -> sphere_htc (cat_re s') (1 / 2 * (cat_te s + amb)) (vt_cat_l p) = Ok fh').
Proof.
  unfold set_cat_thermal. unR. rewrite ?lit_R.
  match goal with |- context [get_mu ?x] => destruct (some_mu x) as (mu & EM & MU) end. rewrite EM. cbn [bindR].
  match goal with |- context [bindR ?x _] => destruct x as [[htc q]|] eqn:EX; [|discriminate] end. cbn [bindR fst snd].
  match goal with |- context [bindR ?x _] => destruct x as [te_in|] eqn:ET; [|discriminate] end. cbn [bindR].
  destruct (some_h te_in) as (yi & EI). destruct (some_h (cat_te s)) as (yt & EY). rewrite EI, EY. cbn [bindR].
  intros E. injection E as <- <-. cbn [cat_re]. exists mu. split; [reflexivity|]. split; [exact MU|]. split; [reflexivity|]. intros L.
  destruct (Rltb_spec (d_mps d) 1); [lra|]. match type of EX with bindR ?x _ = _ => destruct x; [|discriminate] end. cbn [bindR] in EX. congruence.
Qed.
