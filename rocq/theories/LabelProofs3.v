(** Consequences of the closed form for plug-in hybrids. *)
From Coq Require Import Lia.
From Verif Require Import Num Numpy ListFacts CycleModel CycleSpec ResampleProofs VehModel SimModel SimState WalkModel FrameProofs WalkProofs WalkProofs2 PostModel UtilModel LabelModel LabelSpec LabelProofs LabelProofs2.
Local Open Scope R_scope.

Lemma div_div a b : a <> 0 -> a / (a / b) = b.
Proof. intros H. unfold Rdiv. rewrite Rinv_mult, Rinv_inv. field_simplify; [|lra]. field. Qed.
Lemma div_inv a b : a / (/ b) = a * b.
Proof. unfold Rdiv. now rewrite Rinv_inv. Qed.
Lemma adj_mpg_pos i s m : 0 < m -> 0 < adj_mpg i s m.
Proof. intros H. unfold adj_mpg. apply Rlt_le_trans with (2 := Rmax_r _ _). lra. Qed.

Section Phev.
  Variables (v : vehicle R) (peak i s : R) (r : phev_runs R) (n : nat) (c : phev_calc R) (uf ue wf we : R).
  Hypothesis C : closed_form v peak i s r n c uf ue wf we.
  Hypothesis HB : 0 < cd_batt r.
  Hypothesis Hmi : 0 < cd_mi r.
  Hypothesis HX : INR n < X_of v r < INR n + 1.
  Hypothesis Hi : 0 < i.
  Hypothesis Hs : 1 < s.
  Let fr := cdFracInTrans c.
  Lemma fr_range : 0 < fr < 1.
  Proof. unfold fr. rewrite (cl_frac _ _ _ _ _ _ _ _ _ _ _ C). lra. Qed.
  Lemma u_order : 0 <= uf <= ue /\ ue <= 1.
  Proof.
    pose proof (cl_uf _ _ _ _ _ _ _ _ _ _ _ C) as H1. pose proof (cl_ue _ _ _ _ _ _ _ _ _ _ _ C) as H2.
    pose proof (uf_between _ _ H1). pose proof (uf_between _ _ H2). assert (uf <= ue) by (eapply uf_mono; [|exact H1|exact H2]; nra). lra.
  Qed.
  Let K := adj_kwh i s (cd_batt r).
  Let Kt := adj_kwh i s (cd_batt r * fr).
  Lemma K_ok : adjusted_kwh (i, s) (cd_batt r) K.
  Proof. apply (adj_kwh_ok (i, s)); cbn; lra. Qed.
  Lemma Kt_ok : adjusted_kwh (i, s) (cd_batt r * fr) Kt.
  Proof. apply (adj_kwh_ok (i, s)); cbn; pose proof fr_range; try lra. apply Rmult_lt_0_compat; lra. Qed.
  Lemma K_range : cd_batt r <= K <= 10 / 7 * cd_batt r.
  Proof. apply (adjusted_kwh_bounds (i, s)); cbn; auto. apply K_ok. Qed.
  Lemma Kt_range : cd_batt r * fr <= Kt <= 10 / 7 * (cd_batt r * fr).
  Proof. pose proof fr_range. apply (adjusted_kwh_bounds (i, s)); cbn; auto; [apply Rmult_lt_0_compat; lra|]. apply Kt_ok. Qed.
  Lemma Kt_le : Kt <= K.
  Proof.
    pose proof fr_range. apply (adjusted_kwh_mono (i, s) (cd_batt r * fr) (cd_batt r)); cbn; [|lra|apply Kt_ok|apply K_ok].
    split; [apply Rmult_lt_0_compat; lra|]. nra.
  Qed.
  Let BF : 0 < cd_batt r * fr.
  Proof. pose proof fr_range. apply Rmult_lt_0_compat; lra. Qed.
  Lemma step_range : 7 / 10 * cd_mi r <= cd_batt r * cd_mi r / K <= cd_mi r.
  Proof.
    pose proof K_range. split.
    - apply Rmult_le_reg_r with K; [lra|]. unfold Rdiv. rewrite (Rmult_assoc (cd_batt r * cd_mi r)), Rinv_l by lra. nra.
    - apply Rmult_le_reg_r with K; [lra|]. unfold Rdiv. rewrite (Rmult_assoc (cd_batt r * cd_mi r)), Rinv_l by lra. nra.
  Qed.
  Lemma last_range : 7 / 10 * cd_mi r <= cd_batt r * fr * cd_mi r / Kt <= cd_mi r.
  Proof.
    pose proof Kt_range. pose proof BF. set (b := cd_batt r * fr) in *. split.
    - apply Rmult_le_reg_r with Kt; [lra|]. unfold Rdiv. rewrite (Rmult_assoc (b * cd_mi r)), Rinv_l by lra. nra.
    - apply Rmult_le_reg_r with Kt; [lra|]. unfold Rdiv. rewrite (Rmult_assoc (b * cd_mi r)), Rinv_l by lra. nra.
  Qed.
  Lemma w_order : 0 <= wf <= we /\ we <= 1 /\ wf <= uf /\ we <= ue.
  Proof.
    pose proof (cl_wf _ _ _ _ _ _ _ _ _ _ _ C) as H1. pose proof (cl_we _ _ _ _ _ _ _ _ _ _ _ C) as H2. fold fr K Kt in H1, H2.
    pose proof (cl_uf _ _ _ _ _ _ _ _ _ _ _ C) as H3. pose proof (cl_ue _ _ _ _ _ _ _ _ _ _ _ C) as H4.
    pose proof step_range. pose proof last_range. pose proof (pos_INR n).
    pose proof (uf_between _ _ H1). pose proof (uf_between _ _ H2).
    assert (wf <= we) by (eapply uf_mono; [|exact H1|exact H2]; nra).
    assert (wf <= uf) by (eapply uf_mono; [|exact H1|exact H3]; nra).
    assert (we <= ue) by (eapply uf_mono; [|exact H2|exact H4]; nra). lra.
  Qed.
  Lemma adj_miles_range : 7 / 10 * ((INR n + 1) * cd_mi r) <=
    INR n * (cd_batt r * cd_mi r / K) + cd_batt r * fr * cd_mi r / Kt <= (INR n + 1) * cd_mi r.
  Proof. pose proof step_range. pose proof last_range. pose proof (pos_INR n). split; nra. Qed.

  Hypothesis Hlong : 1 / 100 <= max_soc v - regen_soc_buffer v peak - cs_min_soc r.
  Lemma ue_pos : 1 <= (INR n + 1) * cd_mi r -> 0 < ue.
  Proof.
    intros H. pose proof u_order. pose proof (cl_ue _ _ _ _ _ _ _ _ _ _ _ C) as H2. destruct (Req_dec ue 0) as [E|]; [|lra]. apply (uf_zero _ _ H2) in E. lra.
  Qed.
  (** Fuel per mile of the lab label. *)
  Lemma lab_fuel_per_mile : 1 <= (INR n + 1) * cd_mi r ->
    / labMpgge c = csFsGal c / cd_mi r * ((1 - fr) * (ue - uf) + (1 - ue)).
  Proof.
    intros H. pose proof (ue_pos H). destruct (cl_yes _ _ _ _ _ _ _ _ _ _ _ C Hlong) as (_ & EU & _).
    rewrite (cl_lab _ _ _ _ _ _ _ _ _ _ _ C), EU. unfold Rdiv at 1. rewrite Rmult_1_l, Rinv_inv.
    rewrite (cl_cdmpg _ _ _ _ _ _ _ _ _ _ _ C), (cl_csmpg _ _ _ _ _ _ _ _ _ _ _ C). fold fr. rewrite div_div by lra.
    replace ((1 - ue) / (cd_mi r / csFsGal c)) with ((1 - ue) * (csFsGal c / cd_mi r)); [field; lra|].
    unfold Rdiv. rewrite Rinv_mult, Rinv_inv. ring.
  Qed.
  Lemma lab_better : 1 <= (INR n + 1) * cd_mi r -> ue < 1 -> 0 < cs_fs_kwh r -> csMpg c <= labMpgge c.
  Proof.
    intros H H1 Hf. pose proof (lab_fuel_per_mile H) as E. pose proof u_order. pose proof fr_range.
    pose proof (cl_csmpg _ _ _ _ _ _ _ _ _ _ _ C) as Ecs. pose proof (cl_gal _ _ _ _ _ _ _ _ _ _ _ C) as Eg.
    assert (Hg : 0 < csFsGal c) by (rewrite Eg; apply Rdiv_lt_0_compat; lra).
    assert (Hq : 0 < csFsGal c / cd_mi r) by (apply Rdiv_lt_0_compat; lra).
    assert (Hz : 0 < (1 - fr) * (ue - uf) + (1 - ue) <= 1) by nra.
    rewrite <- (Rinv_inv (labMpgge c)), E, Ecs.
    replace (cd_mi r / csFsGal c) with (/ (csFsGal c / cd_mi r)) by (field; lra).
    apply Rinv_le_contravar; [apply Rmult_lt_0_compat; lra|]. nra.
  Qed.
  Lemma lab_kwh_range : 1 <= (INR n + 1) * cd_mi r -> cd_batt r * fr <= labKwhPerMile c <= cd_batt r.
  Proof.
    intros H. pose proof (ue_pos H). pose proof u_order. pose proof fr_range. rewrite (cl_labk _ _ _ _ _ _ _ _ _ _ _ C). fold fr.
    pose proof BF. assert (cd_batt r * fr <= cd_batt r) by nra. set (b := cd_batt r * fr) in *.
    split; (apply Rmult_le_reg_r with ue; [lra|]); unfold Rdiv; rewrite (Rmult_assoc (_ + _)), Rinv_l by lra; nra.
  Qed.
  (** Fuel per mile of the adjusted label. *)
  Lemma adj_fuel_per_mile : 0 < we < 1 -> 0 < cs_fs_kwh r ->
    / adjMpgge c = (we - wf) / adj_mpg i s (cd_mi r / (cs_fs_kwh r * (1 - fr) / 33.7)) + (1 - we) / adj_mpg i s (cd_mi r / (cs_fs_kwh r / 33.7)).
  Proof.
    intros Hw Hf. pose proof fr_range. destruct (cl_yes _ _ _ _ _ _ _ _ _ _ _ C Hlong) as (_ & _ & _ & EU).
    rewrite (cl_adj _ _ _ _ _ _ _ _ _ _ _ C), EU. unfold Rdiv at 1. rewrite Rmult_1_l, Rinv_inv.
    rewrite (cl_adjcd _ _ _ _ _ _ _ _ _ _ _ C), (cl_adjcs _ _ _ _ _ _ _ _ _ _ _ C). fold fr.
    assert (P1 : 0 < adj_mpg i s (cd_mi r / (cs_fs_kwh r * (1 - fr) / 33.7))).
    { apply adj_mpg_pos. apply Rdiv_lt_0_compat; [lra|]. apply Rdiv_lt_0_compat; [|lra]. apply Rmult_lt_0_compat; lra. }
    assert (P2 : 0 < adj_mpg i s (cd_mi r / (cs_fs_kwh r / 33.7))).
    { apply adj_mpg_pos. apply Rdiv_lt_0_compat; [lra|]. apply Rdiv_lt_0_compat; lra. }
    set (a := adj_mpg _ _ (cd_mi r / (cs_fs_kwh r * _ / _))) in *. set (b := adj_mpg _ _ _) in *.
    replace (1 / (1 / a * (we - wf)) * we) with (we / (1 / a * (we - wf))) by (unfold Rdiv; ring). rewrite div_div by lra.
    f_equal; field; lra.
  Qed.
  Lemma adj_cs : we < 1 -> 0 < cs_fs_kwh r -> adjCsMpgge c = adj_mpg i s (cd_mi r / (cs_fs_kwh r / 33.7)).
  Proof.
    intros Hw Hf. rewrite (cl_adjcs _ _ _ _ _ _ _ _ _ _ _ C).
    assert (P2 : 0 < adj_mpg i s (cd_mi r / (cs_fs_kwh r / 33.7))).
    { apply adj_mpg_pos. apply Rdiv_lt_0_compat; [lra|]. apply Rdiv_lt_0_compat; lra. }
    field; lra.
  Qed.
  Lemma adj_ess_range : 0 < we -> Kt <= adjEssKwhPerMile c <= K.
  Proof.
    intros H. pose proof w_order. pose proof Kt_le. pose proof Kt_range. rewrite (cl_ess _ _ _ _ _ _ _ _ _ _ _ C). fold fr K Kt.
    split; (apply Rmult_le_reg_r with we; [lra|]); unfold Rdiv; rewrite (Rmult_assoc (_ + _)), Rinv_l by lra; nra.
  Qed.
End Phev.

(** A whole number of charge-depleting cycles makes the array shapes disagree. *)
Lemma frac_int n : (1 <= n)%nat -> @np_mod R RNum (INR n) (nofZ (nfloor (INR n))) = 0.
Proof.
  intros Hn. assert (1 <= INR n) by (apply (le_INR 1); auto).
  assert (E : @nfloor R RNum (INR n) = Z.of_nat n) by (apply nfloor_R_unique; rewrite <- INR_IZR_INZ; lra).
  rewrite E. unfold np_mod.
  assert (E1 : @nfloor R RNum (INR n / INR n) = 1%Z) by (apply nfloor_R_unique; unfold Rdiv; rewrite Rinv_r by lra; lra).
  unR. rewrite <- INR_IZR_INZ. destruct (Reqb_spec (INR n) 0); [lra|]. cbn in E1. rewrite E1. lra.
Qed.
Lemma mapR_err {A} (f : A -> Res R) e l : (forall a x, f a = Err x -> x = e) -> forall x, mapR f l = Err x -> x = e.
Proof.
  intros H. induction l as [|a l IH]; cbn [mapR]; intros x E; [discriminate|]. destruct (f a) as [b|y] eqn:Ea; cbn [bindR] in E.
  - destruct (mapR f l); [discriminate|]. cbn [bindR] in E. injection E as <-. now apply IH.
  - injection E as <-. eauto.
Qed.
Lemma interpf_errs m x : interpf (F := R) m = Err x -> x = ValueError.
Proof.
  destruct (Rle_dec 0 m) as [L1|L1]; [|rewrite interpf_err by lra; congruence].
  destruct (Rle_dec m 1201) as [L2|L2]; [|rewrite interpf_err by lra; congruence].
  destruct (interpf_ok m (conj L1 L2)) as (w & -> & _). discriminate.
Qed.
Lemma cd_miles_len (X a b m : R) k : forall n c before l, cd_miles_from X a b m k before c n = Ok l -> length l = n.
Proof.
  induction n as [|n IH]; intros c before l H; cbn [cd_miles_from] in H; [now injection H as <-|].
  bind_in H x Ex. bind_in H q Hq. injection H as <-. cbn [length]. now rewrite (IH _ _ _ Hq).
Qed.
Lemma bind_value {A B} (r : Res A) (k : A -> Res B) : (forall e, r = Err e -> e = ValueError) -> (forall x, r = Ok x -> k x = Err ValueError) -> bindR r k = Err ValueError.
Proof. intros H1 H2. destruct r as [x|e]; cbn [bindR]; [now apply H2|]. f_equal. now apply H1. Qed.
Lemma pyget_total {A} (l : list A) z e : (- Z.of_nat (length l) <= z < Z.of_nat (length l))%Z -> pyget l z <> Err e.
Proof.
  intros H E. unfold pyget in E. set (k := if (z <? 0)%Z then _ else _) in E.
  assert (Hk : (0 <= k < Z.of_nat (length l))%Z) by (unfold k; destruct (Z.ltb_spec z 0); lia).
  replace (_ && _)%bool with true in E; [|symmetry; apply andb_true_intro; split; [apply Z.leb_le|apply Z.ltb_lt]; lia].
  destruct (nth_error l (Z.to_nat k)) eqn:E1; [discriminate|]. apply nth_error_None in E1. lia.
Qed.
Lemma cd_miles_err (X a b m : R) k n : forall rest c before e, (nfloor X = Z.of_nat n)%Z -> (n + 1 < length k)%nat ->
  cd_miles_from X a b m k before c rest <> Err e.
Proof.
  induction rest as [|rest IH]; intros c before e HX HL H; cbn [cd_miles_from] in H; [discriminate|].
  rewrite HX in H. unR. rewrite nofN_R, <- INR_IZR_INZ in H.
  match type of H with bindR ?r _ = _ => remember r as q eqn:Hq; destruct q as [x|e'] end.
  - cbn [bindR] in H. destruct (cd_miles_from X a b m k x (S c) rest) as [w|w] eqn:Ew; [discriminate|]. exact (IH _ _ _ HX HL Ew).
  - clear H. destruct (Rleb_spec (INR c) (INR n)) as [L|L].
    + apply INR_le in L. destruct (pyget k (Z.of_nat c)) as [y|y] eqn:Ey; [discriminate|]. revert Ey. apply pyget_total. lia.
    + destruct (Reqb_spec (INR c) (INR n + 1)) as [L2|L2]; [|discriminate]. rewrite <- S_INR in L2. apply INR_eq in L2. subst c.
      destruct (pyget k (Z.of_nat (S n))) as [y|y] eqn:Ey; [discriminate|]. revert Ey. apply pyget_total. lia.
Qed.
Lemma np_mul_errs (a b : list R) e : np_mul a b = Err e -> e = ValueError.
Proof. unfold np_mul. destruct (Nat.eqb _ _); [discriminate|]. destruct a as [|x [|y a]], b as [|z [|t b]]; congruence. Qed.
Lemma np_mul_bad (a b : list R) : length a <> length b -> (2 <= length a)%nat -> (2 <= length b)%nat -> np_mul a b = Err ValueError.
Proof.
  intros H Ha Hb. unfold np_mul. destruct (Nat.eqb_spec (length a) (length b)); [congruence|].
  destruct a as [|x [|y a]]; cbn in Ha; try lia. destruct b as [|z [|t b]]; cbn in Hb; try lia. reflexivity.
Qed.
Lemma phev_integer v peak i s r n : X_of v r = INR n -> (1 <= n)%nat -> phev_values v peak i s r = Err ValueError.
Proof.
  intros EX Hn. unfold phev_values. cbv zeta.
  change (total_cd_miles v (cd_batt r) / cd_mi r)%num with (X_of v r). rewrite EX.
  assert (E : @nfloor R RNum (INR n) = Z.of_nat n) by (apply nfloor_R_unique; rewrite <- INR_IZR_INZ; lra).
  assert (E' : @nceil R RNum (INR n) = Z.of_nat n) by (apply nceil_R_unique; rewrite <- INR_IZR_INZ; lra).
  rewrite (frac_int n Hn). unfold floor_nat. rewrite E, E', Nat2Z.id.
  replace (Z.to_nat (Z.of_nat n + 1)) with (S n) by lia.
  apply bind_value; [intros e; apply mapR_err; apply interpf_errs|]. intros U EU.
  assert (LU : length U = S n). { apply mapR_ok, Forall2_len in EU. rewrite map_length, seq_length in EU. lia. }
  apply bind_value; [intros e H; exfalso; revert H; apply pyget_total; rewrite diff_length; lia|]. intros dl _.
  apply bind_value; [intros e H; exfalso; revert H; apply pyget_total; lia|]. intros ul _.
  apply bind_value; [intros e; apply interpf_errs|]. intros lu _.
  apply bind_value; [unfold lmax_arr; destruct U; intros; congruence|]. intros um _.
  apply bind_value; [intros e H; exfalso; revert H; apply pyget_total; cbn; lia|]. intros gc _.
  apply bind_value; [intros e; apply np_mul_errs|]. intros pr _.
  apply bind_value.
  { intros e H. exfalso. revert H. apply (cd_miles_err _ _ _ _ _ n); [exact E|]. rewrite map_length. cbn [length]. rewrite app_length, repeat_length. cbn. lia. }
  intros rest Er. apply cd_miles_len in Er.
  apply bind_value; [unfold lmax_arr; intros; congruence|]. intros ic _.
  apply bind_value; [intros e; apply mapR_err; apply interpf_errs|]. intros W EW.
  assert (LW : length W = S (S n)). { apply mapR_ok, Forall2_len in EW. cbn [length] in EW. lia. }
  apply bind_value; [intros e H; exfalso; revert H; apply pyget_total; rewrite diff_length; lia|]. intros dd _.
  apply bind_value; [intros e H; exfalso; revert H; apply pyget_total; rewrite app_length, repeat_length; cbn; lia|]. intros m2 _.
  apply bind_value; [intros e H; exfalso; revert H; apply pyget_total; rewrite app_length, repeat_length; cbn; lia|]. intros m1 _.
  apply bind_value; [intros e H; exfalso; revert H; apply pyget_total; lia|]. intros u2 _.
  rewrite np_mul_bad; [reflexivity| | |].
  - rewrite map_length. cbn [length]. rewrite app_length, repeat_length, diff_length. cbn. lia.
  - rewrite map_length. cbn [length]. rewrite app_length. cbn. lia.
  - cbn [length]. rewrite diff_length. lia.
Qed.
(** The calculation succeeds whenever the battery is empty before 1201 miles and not at the end of a cycle. *)
Lemma mapR_total {A} (f : A -> Res R) l : (forall a, In a l -> exists b, f a = Ok b) -> exists bs, mapR f l = Ok bs /\ length bs = length l.
Proof.
  induction l as [|a l IH]; intros H; cbn [mapR]; [exists []; auto|]. destruct (H a (or_introl eq_refl)) as (b & ->).
  destruct IH as (bs & -> & Hl); [intros; apply H; now right|]. cbn [bindR]. exists (b :: bs). cbn [length]. auto.
Qed.
Lemma pyget_some {A} (l : list A) z : (- Z.of_nat (length l) <= z < Z.of_nat (length l))%Z -> exists x, pyget l z = Ok x.
Proof. intros H. destruct (pyget l z) as [x|e] eqn:E; [eauto|]. exfalso. revert E. now apply pyget_total. Qed.
Lemma lmax_some (l : list R) : l <> [] -> exists x, lmax_arr l = Ok x.
Proof. destruct l; [congruence|]. cbn. eauto. Qed.
Lemma phev_total v peak i s r n : 0 < cd_batt r -> 0 < cd_mi r -> cs_mi r = cd_mi r -> (1 <= n)%nat -> INR n < X_of v r < INR n + 1 ->
  0 < i -> 1 < s -> (INR n + 1) * cd_mi r <= 1201 -> exists c, phev_values v peak i s r = Ok c.
Proof.
  intros HB Hmi Hcs Hn HX Hi Hs Hlong. unfold phev_values. cbv zeta.
  change (total_cd_miles v (cd_batt r) / cd_mi r)%num with (X_of v r). set (X := X_of v r) in *.
  rewrite (frac_x X n Hn HX). set (fr := X - INR n) in *. unfold floor_nat. rewrite (floor_x X n HX), (ceil_x X n HX), Nat2Z.id.
  assert (Hfr : 0 < fr < 1) by (unfold fr; lra).
  assert (HBf : 0 < cd_batt r * fr) by (apply Rmult_lt_0_compat; lra).
  assert (Q : forall m, 0 <= m <= 1201 -> exists u, interpf m = Ok u) by (intros m Hm; destruct (interpf_ok m Hm) as (u & E & _); eauto).
  replace (Z.to_nat (Z.of_nat n + 1 + 1)) with (S (S n)) by lia.
  assert (Hk : forall k, (k <= S n)%nat -> 0 <= INR k * cd_mi r <= (INR n + 1) * cd_mi r).
  { intros k Hk. pose proof (pos_INR k). assert (INR k <= INR (S n)) by (apply le_INR; auto). rewrite S_INR in *. split; nra. }
  destruct (mapR_total interpf (map (fun k : nat => (nofN k * cd_mi r)%num) (seq 0 (S (S n))))) as (U & -> & LU).
  { intros a Ha. apply in_map_iff in Ha as (k & <- & Ik). apply in_seq in Ik. apply Q. rewrite nofN_R. specialize (Hk k ltac:(lia)). unR. lra. }
  rewrite map_length, seq_length in LU. cbn [bindR].
  destruct (pyget_some (diff U) (-1)) as (dl & ->); [rewrite diff_length; lia|]. cbn [bindR].
  destruct (pyget_some U (-1)) as (ul & ->); [lia|]. cbn [bindR]. rewrite Hcs. destruct label_consts as (Egge & Eepa & _). rewrite Egge, ?Eepa.
  match goal with |- context[interpf (if ?b then ?x else ?y)] => destruct (Q (if b then x else y)) as (lu & ->) end.
  { destruct (_ <? _)%num; [unR; lra|]. unR. rewrite plus_IZR, <- INR_IZR_INZ. specialize (Hk (S n) ltac:(lia)). rewrite S_INR in Hk. lra. }
  cbn [bindR]. destruct (lmax_some U) as (um & ->); [destruct U; [discriminate LU|congruence]|]. cbn [bindR].
  destruct (pyget_some (map (fun x : R => (x / cd_mi r)%num) [(cs_fs_kwh r / 33.7 * (n1 - fr) * dl)%num; (cs_fs_kwh r / 33.7 * (n1 - ul))%num]) (-2)) as (gc & Egc); [cbn; lia|].
  rewrite Egc. cbn [bindR].
  replace (removelast (tl (n0 :: repeat (cd_batt r) n ++ [(cd_batt r * fr)%num; n0]))) with (repeat (cd_batt r) n ++ [cd_batt r * fr]).
  2:{ cbn [tl]. change [(cd_batt r * fr)%num; n0] with ([cd_batt r * fr] ++ [n0]). rewrite app_assoc. now rewrite removelast_last. }
  rewrite np_mul_same by (rewrite !app_length, repeat_length, diff_length; cbn [length]; lia). cbn [bindR].
  set (K := adj_kwh i s (cd_batt r)) in *. set (Kt := adj_kwh i s (cd_batt r * fr)) in *.
  assert (EK : map (fun k : R => if (k =? n0)%num then n0 else (n1 / nmax (n1 / (i + s / (n1 / k * 33.7))) ((n1 - (3 / 10)%R) * (n1 / k * 33.7)) * 33.7)%num)
                 (n0 :: repeat (cd_batt r) n ++ [(cd_batt r * fr)%num; n0]) = kwh_list K Kt n).
  { rewrite (map_ext _ (adj_one i s)) by (intros k; unfold adj_one; unR; rewrite nmax_R; reflexivity).
    cbn [map]. rewrite map_app, map_repeat. cbn [map]. unR. rewrite !adj_one_0. rewrite !adj_one_pos by lra. reflexivity. }
  rewrite EK. clear EK.
  assert (HK : cd_batt r <= K <= 10 / 7 * cd_batt r). { apply (adjusted_kwh_bounds (i, s)); cbn [fst snd]; auto. apply (adj_kwh_ok (i, s)); cbn [fst snd]; lra. }
  assert (HKt : cd_batt r * fr <= Kt <= 10 / 7 * (cd_batt r * fr)). { apply (adjusted_kwh_bounds (i, s)); cbn [fst snd]; auto. apply (adj_kwh_ok (i, s)); cbn [fst snd]; lra. }
  change (cd_batt r * fr)%num with (cd_batt r * fr). change (@n0 R RNum) with 0 in *.
  rewrite (miles_all X n Hn HX). cbn [bindR]. set (step := cd_batt r * cd_mi r / K).
  assert (Hstep : 0 <= step <= cd_mi r).
  { unfold step. split; [apply Rmult_le_pos; [nra|left; apply Rinv_0_lt_compat; lra]|]. apply Rmult_le_reg_r with K; [lra|]. unfold Rdiv. rewrite Rmult_assoc, Rinv_l by lra. nra. }
  assert (Hlast : 0 <= cd_batt r * fr * cd_mi r / Kt <= cd_mi r).
  { split; [apply Rmult_le_pos; [nra|left; apply Rinv_0_lt_compat; lra]|]. apply Rmult_le_reg_r with Kt; [lra|]. unfold Rdiv. rewrite Rmult_assoc, Rinv_l by lra. nra. }
  set (top := INR n * step + cd_batt r * fr * cd_mi r / Kt).
  assert (Hcd : forall x, In x (0 :: map (fun k => INR (S k) * step) (seq 0 n) ++ [top; 0]) -> 0 <= x <= 1201).
  { assert (P := pos_INR n). assert (Ht : 0 <= top <= 1201) by (unfold top; split; nra).
    intros x [<-|Ix]; [lra|]. apply in_app_iff in Ix as [Ix|[<-|[<-|[]]]]; [|exact Ht|lra].
    apply in_map_iff in Ix as (k & <- & Ik). apply in_seq in Ik. specialize (Hk (S k) ltac:(lia)). pose proof (pos_INR (S k)). split; nra. }
  destruct (lmax_some (0 :: map (fun k => INR (S k) * step) (seq 0 n) ++ [top; 0])) as (icm & Eicm); [congruence|]. rewrite Eicm. cbn [bindR].
  assert (Hicm : 0 <= icm <= 1201).
  { apply Hcd. revert Eicm. unfold lmax_arr. intros Eicm. assert (Ei : icm = nmaxl 0 (map (fun k => INR (S k) * step) (seq 0 n) ++ [top; 0])) by congruence. rewrite Ei. clear.
    generalize (map (fun k : nat => INR (S k) * step) (seq 0 n) ++ [top; 0]) as l. intros l.
    assert (G : forall l a, In (nmaxl a l) (a :: l)).
    { clear. induction l as [|b l IH]; intros a; cbn [nmaxl]; [now left|]. unfold nmaxl. cbn [fold_left].
      destruct (IH (nmax a b)) as [E|E]; [|right; right; exact E]. unfold nmaxl in E. rewrite <- E. rewrite nmax_R. unfold Rmax. destruct (Rle_dec a b); cbn; auto. }
    apply G. }
  destruct (mapR_total interpf (0 :: map (fun k => INR (S k) * step) (seq 0 n) ++ [top; 0])) as (W & EW & LW); [intros a Ha; apply Q, Hcd, Ha|].
  rewrite EW. cbn [bindR]. cbn [length] in LW. rewrite app_length, map_length, seq_length in LW. cbn [length] in LW.
  destruct (pyget_some (diff W) (-2)) as (dd & ->); [rewrite diff_length; lia|]. cbn [bindR]. 
  repeat match goal with |- context[pyget (repeat 0 n ++ [?a; ?b]) ?z] =>
    let x := fresh "x" in let E := fresh "E" in destruct (pyget_some (repeat 0 n ++ [a; b]) z) as (x & E); [rewrite app_length, repeat_length; cbn [length]; lia|];
    rewrite E; cbn [bindR]; clear E end.
  destruct (pyget_some W (-2)) as (u2 & ->); [lia|]. cbn [bindR].
  rewrite np_mul_same by (unfold kwh_list; cbn [length]; rewrite app_length, repeat_length, diff_length; cbn [length]; lia). cbn [bindR].
  repeat match goal with |- context[pyget (repeat 0 n ++ [?a; ?b]) ?z] =>
    let x := fresh "x" in let E := fresh "E" in destruct (pyget_some (repeat 0 n ++ [a; b]) z) as (x & E); [rewrite app_length, repeat_length; cbn [length]; lia|];
    rewrite E; cbn [bindR]; clear E end.
  destruct (lmax_some W) as (wm & ->); [destruct W; [discriminate LW|congruence]|]. cbn [bindR].
  match goal with |- context[interpf (if ?b then ?x else ?y)] => destruct (Q (if b then x else y)) as (au & ->) end.
  { destruct (_ <? _)%num; [unR; lra|exact Hicm]. }
  cbn [bindR]. eauto.
Qed.
