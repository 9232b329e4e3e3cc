(** Lemmas for the label of plug-in hybrids. *)
From Coq Require Import Lia.
From Verif Require Import Num Numpy ListFacts CycleModel CycleSpec ResampleProofs VehModel SimModel SimState WalkModel FrameProofs PostModel UtilModel LabelModel LabelSpec LabelProofs.
Local Open Scope R_scope.

(** *** Lists *)
Lemma mapR_ok {A B} (f : A -> Res B) l l' : mapR f l = Ok l' -> Forall2 (fun a b => f a = Ok b) l l'.
Proof.
  revert l'. induction l as [|a l IH]; intros l' H; cbn [mapR] in H.
  - injection H as <-. constructor.
  - bind_in H b Eb. bind_in H bs Ebs. injection H as <-. constructor; auto.
Qed.
Lemma pyget_snoc1 {A} (l : list A) a : pyget (l ++ [a]) (-1) = Ok a.
Proof.
  destruct l as [|x l]; [reflexivity|]. cbn [app]. rewrite pyget_last. f_equal. apply (last_snoc (x :: l) a).
Qed.
Lemma pyget_snoc2 {A} (l : list A) a b : pyget (l ++ [a; b]) (-2) = Ok a.
Proof.
  unfold pyget. rewrite app_length. cbn [length]. replace (-2 <? 0)%Z with true by reflexivity.
  replace (Z.to_nat (-2 + Z.of_nat (length l + 2))) with (length l) by lia.
  replace (_ && _)%bool with true; [|symmetry; apply andb_true_intro; split; [apply Z.leb_le|apply Z.ltb_lt]; lia].
  rewrite nth_error_app2 by lia. now rewrite Nat.sub_diag.
Qed.
Lemma pyget_snoc1b {A} (l : list A) a b : pyget (l ++ [a; b]) (-1) = Ok b.
Proof. change (l ++ [a; b]) with (l ++ [a] ++ [b]). rewrite app_assoc. apply pyget_snoc1. Qed.
Lemma diff_prepend_app (p : R) l x : diff_prepend p (l ++ [x]) = diff_prepend p l ++ [x - last l p].
Proof.
  revert p. induction l as [|a l IH]; intros p; [reflexivity|]. cbn [app diff_prepend]. rewrite IH.
  replace (last (a :: l) p) with (last l a); [reflexivity|]. destruct l as [|b l]; [reflexivity|]. change (last (a :: b :: l) p) with (last (b :: l) p). apply last_default.
Qed.
Lemma diff_snoc (a : R) l x : diff ((a :: l) ++ [x]) = diff (a :: l) ++ [x - last (a :: l) a].
Proof. cbn [app diff]. rewrite diff_prepend_app.
  replace (last (a :: l) a) with (last l a); [reflexivity|]. destruct l as [|b l]; reflexivity. Qed.
Lemma Rsum_diff a l : Rsum (diff (a :: l)) = last (a :: l) a - a.
Proof. cbn [diff]. rewrite Rsum_diff_prepend. destruct l; reflexivity. Qed.
Lemma zipw_repeat k n (l : list R) : length l = n -> zipw Rmult (repeat k n) l = map (Rmult k) l.
Proof. revert n. induction l as [|x l IH]; intros n <-; [reflexivity|]. cbn. now rewrite IH. Qed.
Lemma Rsum_map_mult k l : Rsum (map (Rmult k) l) = k * Rsum l.
Proof. induction l as [|a l IH]; [unfold Rsum; cbn; lra|]. cbn [map]. rewrite !Rsum_cons, IH. lra. Qed.
Lemma zipw_app {A B C} (f : A -> B -> C) a1 b1 a2 b2 : length a1 = length b1 -> zipw f (a1 ++ a2) (b1 ++ b2) = zipw f a1 b1 ++ zipw f a2 b2.
Proof. revert b1. induction a1 as [|x a1 IH]; intros [|y b1] H; try discriminate; [reflexivity|]. cbn in *. now rewrite IH by lia. Qed.
Lemma nmaxl_R a l : (forall x, In x (a :: l) -> x <= @nmaxl R RNum a l) /\ In (@nmaxl R RNum a l) (a :: l).
Proof.
  unfold nmaxl. revert a. induction l as [|b l IH]; intros a; cbn [fold_left].
  - split; [intros x [<-|[]]; lra|now left].
  - destruct (IH (nmax a b)) as [H1 H2]. rewrite nmax_R in *. split.
    + intros x [<-|[<-|Hx]].
      * apply Rle_trans with (Rmax a b); [apply Rmax_l|]. apply H1. now left.
      * apply Rle_trans with (Rmax a b); [apply Rmax_r|]. apply H1. now left.
      * apply H1. now right.
    + destruct H2 as [E|H2]; [|right; now right]. rewrite <- E. unfold Rmax. destruct (Rle_dec a b); [right; now left|now left].
Qed.
Lemma lmax_arr_is (l : list R) m : In m l -> (forall x, In x l -> x <= m) -> lmax_arr l = Ok m.
Proof.
  destruct l as [|a l]; intros Hm Hl; [destruct Hm|]. unfold lmax_arr. f_equal. destruct (nmaxl_R a l) as [H1 H2].
  apply Rle_antisym; [now apply Hl|now apply H1].
Qed.
Lemma np_mul_same (a b : list R) : length a = length b -> np_mul a b = Ok (zipw Rmult a b).
Proof. intros H. unfold np_mul. rewrite H, Nat.eqb_refl. unR. reflexivity. Qed.
Lemma F2_app_inv {A B} (P : A -> B -> Prop) l1 l2 l' : Forall2 P (l1 ++ l2) l' -> exists m1 m2, l' = m1 ++ m2 /\ Forall2 P l1 m1 /\ Forall2 P l2 m2.
Proof. intros H. apply Forall2_app_inv_l in H as (m1 & m2 & H1 & H2 & ->). eauto. Qed.

(** *** The number of charge-depleting cycles *)
Section Cycs.
  Variables (x : R) (n : nat).
  Hypothesis Hn : (1 <= n)%nat.
  Hypothesis Hx : INR n < x < INR n + 1.
  Lemma floor_x : nfloor x = Z.of_nat n.
  Proof. apply nfloor_R_unique. rewrite <- INR_IZR_INZ. lra. Qed.
  Lemma ceil_x : nceil x = (Z.of_nat n + 1)%Z.
  Proof. apply nceil_R_unique. rewrite plus_IZR, <- INR_IZR_INZ. lra. Qed.
  Lemma frac_x : np_mod x (nofZ (nfloor x)) = x - INR n.
  Proof.
    assert (1 <= INR n) by (apply (le_INR 1); auto).
    assert (E1 : @nfloor R RNum (x / INR n) = 1%Z).
    { apply nfloor_R_unique. split.
      - apply Rmult_le_reg_r with (INR n); [lra|]. unfold Rdiv. rewrite Rmult_assoc, Rinv_l by lra. lra.
      - apply Rmult_lt_reg_r with (INR n); [lra|]. unfold Rdiv. rewrite Rmult_assoc, Rinv_l by lra. lra. }
    rewrite floor_x. unfold np_mod. unR. rewrite <- INR_IZR_INZ.
    destruct (Reqb_spec (INR n) 0) as [E|_]; [lra|]. cbn in E1. rewrite E1. lra.
  Qed.
End Cycs.

(** *** The adjusted distances *)
Definition kwh_list (K Kt : R) (n : nat) : list R := 0 :: repeat K n ++ [Kt; 0].
Lemma kwh_get K Kt n c : (1 <= c <= n)%nat -> pyget (kwh_list K Kt n) (Z.of_nat c) = Ok K.
Proof.
  intros H. unfold kwh_list. rewrite pyget_nth with (d := 0) by (cbn [length]; rewrite app_length, repeat_length; cbn; lia).
  f_equal. destruct c as [|c]; [lia|]. cbn [nth]. rewrite app_nth1 by (rewrite repeat_length; lia). apply nth_repeat_lt || (rewrite nth_indep with (d' := K) by (rewrite repeat_length; lia); apply nth_repeat).
Qed.
Lemma kwh_get_t K Kt n : pyget (kwh_list K Kt n) (Z.of_nat (S n)) = Ok Kt.
Proof.
  unfold kwh_list. rewrite pyget_nth with (d := 0) by (cbn [length]; rewrite app_length, repeat_length; cbn; lia).
  f_equal. cbn [nth]. rewrite app_nth2 by (rewrite repeat_length; lia). rewrite repeat_length, Nat.sub_diag. reflexivity.
Qed.
Section Miles.
  Variables (X : R) (n : nat).
  Hypothesis Hn : (1 <= n)%nat.
  Hypothesis HX : INR n < X < INR n + 1.
  Variables (B T mi K Kt : R).
  Let kwh := kwh_list K Kt n.
  Let step := B * mi / K.
  Lemma miles_full m : forall c before rest, (1 <= c)%nat -> (c + m <= n + 1)%nat ->
    cd_miles_from X B T mi kwh before c (m + rest) =
    do r <- cd_miles_from X B T mi kwh (before + INR m * step) (c + m) rest; Ok (map (fun k => before + INR (S k) * step) (seq 0 m) ++ r).
  Proof.
    induction m as [|m IH]; intros c before rest Hc Hm.
    - cbn [Nat.add]. rewrite Nat.add_0_r. replace (before + INR 0 * step) with before by (cbn; lra).
      destruct (cd_miles_from X B T mi kwh before c rest); reflexivity.
    - cbn [Nat.add cd_miles_from]. rewrite (floor_x X n HX). unR. rewrite nofN_R, <- INR_IZR_INZ.
      assert (INR c <= INR n) by (apply le_INR; lia). destruct (Rleb_spec (INR c) (INR n)); [|lra].
      unfold kwh. rewrite kwh_get by lia. cbn [bindR]. fold step. fold kwh. rewrite IH by lia.
      replace (before + step + INR m * step) with (before + INR (S m) * step) by (rewrite S_INR; lra).
      replace (S c + m)%nat with (c + S m)%nat by lia.
      destruct (cd_miles_from X B T mi kwh (before + INR (S m) * step) (c + S m) rest) as [q|]; [|reflexivity].
      cbn [bindR seq map app]. f_equal. f_equal; [cbn; lra|]. f_equal. rewrite <- seq_shift, map_map. apply map_ext. intros k. rewrite !S_INR. lra.
  Qed.
  Lemma miles_all : cd_miles_from X B T mi kwh 0 1 (Z.to_nat (Z.of_nat n + 1) + 1) =
    Ok (map (fun k => INR (S k) * step) (seq 0 n) ++ [INR n * step + T * mi / Kt; 0]).
  Proof.
    replace (Z.to_nat (Z.of_nat n + 1) + 1)%nat with (n + 2)%nat by lia.
    rewrite miles_full by lia. cbn [Nat.add cd_miles_from]. rewrite (floor_x X n HX). unR. rewrite !nofN_R, <- INR_IZR_INZ.
    destruct (Rleb_spec (INR (S n)) (INR n)) as [L|_]; [rewrite S_INR in L; lra|].
    destruct (Reqb_spec (INR (S n)) (INR n + 1)) as [_|L]; [|rewrite S_INR in L; lra].
    unfold kwh. rewrite kwh_get_t. cbn [bindR].
    destruct (Rleb_spec (INR (S (S n))) (INR n)) as [L|_]; [rewrite !S_INR in L; lra|].
    destruct (Reqb_spec (INR (S (S n))) (INR n + 1)) as [L|_]; [rewrite !S_INR in L; lra|].
    cbn [bindR]. f_equal. f_equal; [apply map_ext; intros; lra|]. f_equal. lra.
  Qed.
End Miles.

(** *** The closed form *)
Lemma map_repeat {A B} (f : A -> B) a n : map f (repeat a n) = repeat (f a) n.
Proof. induction n; cbn; congruence. Qed.
Definition adj_one (i s k : R) : R :=
  if Reqb k 0 then 0 else 1 / Rmax (1 / (i + s / (1 / k * 33.7))) ((1 - 3 / 10) * (1 / k * 33.7)) * 33.7.
Lemma adj_one_0 i s : adj_one i s 0 = 0.
Proof. unfold adj_one. destruct (Reqb_spec 0 0); [reflexivity|congruence]. Qed.
Lemma adj_one_pos i s k : 0 < k -> adj_one i s k = adj_kwh i s k.
Proof.
  intros H. unfold adj_one. destruct (Reqb_spec k 0); [lra|]. unfold adj_kwh. destruct label_consts as (-> & -> & _). unR. rewrite nmax_R.
  f_equal. f_equal. f_equal. lra.
Qed.
Lemma Forall2_len {A B} (P : A -> B -> Prop) l l' : Forall2 P l l' -> length l = length l'.
Proof. induction 1; cbn; congruence. Qed.
(** The images of a nondecreasing sequence of distances, and their last. *)
Lemma uf_seq (f : nat -> R) m U : Forall2 (fun a b => interpf a = Ok b) (map f (seq 0 (S m))) U -> f O = 0 ->
  (forall j k, (j <= k)%nat -> f j <= f k) ->
  exists l, U = 0 :: l /\ length l = m /\ utility_factor (f m) (last U 0) /\ (forall x, In x U -> 0 <= x <= last U 0).
Proof.
  intros H H0 Hm. revert U H. induction m as [|m IH]; intros U H.
  - cbn [seq map] in H. inversion H as [|? b ? l' Hb Hl]; subst. inversion Hl; subst. rewrite H0 in Hb. apply interpf_spec in Hb.
    assert (b = 0) by (apply (uf_zero _ _ Hb); lra). subst b. exists []. rewrite H0. cbn [last]. repeat split; auto; destruct H1 as [<-|[]]; lra.
  - rewrite seq_S, map_app in H. apply F2_app_inv in H as (m1 & m2 & -> & H1 & H2). destruct (IH m1 H1) as (l & E & Hl & Hu & Hx).
    cbn [map] in H2. inversion H2 as [|? b ? l' Hb Hl']; subst. inversion Hl'; subst. apply interpf_spec in Hb. cbn [Nat.add] in Hb.
    exists (l ++ [b]). rewrite last_snoc. repeat split; auto.
    + now rewrite app_length, Nat.add_1_r.
    + apply in_app_iff in H as [I|[<-|[]]]; [apply Hx; auto|]. apply (uf_between _ _ Hb).
    + assert (Q : last (0 :: l) 0 <= b) by (eapply uf_mono; [|exact Hu|exact Hb]; apply Hm; lia).
      apply in_app_iff in H as [I|[<-|[]]]; [|lra]. apply Rle_trans with (2 := Q). apply Hx; auto.
Qed.
Lemma app_len_inj {A} (a1 b1 a2 b2 : list A) : a1 ++ a2 = b1 ++ b2 -> length a1 = length b1 -> a1 = b1 /\ a2 = b2.
Proof. revert b1. induction a1 as [|x a1 IH]; intros [|y b1] H HL; try discriminate; [auto|]. cbn in *. injection H as -> H. destruct (IH b1 H) as [-> ->]; [lia|auto]. Qed.
Definition adj_mpg (i s m : R) : R := Rmax (1 / (i + s / m)) (m * (7 / 10)).
Definition X_of (v : vehicle R) (r : phev_runs R) : R := (max_soc v - min_soc v) * ess_max_kwh v / cd_batt r / cd_mi r.
Record closed_form (v : vehicle R) (peak i s : R) (r : phev_runs R) (n : nat) (c : phev_calc R) (uf ue wf we : R) : Prop := mk_closed {
  cl_uf : utility_factor (INR n * cd_mi r) uf;
  cl_ue : utility_factor ((INR n + 1) * cd_mi r) ue;
  cl_wf : utility_factor (INR n * (cd_batt r * cd_mi r / adj_kwh i s (cd_batt r))) wf;
  cl_we : utility_factor (INR n * (cd_batt r * cd_mi r / adj_kwh i s (cd_batt r)) +
                          cd_batt r * cdFracInTrans c * cd_mi r / adj_kwh i s (cd_batt r * cdFracInTrans c)) we;
  cl_cycs : cdCycs c = X_of v r;
  cl_frac : cdFracInTrans c = X_of v r - INR n;
  cl_gal : csFsGal c = cs_fs_kwh r / 33.7;
  cl_csmpg : csMpg c = cd_mi r / csFsGal c;
  cl_cdmpg : cdMpg c = ue / (csFsGal c * (1 - cdFracInTrans c) * (ue - uf) / cd_mi r);
  cl_no : max_soc v - regen_soc_buffer v peak - cs_min_soc r < 1 / 100 ->
          cdMiles c = 1000 /\ utility_factor 1000 (labUf c) /\ adjCdMiles c = 1000 /\ utility_factor 1000 (adjUf c);
  cl_yes : 1 / 100 <= max_soc v - regen_soc_buffer v peak - cs_min_soc r ->
          cdMiles c = (INR n + 1) * cd_mi r /\ labUf c = ue /\
          adjCdMiles c = INR n * (cd_batt r * cd_mi r / adj_kwh i s (cd_batt r)) +
                          cd_batt r * cdFracInTrans c * cd_mi r / adj_kwh i s (cd_batt r * cdFracInTrans c) /\ adjUf c = we;
  cl_lab : labMpgge c = 1 / (labUf c / cdMpg c + (1 - labUf c) / csMpg c);
  cl_labk : labKwhPerMile c = (cd_batt r * uf + cd_batt r * cdFracInTrans c * (ue - uf)) / ue;
  cl_adjcd : adjCdMpgge c = 1 / (1 / adj_mpg i s (cd_mi r / (cs_fs_kwh r * (1 - cdFracInTrans c) / 33.7)) * (we - wf)) * we;
  cl_adjcs : adjCsMpgge c = 1 / (1 / adj_mpg i s (cd_mi r / (cs_fs_kwh r / 33.7)) * (1 - we)) * (1 - we);
  cl_adj : adjMpgge c = 1 / (adjUf c / adjCdMpgge c + (1 - adjUf c) / adjCsMpgge c);
  cl_ess : adjEssKwhPerMile c = (adj_kwh i s (cd_batt r) * wf + adj_kwh i s (cd_batt r * cdFracInTrans c) * (we - wf)) / we;
  cl_kwh : adjKwhPerMile c = adjEssKwhPerMile c / chg_eff v }.

Lemma phev_closed v peak i s r n c : phev_values v peak i s r = Ok c -> 0 < cd_batt r -> 0 < cd_mi r -> cs_mi r = cd_mi r ->
  (1 <= n)%nat -> INR n < X_of v r < INR n + 1 -> 0 < i -> 1 < s -> exists uf ue wf we, closed_form v peak i s r n c uf ue wf we.
Proof.
  intros H HB Hmi Hcs Hn HX Hi Hs. unfold phev_values in H.
  change (total_cd_miles v (cd_batt r) / cd_mi r)%num with (X_of v r) in H. set (X := X_of v r) in *.
  rewrite (frac_x X n Hn HX) in H. set (fr := X - INR n) in *. unfold floor_nat in H. rewrite (floor_x X n HX), (ceil_x X n HX), Nat2Z.id in H. cbv zeta in H.
  bind_in H U EU. bind_in H dl Edl. bind_in H ul Eul. bind_in H lu Elu. bind_in H um Eum. bind_in H gc Egc. bind_in H pr Epr. bind_in H rest Erest.
  bind_in H icm Eicm. bind_in H W EW. bind_in H dd Edd. bind_in H m2 Em2. bind_in H m1 Em1. bind_in H u2 Eu2. bind_in H ap Eap. bind_in H g2 Eg2. bind_in H g1 Eg1.
  bind_in H wm Ewm. bind_in H au Eau.
  match type of H with Ok ?x = Ok _ => assert (Hc : c = x) by congruence end. clear H.
  assert (Hfr : 0 < fr < 1) by (unfold fr; lra).
  assert (HBf : 0 < cd_batt r * fr) by (apply Rmult_lt_0_compat; lra).
  rewrite Hcs in *. destruct label_consts as (Egge & Eepa & _). rewrite Egge, ?Eepa in *.
  (* lab utility factors *)
  replace (Z.to_nat (Z.of_nat n + 1 + 1)) with (S (S n)) in EU by lia.
  assert (EU' := mapR_ok _ _ _ EU).
  assert (Q : exists l, U = 0 :: l /\ length l = S n /\ utility_factor (INR (S n) * cd_mi r) (last U 0) /\ (forall x, In x U -> 0 <= x <= last U 0)).
  { apply (uf_seq (fun k => INR k * cd_mi r) (S n)).
    - revert EU'. rewrite (map_ext (fun k => (nofN k * cd_mi r)%num) (fun k => INR k * cd_mi r)); [auto|]. intros k. now rewrite nofN_R.
    - cbn. lra.
    - intros j k Hjk. apply Rmult_le_compat_r; [lra|]. now apply le_INR. }
  destruct Q as (l & El & Hl & Hue & HUx).
  assert (Hsn : exists L ue, U = L ++ [ue] /\ length L = S n).
  { destruct (exists_last (l := U)) as (L & ue & EL); [subst U; discriminate|]. exists L, ue. split; [auto|].
    apply (f_equal (@length R)) in EL. rewrite El, app_length in EL. cbn [length] in EL. lia. }
  destruct Hsn as (L & ue & ELU & HLl).
  assert (QL : exists l, L = 0 :: l /\ length l = n /\ utility_factor (INR n * cd_mi r) (last L 0) /\ (forall x, In x L -> 0 <= x <= last L 0)).
  { apply (uf_seq (fun k => INR k * cd_mi r) n).
    - rewrite ELU in EU'. rewrite seq_S, map_app in EU'. apply Forall2_app_inv_r in EU' as (a1 & a2 & F1 & F2 & Ea).
      assert (La : length a1 = S n) by (apply Forall2_len in F1; lia).
      assert (a1 = map (fun k : nat => (nofN k * cd_mi r)%num) (seq 0 (S n))).
      { apply app_len_inj in Ea as [Ea _]; [auto|]. rewrite map_length, seq_length. lia. }
      subst a1. revert F1. rewrite (map_ext (fun k => (nofN k * cd_mi r)%num) (fun k => INR k * cd_mi r)); [auto|]. intros k. now rewrite nofN_R.
    - cbn. lra.
    - intros j k Hjk. apply Rmult_le_compat_r; [lra|]. now apply le_INR. }
  destruct QL as (l2 & El2 & Hl2 & Huf & _). set (uf := last L 0) in *.
  assert (Elast : last U 0 = ue) by (rewrite ELU; apply last_snoc). rewrite Elast in *.
  assert (Ediff : diff U = diff L ++ [ue - uf]). { rewrite ELU, El2. rewrite diff_snoc. f_equal. f_equal. f_equal. unfold uf. rewrite El2. apply last_default. }
  rewrite Ediff in Edl, Epr. rewrite pyget_snoc1 in Edl. rewrite ELU in Eul. rewrite pyget_snoc1 in Eul.
  assert (Edl' : dl = ue - uf) by congruence. assert (Eul' : ul = ue) by congruence. clear Edl Eul. subst dl ul.
  rewrite (lmax_arr_is U ue) in Eum; [|rewrite ELU; apply in_or_app; right; now left|intros x Ix; apply (HUx x Ix)].
  assert (Eum' : um = ue) by congruence. clear Eum. subst um.
  cbn [map] in Egc. match type of Egc with pyget [?a; ?b] _ = _ => change (pyget ([] ++ [a; b]) (-2) = Ok gc) in Egc end. rewrite pyget_snoc2 in Egc.
  assert (Egc' : gc = cs_fs_kwh r / 33.7 * (1 - fr) * (ue - uf) / cd_mi r) by (unR; congruence). clear Egc. subst gc.
  (* lab kWh *)
  assert (LdL : length (diff L) = n) by (rewrite diff_length; lia).
  replace (removelast (tl (n0 :: repeat (cd_batt r) n ++ [(cd_batt r * fr)%num; n0]))) with (repeat (cd_batt r) n ++ [cd_batt r * fr]) in Epr.
  2:{ cbn [tl]. change [(cd_batt r * fr)%num; n0] with ([cd_batt r * fr] ++ [n0]). rewrite app_assoc. now rewrite removelast_last. }
  rewrite np_mul_same in Epr by (rewrite !app_length, repeat_length; cbn [length]; lia).
  rewrite zipw_app in Epr by (rewrite repeat_length; lia). rewrite zipw_repeat in Epr by auto.
  assert (Epr' : Rsum pr = cd_batt r * uf + cd_batt r * fr * (ue - uf)).
  { match type of Epr with Ok ?x = Ok _ => assert (Q : pr = x) by congruence end. rewrite Q. rewrite Rsum_app, Rsum_map_mult. cbn [zipw]. rewrite Rsum_cons.
    rewrite El2, Rsum_diff. unfold uf. rewrite El2. unfold Rsum. cbn [fold_right]. lra. }
  clear Epr.
  (* adjusted kWh *)
  set (K := adj_kwh i s (cd_batt r)) in *. set (Kt := adj_kwh i s (cd_batt r * fr)) in *.
  assert (EK : map (fun k : R => if (k =? n0)%num then n0 else (n1 / nmax (n1 / (i + s / (n1 / k * 33.7))) ((n1 - (3 / 10)%R) * (n1 / k * 33.7)) * 33.7)%num)
                 (n0 :: repeat (cd_batt r) n ++ [(cd_batt r * fr)%num; n0]) = kwh_list K Kt n).
  { rewrite (map_ext _ (adj_one i s)) by (intros k; unfold adj_one; unR; rewrite nmax_R; reflexivity).
    cbn [map]. rewrite map_app, map_repeat. cbn [map]. unR. rewrite !adj_one_0. rewrite !adj_one_pos by lra. reflexivity. }
  rewrite EK in Erest, Eap. clear EK.
  assert (HK : 0 < K). { apply Rlt_le_trans with (cd_batt r); [lra|]. apply (adjusted_kwh_bounds (i, s)); cbn [fst snd]; auto. apply (adj_kwh_ok (i, s)); cbn [fst snd]; lra. }
  assert (HKt : 0 < Kt). { apply Rlt_le_trans with (cd_batt r * fr); [lra|]. apply (adjusted_kwh_bounds (i, s)); cbn [fst snd]; auto. apply (adj_kwh_ok (i, s)); cbn [fst snd]; lra. }
  change (cd_batt r * fr)%num with (cd_batt r * fr) in Erest. change (@n0 R RNum) with 0 in *.
  rewrite (miles_all X n Hn HX) in Erest. set (step := cd_batt r * cd_mi r / K) in *. set (far := INR n * step) in *. set (top := far + cd_batt r * fr * cd_mi r / Kt) in *.
  assert (Hstep : 0 < step) by (apply Rdiv_lt_0_compat; [apply Rmult_lt_0_compat|]; lra).
  assert (Hfar : 0 <= far) by (apply Rmult_le_pos; [apply pos_INR|lra]).
  assert (Htop : far < top). { unfold top. assert (0 < cd_batt r * fr * cd_mi r / Kt) by (apply Rdiv_lt_0_compat; [apply Rmult_lt_0_compat|]; lra). lra. }
  assert (Er : 0 :: rest = map (fun k => INR k * step) (seq 0 (S n)) ++ [top; 0]).
  { match type of Erest with Ok ?x = Ok _ => assert (Q : rest = x) by congruence end. rewrite Q. cbn [seq map]. rewrite <- seq_shift, map_map.
    cbn [app]. f_equal. cbn; lra. }
  clear Erest. rewrite Er in Eicm, EW. apply mapR_ok in EW. apply F2_app_inv in EW as (M & M2 & EWM & HM & HM2).
  inversion HM2 as [|? we ? M3 Hwe HM3]; subst M2. inversion HM3 as [|? z ? M4 Hz HM4]; subst M3. inversion HM4; subst M4.
  apply interpf_spec in Hwe, Hz. assert (z = 0) by (apply (uf_zero _ _ Hz); lra). subst z.
  destruct (uf_seq (fun k => INR k * step) n M HM) as (lm & ElM & HlM & Hwf & HMx); [cbn; lra|intros j k Hjk; apply Rmult_le_compat_r; [lra|]; now apply le_INR|].
  set (wf := last M 0) in *. fold far in Hwf.
  assert (Hww : wf <= we) by (eapply uf_mono; [|exact Hwf|exact Hwe]; lra).
  assert (Hw01 := uf_between _ _ Hwe).
  rewrite (lmax_arr_is _ top) in Eicm.
  2:{ apply in_or_app; right; now left. }
  2:{ intros y9 Ix. apply in_app_iff in Ix as [Ix|[<-|[<-|[]]]]; [|lra|lra]. apply in_map_iff in Ix as (k & <- & Ik). apply in_seq in Ik.
      apply Rle_trans with far; [|lra]. apply Rmult_le_compat_r; [lra|]. apply le_INR. lia. }
  assert (Eicm' : icm = top) by congruence. clear Eicm. subst icm.
  rewrite (lmax_arr_is W we) in Ewm.
  2:{ rewrite EWM. apply in_or_app; right; now left. }
  2:{ rewrite EWM. intros y9 Ix. apply in_app_iff in Ix as [Ix|[<-|[<-|[]]]]; [|lra|lra]. apply HMx in Ix. lra. }
  assert (Ewm' : wm = we) by congruence. clear Ewm. subst wm.
  assert (EdW : diff W = diff M ++ [we - wf; 0 - we]).
  { rewrite EWM. change [we; 0] with ([we] ++ [0]). rewrite app_assoc. rewrite ElM. cbn [app]. rewrite app_comm_cons.
    rewrite (diff_snoc 0 (lm ++ [we]) 0). rewrite app_comm_cons. rewrite (diff_snoc 0 lm we). rewrite (last_snoc (0 :: lm) we). rewrite <- app_assoc. cbn [app]. unfold wf. rewrite ElM. reflexivity. }
  assert (LdM : length (diff M) = n) by (rewrite diff_length, ElM; cbn [length]; lia).
  rewrite EdW in Edd, Eap. rewrite pyget_snoc2 in Edd. assert (Edd' : dd = we - wf) by congruence. clear Edd. subst dd.
  rewrite EWM in Eu2. rewrite pyget_snoc2 in Eu2. assert (Eu2' : u2 = we) by congruence. clear Eu2. subst u2.
  rewrite pyget_snoc2 in Em2. rewrite pyget_snoc1b in Em1. rewrite pyget_snoc2 in Eg2. rewrite pyget_snoc1b in Eg1. rewrite !nmax_R in Em2, Em1.
  assert (Em2' : m2 = adj_mpg i s (cd_mi r / (cs_fs_kwh r * (1 - fr) / 33.7))).
  { unfold adj_mpg. replace (7 / 10) with (1 - 3 / 10) by lra. unR. congruence. }
  assert (Em1' : m1 = adj_mpg i s (cd_mi r / (cs_fs_kwh r / 33.7))).
  { unfold adj_mpg. replace (7 / 10) with (1 - 3 / 10) by lra. unR. congruence. }
  assert (Eg2' : g2 = 1 / m2 * (we - wf)) by (unR; congruence). assert (Eg1' : g1 = 1 / m1 * (1 - we)) by (unR; congruence). clear Em2 Em1 Eg2 Eg1.
  assert (Eap' : Rsum ap = K * wf + Kt * (we - wf)).
  { unfold kwh_list in Eap. rewrite np_mul_same in Eap by (cbn [length]; rewrite !app_length, repeat_length; cbn [length]; lia).
    match type of Eap with Ok ?x = Ok _ => assert (Q : ap = x) by congruence end. rewrite Q. cbn [zipw]. rewrite Rsum_cons.
    rewrite zipw_app by (rewrite repeat_length; lia). rewrite zipw_repeat by auto. rewrite Rsum_app, Rsum_map_mult. cbn [zipw]. rewrite !Rsum_cons.
    rewrite ElM, Rsum_diff. unfold wf. rewrite ElM. unfold Rsum. cbn [fold_right]. lra. }
  clear Eap.
  exists uf, ue, wf, we.
  replace (nofZ (Z.of_nat n + 1)) with (INR n + 1) in * by (unR; rewrite plus_IZR, <- INR_IZR_INZ; reflexivity).
  rewrite nsum_Rsum in Hc. rewrite nsum_Rsum in Hc. rewrite Rsum_cons, Rsum_app, Epr', Eap' in Hc.
  assert (Hue' : utility_factor ((INR n + 1) * cd_mi r) ue) by (rewrite <- S_INR; exact Hue).
  apply interpf_spec in Elu, Eau. unR. rewrite lit_R in *.
  rewrite Hc. split; cbn [cdCycs cdFracInTrans csFsGal csMpg cdMpg cdMiles labUf adjCdMiles adjUf labMpgge labKwhPerMile adjCdMpgge adjCsMpgge adjMpgge adjEssKwhPerMile adjKwhPerMile];
    fold X; fold fr; fold K; fold Kt; fold step; fold far; fold top; auto; try congruence.
  - intros Hno. destruct (Rltb_spec (max_soc v - regen_soc_buffer v peak - cs_min_soc r) (1 / 100)) as [_|]; [|lra]. auto.
  - intros Hno. destruct (Rltb_spec (max_soc v - regen_soc_buffer v peak - cs_min_soc r) (1 / 100)) as [|_]; [lra|]. repeat split; auto; eapply utility_factor_unique; eauto.
  - unfold Rsum. cbn [fold_right]. f_equal. lra.
Qed.
