(** Lemmas for C122: the calculations of the label in the two implementations. *)
From Coq Require Import Lia.
From Verif Require Import Num Numpy ListFacts CycleModel CycleSpec VehModel SimModel SimState WalkModel PostModel UtilModel LabelModel
  LabelSpec LabelProofs RustModel RustWalkModel RustPostModel RustVehModel RustCycModel RustVehProofs RustCycProofs RustLabelModel.
Local Open Scope R_scope.

(** ** The utility factor *)
Lemma prev_at (x : R) r : forall y0, match r_position (fun k => nltb x k) (map fst r) with
  | Some i => nth_error (y0 :: map snd r) i = Some (prev_from x y0 r)
  | None => prev_from x y0 r = last (y0 :: map snd r) y0
  end.
Proof.
  induction r as [|[x1 y1] r IH]; intros y0; [reflexivity|]. cbn [map fst snd r_position prev_from]. unR.
  destruct (Rltb x x1) eqn:E; [reflexivity|]. specialize (IH y1). unR. destruct (r_position _ _) as [i|]; cbn [option_map].
  - exact IH.
  - rewrite IH. clear IH. cbn [last]. destruct (map snd r) as [|a l]; [reflexivity|]. revert a. induction l as [|b l IH]; intros a; [reflexivity|]. apply IH.
Qed.
Lemma uf_split : exists r : list (R * R), uf_knots = (0, 0) :: r /\ length r = 601%nat.
Proof.
  pose proof uf_knots_length as HL. destruct (uf_knots (F := R)) as [|p r] eqn:E; [discriminate|].
  destruct (uf_knot_inv 0 p) as (z & Z0 & ->); [now rewrite E|]. cbn in Z0. injection Z0 as <-. exists r. split; [|cbn in HL; lia].
  f_equal. cbn [uf_miles]. unfold Rdiv. now rewrite Rmult_0_l.
Qed.
Lemma uf_end i : (600 <= i <= 601)%nat -> nth_error (map snd (uf_knots (F := R))) i = Some 1.
Proof.
  intros H. rewrite nth_error_map. pose proof uf_knots_length as HL.
  destruct (nth_error uf_knots i) as [p|] eqn:E; [|apply nth_error_None in E; lia]. destruct (uf_knot_inv _ _ E) as (z & Z0 & ->). cbn [option_map snd].
  assert (i = 600 \/ i = 601)%nat as [->| ->] by lia; cbn in Z0; injection Z0 as <-; f_equal; lra.
Qed.
Lemma no_position (x : R) l : r_position (fun k => nltb x k) l = None -> forall y, In y l -> y <= x.
Proof.
  induction l as [|a l IH]; intros H y I; [destruct I|]. cbn [r_position] in H. unR. destruct (Rltb_spec x a); [discriminate|].
  destruct (r_position _ l) eqn:E; [discriminate|]. destruct I as [<-|I]; [lra|now apply IH].
Qed.
Lemma uf_far (x : R) : 1201 <= x -> r_uf x = Ok 1.
Proof.
  intros H. unfold r_uf, r_cell, r_first_grtr. pose proof uf_knots_length as HL.
  assert (E : r_position (fun k => nltb x k) (map fst uf_knots) = None).
  { destruct (r_position _ _) as [k|] eqn:E; [|reflexivity]. exfalso.
    assert (W : forall l k, r_position (fun k => nltb x k) l = Some k -> exists y, In y l /\ x < y).
    { induction l as [|a l IH]; intros k' Q; cbn [r_position] in Q; [discriminate|]. unR. destruct (Rltb_spec x a); [exists a; split; [now left|lra]|].
      destruct (r_position _ l) eqn:E2; [|discriminate]. destruct (IH _ eq_refl) as (y & I & G). exists y. split; [now right|exact G]. }
    destruct (W _ _ E) as (y & I & G). apply in_map_iff in I as (p & <- & I). apply In_nth_error in I as (i & I).
    assert (i < 602)%nat by (rewrite <- HL; apply nth_error_Some; congruence).
    destruct (uf_knot_inv _ _ I) as (z & _ & ->). cbn [fst] in G. assert (uf_miles i <= uf_miles 601) by (apply uf_miles_le; lia). cbn [uf_miles] in *.
    change (IZR (2 * Z.of_nat 600 + 1)) with 1201 in *. lra. }
  destruct (map fst uf_knots) as [|a l] eqn:ES; [apply (f_equal (@length R)) in ES; rewrite map_length, HL in ES; discriminate|]. rewrite <- ES in *.
  cbn [r_pred]. unR. unfold r_position in E. fold (r_position (F := R)) in E. rewrite E.
  rewrite map_length, HL. cbn [Nat.sub r_pred bindR]. unfold r_get. now rewrite uf_end by lia.
Qed.
Lemma uf_same (x u : R) : interpf x = Ok u -> r_uf x = Ok u.
Proof.
  intros H. assert (X : 0 <= x <= 1201).
  { destruct (Rle_dec 0 x); [|rewrite interpf_err in H by lra; discriminate]. destruct (Rle_dec x 1201); [lra|rewrite interpf_err in H by lra; discriminate]. }
  destruct uf_split as (r & E & L). pose proof (prev_at x r 0) as P.
  assert (V : prev_from x 0 r = u).
  { unfold interpf, interp_prev in H. rewrite E in H. destruct (_ || _)%bool; [discriminate|]. congruence. }
  destruct (r_position (fun k => nltb x k) (map fst r)) as [i|] eqn:PS.
  - unfold r_uf, r_cell, r_first_grtr. rewrite E. cbn [map fst snd r_position]. unR. destruct (Rltb_spec x 0); [lra|].
    rewrite PS. cbn [option_map r_pred bindR]. unfold r_get. rewrite P, V. reflexivity.
  - assert (x = 1201).
    { assert (G : uf_miles 601 <= x).
      { apply (no_position x (map fst r) PS). assert (Q : exists p, nth_error (uf_knots (F := R)) 601 = Some p).
        { destruct (nth_error uf_knots 601) eqn:Q; [eauto|]. apply nth_error_None in Q. rewrite uf_knots_length in Q. lia. }
        destruct Q as (p & Q). destruct (uf_knot_inv _ _ Q) as (z & _ & ->). rewrite E in Q. change (nth_error r 600 = Some (uf_miles 601, IZR z / 100000)) in Q. apply nth_error_In in Q.
        apply (in_map fst) in Q. exact Q. }
      cbn [uf_miles] in G. change (IZR (2 * Z.of_nat 600 + 1)) with 1201 in G. lra. }
    rewrite uf_far by lra. f_equal. rewrite <- V, P.
    assert (Q : nth_error (0 :: map snd r) 601 = Some 1) by (change (0 :: map snd r) with (map snd ((0, 0) :: r)); rewrite <- E; apply uf_end; lia).
    rewrite last_nth. cbn [length]. rewrite map_length, L. change (S 601 - 1)%nat with 601%nat. symmetry. now apply nth_error_nth.
Qed.
Lemma uf_negative (x : R) : x < 0 -> exists e, r_uf x = Err e.
Proof.
  intros H. destruct uf_split as (r & E & L). unfold r_uf, r_cell, r_first_grtr. rewrite E. cbn [map fst r_position]. unR.
  destruct (Rltb_spec x 0); [|lra]. cbn. eauto.
Qed.
Lemma ufs_same l : forall l', mapR interpf l = Ok l' -> mapR (r_uf (F := R)) l = Ok l'.
Proof.
  induction l as [|x l IH]; intros l' H; [exact H|]. cbn [mapR] in *. destruct (interpf x) as [u|] eqn:E; [|discriminate]. cbn [bindR] in H.
  rewrite (uf_same _ _ E). cbn [bindR]. destruct (mapR interpf l) as [us|]; [|discriminate]. rewrite (IH _ eq_refl). exact H.
Qed.

(** ** Arrays *)
Lemma from_end (l : list R) n a : (1 <= n)%nat -> pyget l (- Z.of_nat n) = Ok a -> r_from_end l n = Ok a.
Proof.
  intros H. unfold pyget, r_from_end, r_get. destruct (Z.ltb_spec (- Z.of_nat n) 0); [|lia].
  destruct (Z.leb_spec 0 (- Z.of_nat n + Z.of_nat (length l))); [|discriminate]. cbn [andb].
  destruct (Z.ltb_spec (- Z.of_nat n + Z.of_nat (length l)) (Z.of_nat (length l))); [|lia].
  destruct (Nat.leb_spec n (length l)); [|lia]. replace (Z.to_nat (- Z.of_nat n + Z.of_nat (length l))) with (length l - n)%nat by lia. auto.
Qed.
Lemma from_end_cons (l : list R) x n a : r_from_end l n = Ok a -> (1 <= n)%nat -> r_from_end (x :: l) n = Ok a.
Proof.
  unfold r_from_end, r_get. destruct (Nat.leb_spec n (length l)); [|discriminate]. intros H1 Hn. cbn [length].
  destruct (Nat.leb_spec n (S (length l))); [|lia]. replace (S (length l) - n)%nat with (S (length l - n)) by lia. exact H1.
Qed.
Lemma mul_same (a b c : list R) : np_mul a b = Ok c -> r_mul a b = Ok c.
Proof.
  unfold np_mul, r_mul. destruct (Nat.eqb _ _); [auto|]. destruct a as [|x [|y a]], b as [|p [|q b]]; auto; discriminate.
Qed.
Lemma max_same (l : list R) x : lmax_arr l = Ok x -> r_max l = Ok x.
Proof. now destruct l. Qed.
Lemma inner_same {A} (a : A) l x y : l = a :: x ++ [y] -> firstn (length l - 2) (skipn 1 l) = removelast (tl l).
Proof.
  intros ->. cbn [skipn tl length]. rewrite removelast_app by discriminate. cbn [removelast]. rewrite app_nil_r, app_length. cbn [length].
  replace (S (length x + 1) - 2)%nat with (length x) by lia. rewrite firstn_app, firstn_all, Nat.sub_diag. cbn. now rewrite app_nil_r.
Qed.
Lemma rem_same (x : R) : r_rem x (nofZ (nfloor x)) = np_mod x (nofZ (nfloor x)).
Proof.
  pose proof (nfloor_R_bounds x) as [L U].
  assert (BN : IZR (nfloor x) < 0 -> IZR (nfloor x) <= -1) by (intros B; apply IZR_le; assert (nfloor x < 0)%Z by (apply lt_IZR; exact B); lia).
  change (@nofZ R _ (nfloor x)) with (IZR (nfloor x)). revert L U BN. generalize (IZR (nfloor x)). intros b L U BN.
  unfold r_rem, np_mod. cbv zeta. unR. destruct (Reqb_spec b 0) as [E|E]; [reflexivity|].
  replace (Rltb (x / b) 0) with false; [reflexivity|]. symmetry. apply Rltb_false.
  unfold Rdiv. destruct (Rlt_dec b 0) as [B|B].
  - specialize (BN B). replace (x * / b) with ((- x) * / (- b)) by (field; lra). apply Rmult_le_pos; [lra|]. left. apply Rinv_0_lt_compat. lra.
  - apply Rmult_le_pos; [lra|]. left. apply Rinv_0_lt_compat. lra.
Qed.
Lemma nat_le_floor c z : (0 <= z)%Z -> (@nofN R _ c <=? nofZ z)%num = Nat.leb c (Z.to_nat z).
Proof.
  intros H. unR. rewrite nofN_R, INR_IZR_INZ. destruct (Rleb_spec (IZR (Z.of_nat c)) (IZR z)) as [Q|Q], (Nat.leb_spec c (Z.to_nat z)) as [Q'|Q']; auto; exfalso.
  - apply le_IZR in Q. lia.
  - apply Rnot_le_lt in Q. apply lt_IZR in Q. lia.
Qed.
Lemma nat_eq_floor c z : (0 <= z)%Z -> (@nofN R _ c =? nofZ z + n1)%num = Nat.eqb c (Z.to_nat z + 1).
Proof.
  intros H. unR. rewrite nofN_R, INR_IZR_INZ. change 1 with (IZR 1). rewrite <- plus_IZR.
  destruct (Reqb_spec (IZR (Z.of_nat c)) (IZR (z + 1))) as [Q|Q], (Nat.eqb_spec c (Z.to_nat z + 1)) as [Q'|Q']; auto; exfalso.
  - apply eq_IZR in Q. lia.
  - apply Q. f_equal. lia.
Qed.
Lemma cd_miles_same (cdc cd tr mi : R) kwh : (0 <= nfloor cdc)%Z -> forall n before c l,
  cd_miles_from cdc cd tr mi kwh before c n = Ok l -> r_cd_miles_from (r_floor_usize cdc) cd tr mi kwh before c n = Ok l.
Proof.
  intros FL. induction n as [|n IH]; intros before c l H; [exact H|]. cbn [cd_miles_from r_cd_miles_from] in *.
  rewrite nat_le_floor, nat_eq_floor in H by exact FL. fold (r_floor_usize cdc) in H. rewrite pyget_get in H by lia. rewrite Nat2Z.id in H.
  destruct (if Nat.leb c (r_floor_usize cdc) then _ else _) as [x|]; [|discriminate]. cbn [bindR] in *.
  destruct (cd_miles_from cdc cd tr mi kwh x (S c) n) as [r|] eqn:E; [|discriminate]. rewrite (IH _ _ _ E). exact H.
Qed.
Lemma diff_length (l : list R) : length (diff l) = (length l - 1)%nat.
Proof. destruct l as [|a l]; [reflexivity|]. revert a. induction l as [|b l IH]; intros a; [reflexivity|]. cbn in *. rewrite IH. lia. Qed.
Lemma mapR_length {A B} (f : A -> Res B) l : forall l', mapR f l = Ok l' -> length l' = length l.
Proof.
  induction l as [|a l IH]; intros l' H; cbn [mapR] in H; [injection H as <-; reflexivity|].
  destruct (f a) as [b|]; [|discriminate]. cbn [bindR] in H. destruct (mapR f l) as [bs|]; [|discriminate]. cbn [bindR] in H. injection H as <-. cbn. f_equal. now apply IH.
Qed.

(** ** The values of a plug-in hybrid *)
Lemma phev_same (v : vehicle R) peak i s r c : phev_values v peak i s r = Ok c -> r_phev_values v peak i s r = Ok c.
Proof.
  intros H. unfold phev_values in H. unfold r_phev_values. cbv zeta in *.
  change ((max_soc v - min_soc v) * ess_max_kwh v / cd_batt r / cd_mi r)%num with (total_cd_miles v (cd_batt r) / cd_mi r)%num.
  set (cycs := (total_cd_miles v (cd_batt r) / cd_mi r)%num) in *. rewrite rem_same. set (frac := np_mod cycs (nofZ (nfloor cycs))) in *.
  change (r_regen_soc_buffer v peak) with (regen_soc_buffer v peak).
  set (no_end := (max_soc v - regen_soc_buffer v peak - cs_min_soc r <? lit 1 100)%num) in *.
  bind_in H iter_uf EQ1. rewrite (ufs_same _ _ EQ1). cbn [bindR].
  bind_in H d_last EQ2. bind_in H uf_last EQ3.
  assert (L1 : (2 <= length iter_uf)%nat).
  { pose proof (diff_length iter_uf) as Q. destruct (diff iter_uf); [discriminate EQ2|]. cbn in Q. lia. }
  assert (FL : (0 <= nfloor cycs)%Z).
  { apply mapR_length in EQ1. rewrite map_length, seq_length in EQ1. assert (C : (1 <= nceil cycs)%Z) by lia. unfold nceil in C. cbv zeta in C.
    destruct (_ =? _)%num in C; lia. }
  assert (D : r_diff iter_uf = Ok (n0 :: diff iter_uf)) by (destruct iter_uf; [cbn in L1; lia|reflexivity]).
  rewrite D. cbn [bindR].
  rewrite (from_end_cons _ _ 1 d_last (from_end _ 1 d_last (le_n 1) EQ2)) by lia. cbn [bindR].
  rewrite (from_end _ 1 uf_last (le_n 1) EQ3). cbn [bindR].
  assert (T2 : (1 <= 2)%nat) by lia.
  bind_in H lab_uf EQ4. rewrite (uf_same _ _ EQ4). cbn [bindR].
  bind_in H uf_max EQ5. rewrite (max_same _ _ EQ5). cbn [bindR].
  bind_in H gpm_cd EQ6. rewrite (from_end _ 2 gpm_cd T2 EQ6). cbn [bindR].
  change (floor_nat cycs) with (r_floor_usize cycs) in H.
  set (trans_ess := (cd_batt r * frac)%num) in *.
  set (iter_kwh := n0 :: repeat (cd_batt r) (r_floor_usize cycs) ++ [trans_ess; n0]) in *.
  bind_in H prods EQ7.
  rewrite (inner_same n0 iter_kwh (repeat (cd_batt r) (r_floor_usize cycs) ++ [trans_ess]) n0) by (unfold iter_kwh; now rewrite <- app_assoc).
  cbn [skipn]. rewrite (mul_same _ _ _ EQ7). cbn [bindR].
  change (map (fun k => if (k =? n0)%num then n0 else
          (n1 / nmax (n1 / (i + s / ((n1 / k) * label_kwh_per_gge)))
                    ((n1 - label_max_epa_adj) * ((n1 / k) * label_kwh_per_gge)) * label_kwh_per_gge)%num) iter_kwh)
    with (map (r_adj_iter_kwh i s) iter_kwh) in H.
  set (adj_iter_kwh := map (r_adj_iter_kwh i s) iter_kwh) in *.
  bind_in H rest EQ8. change (r_ceil_usize cycs) with (Z.to_nat (nceil cycs)). rewrite (cd_miles_same _ _ _ _ _ FL _ _ _ _ EQ8). cbn [bindR].
  bind_in H iter_cd_max EQ9. rewrite (max_same _ _ EQ9). cbn [bindR].
  bind_in H adj_iter_uf EQ10. rewrite (ufs_same _ _ EQ10). cbn [bindR].
  bind_in H dd EQ11. bind_in H m2 EQ12. bind_in H m1 EQ13. bind_in H u2 EQ14.
  assert (D' : r_diff adj_iter_uf = Ok (n0 :: diff adj_iter_uf)) by (destruct adj_iter_uf; [discriminate EQ14|reflexivity]).
  rewrite D'. cbn [bindR].
  bind_in H adj_prod EQ15. bind_in H g2 EQ16. bind_in H g1 EQ17. bind_in H auf_max EQ18. bind_in H adj_uf EQ19.
  assert (M2 := from_end _ 2 m2 T2 EQ12). assert (M1 := from_end _ 1 m1 (le_n 1) EQ13).
  match type of M2 with r_from_end ?l _ = _ => match goal with |- bindR (r_from_end ?l' 2) _ = _ => change l' with l end end.
  rewrite M2. cbn [bindR]. rewrite (from_end_cons _ _ 2 dd (from_end _ 2 dd T2 EQ11)) by lia. cbn [bindR].
  match type of M1 with r_from_end ?l _ = _ => match goal with |- bindR (r_from_end ?l' 1) _ = _ => change l' with l end end.
  rewrite M1. cbn [bindR]. rewrite (from_end _ 2 u2 T2 EQ14). cbn [bindR].
  rewrite (mul_same _ _ _ EQ15). cbn [bindR]. rewrite (from_end _ 2 g2 T2 EQ16). cbn [bindR].
  rewrite (max_same _ _ EQ18). cbn [bindR]. rewrite (from_end _ 1 g1 (le_n 1) EQ17). cbn [bindR].
  rewrite (uf_same _ _ EQ19). cbn [bindR]. exact H.
Qed.

(** ** The acceleration test *)
Lemma rising_prefix k : forall (l : list (R * R)) x0 y0 x, (forall i a b, (i < k)%nat -> nth_error (x0 :: map fst l) i = Some a -> nth_error (x0 :: map fst l) (S i) = Some b -> a < b) ->
  (exists b, nth_error (x0 :: map fst l) k = Some b /\ x < b) -> x0 <= x -> interp_from x x0 y0 (r_rising x0 l) = interp_from x x0 y0 l.
Proof.
  induction k as [|k IH]; intros l x0 y0 x I (b & B & G) LE; [cbn in B; injection B as <-; lra|].
  destruct l as [|[x1 y1] l]; [destruct k; discriminate|]. cbn [map fst] in *. pose proof (I 0%nat x0 x1 ltac:(lia) eq_refl eq_refl) as X.
  cbn [r_rising]. unR. destruct (Rltb_spec x0 x1); [|lra]. cbn [interp_from]. unR. destruct (Rltb_spec x x1); [reflexivity|].
  apply IH; [|exists b; split; [exact B|exact G]|lra]. intros j a c Hj A C. apply (I (S j)); [lia|exact A|exact C].
Qed.
