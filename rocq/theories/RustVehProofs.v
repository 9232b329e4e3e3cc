(** Lemmas about the compiled vehicle class. *)
From Verif Require Import Num Numpy CycleModel CycleSpec VehModel VehSpec VehProofs VehProofs2 RustVehModel RustVehSpec.
Local Open Scope R_scope.

Lemma inc_tl (x : R) l : increasing (x :: l) -> increasing l.
Proof. intros H i j a b L A B. apply (H (S i) (S j) a b); [lia|exact A|exact B]. Qed.
Lemma inc_hd (x y : R) l : increasing (x :: y :: l) -> x < y.
Proof. intros H. apply (H 0%nat 1%nat x y); [lia|reflexivity|reflexivity]. Qed.
Lemma inc_hd_nth (x y : R) l i : increasing (x :: l) -> nth_error l i = Some y -> x < y.
Proof. intros H E. apply (H 0%nat (S i) x y); [lia|reflexivity|exact E]. Qed.

(** ** interpolate agrees with np.interp *)
Lemma rising_all (k : list (R * R)) : forall x, increasing (x :: map fst k) -> r_rising x k = k.
Proof.
  induction k as [|(a & b) k IH]; intros x H; [reflexivity|]. cbn [r_rising]. unR. pose proof (inc_hd _ _ _ H) as Q. cbn [fst] in Q.
  destruct (Rltb_spec x a); [|lra]. f_equal. apply IH. exact (inc_tl _ _ H).
Qed.
Lemma knots_all (k : list (R * R)) : increasing (map fst k) -> r_knots k = k.
Proof. destruct k as [|(a & b) k]; [reflexivity|]. intros H. unfold r_knots. f_equal. now apply rising_all. Qed.

Lemma segment (x : R) : forall k i a ya b yb, increasing (map fst k) -> nth_error k i = Some (a, ya) -> nth_error k (S i) = Some (b, yb) ->
  (a <= x \/ i = O) -> (x <= b \/ length k = S (S i)) ->
  (let yr' := if x <? a then ya else yb in let yl' := if b <? x then yr' else ya in yl' + (yr' - yl') / (b - a) * (x - a))%num = interp1 x k.
Proof.
  induction k as [|(x0 & y0) k IH]; intros i a ya b yb H A B LO HI; [destruct i; discriminate|].
  destruct i as [|i].
  - injection A as -> ->. destruct k as [|(x1 & y1) k]; [discriminate|]. injection B as -> ->. cbn [map fst] in H. pose proof (inc_hd _ _ _ H) as Q.
    cbn [interp1 interp_from]. unR. destruct (Rltb_spec x a).
    + destruct (Rltb_spec b x); [lra|]. field. lra.
    + destruct (Rltb_spec b x) as [C|C].
      * destruct HI as [HI|HI]; [lra|]. destruct k; [|discriminate]. destruct (Rltb_spec x b); [lra|]. cbn [interp_from]. field. lra.
      * destruct (Rltb_spec x b).
        -- destruct (Reqb_spec x a) as [->|]; field; lra.
        -- assert (x = b) by lra. subst x. destruct k as [|(x2 & y2) k]; cbn [interp_from]; [field; lra|].
           apply inc_tl in H. cbn [map fst] in H. pose proof (inc_hd _ _ _ H). unR. destruct (Rltb_spec b x2); [|lra]. destruct (Reqb_spec b b); [field; lra|lra].
  - cbn [nth_error] in A, B. destruct LO as [LO|LO]; [|discriminate]. cbn [map fst] in H.
    rewrite (IH i a ya b yb (inc_tl _ _ H) A B (or_introl LO)); [|destruct HI as [HI|HI]; [auto|right; cbn in HI; lia]].
    destruct k as [|(x1 & y1) k]; [destruct i; discriminate|]. cbn [map fst] in H. pose proof (inc_hd _ _ _ H) as Q.
    assert (x1 <= a).
    { destruct i as [|i]; [injection A as -> _; lra|]. cbn [nth_error] in A. apply Rlt_le. apply (inc_hd_nth x1 a (map fst k) i (inc_tl _ _ H)).
      rewrite nth_error_map, A. reflexivity. }
    cbn [interp1 interp_from]. unR. destruct (Rltb_spec x x0); [lra|]. destruct (Rltb_spec x x1); [lra|]. reflexivity.
Qed.

Lemma seek_eq (x : R) p q k o : r_seek x (p :: q :: k) o = if Rltb (fst q) x then r_seek x (q :: k) (S o) else o.
Proof. reflexivity. Qed.
Lemma seek (x : R) : forall k o, increasing (map fst k) -> (2 <= length k)%nat -> (exists c, nth_error k (length k - 2) = Some c /\ x < fst c) ->
  exists j, r_seek x k o = (o + j)%nat /\
    (j = O \/ exists c, nth_error k j = Some c /\ fst c < x) /\ (exists c, nth_error k (S j) = Some c /\ x <= fst c).
Proof.
  induction k as [|(x0 & y0) k IH]; intros o H L (c & C & X); [cbn in L; lia|]. destruct k as [|(x1 & y1) k]; [cbn in L; lia|].
  cbn [map fst] in H. pose proof (inc_hd _ _ _ H) as Q0. rewrite seek_eq. cbn [fst]. destruct (Rltb_spec x1 x) as [Q|Q].
  - destruct k as [|q k]; [cbn in C; injection C as <-; cbn in X; lra|].
    destruct (IH (S o) (inc_tl _ _ H)) as (j & E & LO & HI); [cbn; lia| |].
    + exists c. split; [|exact X]. cbn [length] in C |- *. replace (S (S (S (length k))) - 2)%nat with (S (S (S (length k)) - 2)) in C by lia. exact C.
    + exists (S j). rewrite E. split; [lia|]. split; [right|exact HI].
      destruct LO as [->|LO]; [exists (x1, y1); split; [reflexivity|exact Q]|exact LO].
  - exists O. split; [lia|]. split; [auto|]. exists (x1, y1). split; [reflexivity|]. cbn [fst]. lra.
Qed.

Lemma combine_fst (xs ys : list R) : length ys = length xs -> map fst (combine xs ys) = xs.
Proof. revert ys. induction xs as [|x xs IH]; intros [|y ys]; cbn; try discriminate; [reflexivity|]. intros L. f_equal. apply IH. lia. Qed.

Lemma r_interp (x : R) (xs ys : list R) : (2 <= length xs)%nat -> length ys = length xs -> increasing xs ->
  r_interpolate x xs ys false = Ok (interp1 x (combine xs ys)).
Proof.
  intros L2 LE H. unfold r_interpolate. rewrite LE, Nat.eqb_refl. cbn [assertR bindR].
  rewrite <- (combine_fst xs ys LE) in H. rewrite (knots_all _ H). set (k := combine xs ys) in *.
  assert (LK : length k = length xs) by (unfold k; rewrite combine_length; lia). clearbody k.
  destruct (length k) as [|[|m]] eqn:EK; [lia|lia|].
  destruct (nth_error k m) as [c|] eqn:C; [|apply nth_error_None in C; lia].
  assert (G : forall i, nth_error k i <> None -> nth_error k (S i) <> None ->
    ((exists a, nth_error k i = Some a /\ fst a <= x) \/ i = O) -> ((exists b, nth_error k (S i) = Some b /\ x <= fst b) \/ length k = S (S i)) ->
    match nth_error k i, nth_error k (S i) with
    | Some (xl, yl), Some (xr, yr) =>
        let yr' := if (negb false && (x <? xl))%bool then yl else yr in
        let yl' := if (negb false && (x >? xr))%bool then yr' else yl in
        Ok (yl' + (yr' - yl') / (xr - xl) * (x - xl))
    | _, _ => Err IndexError
    end%num = Ok (interp1 x k)).
  { intros i N1 N2 LO HI. destruct (nth_error k i) as [(a & ya)|] eqn:A; [|congruence]. destruct (nth_error k (S i)) as [(b & yb)|] eqn:B; [|congruence].
    cbn [negb andb]. rewrite <- (segment x k i a ya b yb H A B); [reflexivity| |].
    - destruct LO as [(q & Q & LO)|LO]; [left; injection Q as <-; exact LO|auto].
    - destruct HI as [(q & Q & HI)|HI]; [left; injection Q as <-; exact HI|auto]. }
  unfold nleb. cbn [RNum]. destruct (Rleb_spec (fst c) x) as [Q|Q].
  - apply G; [congruence|apply nth_error_Some; lia|left; eauto|right; exact EK].
  - destruct (seek x k 0 H) as (j & -> & LO & (b & B & HI)); [lia| |].
    + exists c. rewrite EK. split; [|lra]. replace (S (S m) - 2)%nat with m by lia. exact C.
    + cbn [Nat.add]. apply G.
      * apply nth_error_Some. assert (S j < length k)%nat; [|lia]. apply nth_error_Some. congruence.
      * congruence.
      * destruct LO as [LO|(a & A & LO)]; [auto|left; exists a; split; [exact A|lra]].
      * eauto.
Qed.
Lemma r_table_interp (xp fp : list R) xs : (2 <= length xp)%nat -> length fp = length xp -> increasing xp ->
  r_table xs xp fp = Ok (interp xs xp fp).
Proof. intros A B C. induction xs as [|x xs IH]; [reflexivity|]. cbn [r_table]. rewrite (r_interp x xp fp A B C), IH. reflexivity. Qed.

(** ** The constants *)
Lemma r_fc_perc : @r_fc_perc_out_array R RNum = fc_perc_out_array.
Proof.
  unfold r_fc_perc_out_array, fc_perc_out_array. cbn [seq map app].
  repeat (apply f_equal2; [rewrite ?lit_R, ?nofN_R; unR; cbn [INR]; field|]). reflexivity.
Qed.

Lemma r_mc_perc : @r_mc_perc_out_array R RNum = mc_perc_out_array.
Proof.
  unfold r_mc_perc_out_array, mc_perc_out_array, linspace. cbn [seq map Nat.sub Nat.eqb].
  repeat (apply f_equal2; [rewrite ?lit_R, ?nofN_R, ?INR_IZR_INZ; unR; cbn [Z.of_nat Pos.of_succ_nat Pos.succ]; lra|]). reflexivity.
Qed.
Lemma r_default (v : vehicle R) : mc_eff_map v = Some (repeat 0 11) -> r_mc_eff_map v = default_mc_eff_map v.
Proof.
  intros E.
  assert (A : @r_large_baseline_eff R RNum = large_baseline_eff).
  { unfold r_large_baseline_eff, large_baseline_eff, percents. cbn [map]. repeat (apply f_equal2; [rewrite ?lit_R; lra|]). reflexivity. }
  assert (B : @r_small_baseline_eff R RNum = small_baseline_eff).
  { unfold r_small_baseline_eff, small_baseline_eff, percents. cbn [map]. repeat (apply f_equal2; [rewrite ?lit_R; lra|]). reflexivity. }
  unfold r_mc_eff_map, default_mc_eff_map. rewrite E, A, B. change (length (repeat 0 11)) with (length (@large_baseline_eff R RNum)). rewrite Nat.eqb_refl. cbn [andb].
  replace (forallb (fun x => (x =? n0)%num) (repeat 0 11)) with true; [reflexivity|].
  cbn [repeat forallb]. change (@n0 R RNum) with 0. unR. destruct (Reqb_spec 0 0); [reflexivity|lra].
Qed.
Lemma r_given (v : vehicle R) m : mc_eff_map v = Some m -> (exists x, In x m /\ x <> 0) -> r_mc_eff_map v = m.
Proof.
  intros E (x & I & X). unfold r_mc_eff_map. rewrite E. replace (forallb (fun x => (x =? n0)%num) m) with false; [now rewrite Bool.andb_false_r|].
  symmetry. apply Bool.not_true_is_false. intros Q. rewrite forallb_forall in Q. specialize (Q x I). revert Q. change (@n0 R RNum) with 0. unR. destruct (Reqb_spec x 0); [contradiction|discriminate].
Qed.
(** The last point of the motor's table. *)
Lemma interp_top (xs ys : list R) : grid xs -> length ys = length xs -> last xs 0 <= 1 -> interp1 1 (combine xs ys) = last ys 0.
Proof.
  intros (L2 & H) L T. destruct xs as [|x0 xs]; [cbn in L2; lia|]. destruct ys as [|y0 ys]; [discriminate|]. cbn [combine interp1].
  assert (G : forall xs ys x0 y0, increasing (x0 :: xs) -> length ys = length xs -> last (x0 :: xs) 0 <= 1 ->
    x0 <= 1 /\ interp_from 1 x0 y0 (combine xs ys) = last (y0 :: ys) 0).
  { clear. induction xs as [|x1 xs IH]; intros [|y1 ys] x0 y0 H L T; try discriminate.
    - cbn in *. auto.
    - destruct (IH ys x1 y1 (inc_tl _ _ H)) as (A & B); [cbn in L; lia|exact T|]. pose proof (inc_hd _ _ _ H). split; [lra|]. cbn [combine interp_from]. unR.
      destruct (Rltb_spec 1 x1); [lra|]. rewrite B. reflexivity. }
  destruct (G xs ys x0 y0 H) as (A & B); [cbn in L; lia|exact T|]. unR. destruct (Rltb_spec 1 x0); [lra|]. exact B.
Qed.
Lemma fix_ends_same (xs ys mcf0 mcf : list R) : grid xs -> last xs 0 <= 1 -> np_interp mc_perc_out_array xs ys = Ok mcf0 -> fix_ends mcf0 ys = Ok mcf ->
  mcf = 0 :: interp (tl mc_perc_out_array) xs ys.
Proof.
  intros G T E1 E2. unfold np_interp in E1. destruct xs as [|x0 xs']; [discriminate|]. set (xs := x0 :: xs') in *.
  destruct (Nat.eqb_spec (length xs) (length ys)) as [L|]; [|discriminate]. assert (HE : mcf0 = interp mc_perc_out_array xs ys) by congruence. clear E1. subst mcf0.
  apply fix_ends_ok in E2 as (F1 & F2 & F3 & F4 & F5); [|unfold interp; rewrite map_length, motor_grid_len; unfold motor_points; lia].
  assert (LI : length (interp mc_perc_out_array xs ys) = 101%nat) by (unfold interp; rewrite map_length; apply motor_grid_len).
  rewrite LI in *. apply (nth_ext _ _ 0 0).
  - rewrite F1. unfold interp. cbn [length]. rewrite map_length. reflexivity.
  - intros k K. rewrite F1 in K. destruct k as [|k]; [exact F3|]. cbn [nth].
    assert (EQ : nth k (interp (tl mc_perc_out_array) xs ys) 0 = nth (S k) (interp mc_perc_out_array xs ys) 0) by reflexivity.
    rewrite EQ. destruct (Nat.eq_dec (S k) 100) as [->|NE].
    + change (101 - 1)%nat with 100%nat in F4. rewrite F4. rewrite interp_nth by (rewrite motor_grid_len; unfold motor_points; lia). rewrite motor_grid by (unfold motor_points; lia).
      replace (INR 100 / 100) with 1 by (rewrite INR_IZR_INZ; cbn; lra). symmetry. apply interp_top; auto.
    + apply F5. lia.
Qed.

(** ** to_rust computes what set_derived computes *)
Lemma valid_ok (v : vehicle R) : inputs_valid v -> fc_eff_type v <> FC_OTHER -> r_validate (to_rust_input v) = true.
Proof.
  intros [B M T E MO BA W C L P] TY. unfold r_validate. apply andb_true_intro. split; [apply andb_true_intro; split|].
  - apply forallb_forall. intros x I. change (@n0 R RNum) with 0. unR. destruct (Rleb_spec 0 x) as [|Q]; [reflexivity|exfalso; apply Q].
    unfold r_at_least_0 in I. apply in_app_iff in I as [I|I].
    + cbn in I. repeat (destruct I as [<-|I]; [tauto|]). destruct I.
    + cbn in I. destruct (veh_override_kg v) as [y|]; [|destruct I]. change (@n0 R RNum) with 0 in I. revert I. unR. destruct (Reqb_spec y 0); [intros []|]. intros [<-|[]]. apply M. reflexivity.
  - apply forallb_forall. intros x I. change (@n0 R RNum) with 0. change (@n1 R RNum) with 1. unR.
    assert (Q : 0 <= x <= 1).
    { unfold r_within_0_1 in I. apply in_app_iff in I as [I|I].
      - cbn in I. repeat (destruct I as [<-|I]; [tauto|]). destruct I.
      - cbn in I. destruct (fc_peak_eff_override v) as [y|]; [|destruct I]. destruct I as [<-|[]]. apply P. reflexivity. }
    destruct (Rleb_spec 0 x); [|lra]. destruct (Rleb_spec x 1); [|lra]. reflexivity.
  - cbn. destruct (fc_eff_type v); congruence.
Qed.
Lemma to_rust_derives (v w : vehicle R) : set_derived v = Ok w -> mc_peak_eff_override v = None -> inputs_valid v -> fc_eff_type v <> FC_OTHER -> maps_ok v ->
  exists r, to_rust v = Ok r /\ same_but_overrides r w /\
    veh_override_kg r = override_of v /\ fc_peak_eff_override r = None /\ mc_peak_eff_override r = None.
Proof.
  intros E NM IV TY MO. pose proof MO as [GF GM TOP SOME].
  destruct (set_derived_open v w E) as (fce & mcf0 & mcf & mx & arr & map_ & mce' & mcf' & O). clear E.
  destruct O as [CH FC MC EN MX FN FS MN MS EF WV]. destruct (MN NM) as [-> ->]. clear MN MS.
  assert (FE : fce = interp fc_perc_out_array (fc_pwr_out_perc v) (fc_eff_map v) /\ length (fc_eff_map v) = length (fc_pwr_out_perc v)).
  { unfold np_interp in FC. destruct (fc_pwr_out_perc v) as [|a l] eqn:A; [discriminate|]. destruct (Nat.eqb_spec (length (a :: l)) (length (fc_eff_map v))); [|discriminate]. split; congruence. }
  destruct FE as [FE LF].
  assert (ML : length (used_map v) = length (mc_pwr_out_perc v)).
  { unfold np_interp in MC. destruct (mc_pwr_out_perc v) as [|a l] eqn:A; [discriminate|]. destruct (Nat.eqb_spec (length (a :: l)) (length (used_map v))); [|discriminate]. congruence. }
  assert (MF : mcf = 0 :: interp (tl mc_perc_out_array) (mc_pwr_out_perc v) (used_map v)) by (eapply fix_ends_same; eauto).
  assert (UM : r_mc_eff_map (to_rust_input v) = used_map v).
  { unfold used_map. destruct (mc_eff_map v) as [m|] eqn:Q.
    - apply r_given; [cbn; rewrite Q; reflexivity|eauto].
    - rewrite r_default; [reflexivity|cbn; rewrite Q; reflexivity]. }
  unfold to_rust, r_set_derived. rewrite (valid_ok v IV TY). cbn [negb].
  unfold r_derive_maps. change (check_pt (to_rust_input v)) with (check_pt v). rewrite CH. cbn [bindR].
  change (fc_eff_array (to_rust_input v)) with (@nil R). cbv iota. change (fc_pwr_out_perc (to_rust_input v)) with (fc_pwr_out_perc v).
  change (fc_eff_map (to_rust_input v)) with (fc_eff_map v). rewrite (r_table_interp _ _ r_fc_perc_out_array (proj1 GF) LF (proj2 GF)). cbn [bindR].
  rewrite r_fc_perc, <- FE, UM. change (mc_pwr_out_perc (to_rust_input v)) with (mc_pwr_out_perc v).
  rewrite (r_table_interp _ _ _ (proj1 GM) ML (proj2 GM)). cbn [bindR]. rewrite r_mc_perc. change (mc_max_kw (to_rust_input v)) with (mc_max_kw v).
  change (fc_max_kw (to_rust_input v)) with (fc_max_kw v). fold (grid_kw v).
  rewrite MF in MX, EF, WV. change (tl (0 :: interp (tl mc_perc_out_array) (mc_pwr_out_perc v) (used_map v))) with (interp (tl mc_perc_out_array) (mc_pwr_out_perc v) (used_map v)) in MX.
  rewrite MX. cbn [bindR]. clear FC MC EN MX.
  set (mt := interp (tl mc_perc_out_array) (mc_pwr_out_perc v) (used_map v)) in *.
  match goal with |- context [opt_set r_set_fc_peak_eff _ ?q] => set (v1 := q) end.
  change (fc_peak_eff_override v1) with (fc_peak_eff_override v).
  assert (A : opt_set r_set_fc_peak_eff (fc_peak_eff_override v) v1 = Ok (with_fc_eff v1 arr map_)).
  { destruct (fc_peak_eff_override v) as [p|]; cbn [opt_set].
    - destruct (FS p eq_refl) as (a & b & Ea & -> & Eb & ->). unfold r_set_fc_peak_eff, r_fc_peak_eff. change (fc_eff_array v1) with fce. rewrite Ea. cbn [bindR]. rewrite Eb. reflexivity.
    - destruct (FN eq_refl) as [-> ->]. reflexivity. }
  rewrite A. cbn [bindR]. change (mc_peak_eff_override (with_fc_eff v1 arr map_)) with (@None R). cbn [opt_set bindR].
  destruct EF as (a & b & c & e1 & e2 & Ka & Ha & Kb & Hb & Kc & Hc & Kd & _ & _ & Hd).
  match goal with |- context [r_check_eff ?q] => set (v3 := q) end.
  assert (K : r_check_eff v3 = Ok tt).
  { unfold r_check_eff, r_fc_peak_eff, r_mc_peak_eff. change (fc_eff_array v3) with arr. change (mc_full_eff_array v3) with (n0 :: mt). change (@n0 R RNum) with 0 in *.
    rewrite Ka. cbn [bindR]. rewrite Kb. cbn [bindR]. rewrite Ha, Hb. cbn [andb negb]. destruct (no_elec_sys v3); [reflexivity|].
    rewrite Kc. cbn [bindR]. rewrite Kd. cbn [bindR]. rewrite Hc, Hd. reflexivity. }
  rewrite K. cbn [bindR]. eexists. split; [reflexivity|].
  assert (KG : veh_override_kg v3 = override_of v).
  { change (veh_override_kg v3) with (veh_override_kg (to_rust_input v)). unfold to_rust_input, override_of. cbn [veh_override_kg with_mass].
    pose proof (iv_mass v IV) as Q. destruct (veh_override_kg v) as [x|]; [|reflexivity]. specialize (Q x eq_refl). change (@n0 R RNum) with 0. unR. destruct (Reqb_spec x 0), (Rlt_dec 0 x); try lra; reflexivity. }
  assert (UO : use_override (before_mass v fce (0 :: mt) mx arr map_ (used_map v) (0 :: mt)) = override_of v).
  { unfold use_override, override_of. change (veh_override_kg (before_mass _ _ _ _ _ _ _ _)) with (veh_override_kg v). destruct (veh_override_kg v) as [x|]; [|reflexivity].
    change (@n0 R RNum) with 0. unR. destruct (Rltb_spec 0 x), (Rlt_dec 0 x); try lra; reflexivity. }
  assert (MP : map (fun x => (x * fc_max_kw v)%num) fc_perc_out_array = map (fun x => (fc_max_kw v * x)%num) (@fc_perc_out_array R RNum)) by (apply map_ext; intros x; unR; ring).
  unfold same_but_overrides. rewrite WV. unfold set_veh_mass. rewrite UO. unfold r_set_veh_mass.
  change (veh_override_kg (r_with_peaks v3 None None)) with (veh_override_kg v3). rewrite KG.
  split; [|split; [|destruct (override_of v); auto]].
  - unfold v3, v1. rewrite MP. destruct (override_of v) as [x|]; reflexivity.
  - destruct (override_of v); reflexivity.
Qed.
