(** Lemmas on eco-coasting in the two implementations. *)
From Coq Require Import Lia Lra FunctionalExtensionality.
From Verif Require Import Num Numpy ListFacts CycleModel CycleSpec RateProofs DistProofs JerkProofs CycleProofs2 VehModel SimModel
  SimState WalkModel FrameProofs WalkProofs StepProofs SimSpec SimProofs1 SimProofs3 WalkSpec CoastSpec CoastProofs CoastProofs2 CoastProofs4
  RustModel RustWalkModel RustCycModel RustModsModel RustSpec RustCycSpec RustCycProofs RustCycProofs2 RustCoastSpec.
Local Open Scope R_scope.

Lemma dvdd_same {F} {N : Num F} (d : sdrive F) v g : r_calc_dvdd d v g = calc_dvdd d v g.
Proof. unfold r_calc_dvdd, calc_dvdd. destruct (nleb v n0); [reflexivity|]. destruct (neqb g n0); reflexivity. Qed.

(** ** The next stop *)
Lemma stop_both (c : cyc R) k x stop : cached_or_not c k -> length (mps c) = length (time_s c) -> stop_ahead c x stop ->
  calc_distance_to_next_stop_from c x k = Ok stop /\ r_calc_distance_to_next_stop_from c x k = Ok stop.
Proof.
  intros K W (i & v & E & V & D & H & ->). split.
  - apply (next_stop_found c k x i v); try assumption; lra.
  - apply (r_next_stop_found c k x i v); try assumption. intros j u J U L. assert (trapezoid c 0 j <= x) by (apply (H j u); (assumption || lra)). lra.
Qed.

(** ** The road ahead *)
Lemma unique_same (gs : list R) : gs <> [] -> r_unique_grade gs = Ok (unique_grade gs).
Proof.
  destruct gs as [|g r]; [congruence|]. intros _. unfold r_unique_grade, unique_grade. f_equal. unR.
  destruct (forallb (fun x => Reqb x g) r) eqn:E.
  - assert (A : forall x, In x (g :: r) -> x = g).
    { intros x [<-|I]; [reflexivity|]. rewrite forallb_forall in E. specialize (E x I). destruct (Reqb_spec x g); [assumption|discriminate]. }
    rewrite (A _ (nminl_in g r)), (A _ (nmaxl_in g r)). destruct (Reqb_spec g g); [reflexivity|congruence].
  - destruct (Reqb_spec (nminl g r) (nmaxl g r)) as [Q|]; [|reflexivity]. exfalso.
    enough (forallb (fun x => Reqb x g) r = true) by congruence. apply forallb_forall. intros x I.
    pose proof (nminl_le r g x (or_intror I)). pose proof (nmaxl_ge r g x (or_intror I)).
    pose proof (nminl_le r g g (or_introl eq_refl)). pose proof (nmaxl_ge r g g (or_introl eq_refl)). destruct (Reqb_spec x g); [reflexivity|lra].
Qed.
Lemma mask_snd (x : R) : forall ds gs : list R, length ds = length gs ->
  map snd (filter (fun p => nleb x (fst p)) (combine ds gs)) = mask_list (map (fun y => nleb x y) ds) gs.
Proof.
  induction ds as [|a ds IH]; intros [|g gs] L; try discriminate; [reflexivity|]. cbn in L. injection L as L. specialize (IH gs L).
  cbn [combine filter map mask_list fst]. destruct (nleb x a); cbn [map snd]; now rewrite IH.
Qed.
Lemma mask_fst (x : R) (f : R -> R) : forall ds gs : list R, length ds = length gs ->
  map (fun p => f (fst p)) (filter (fun p => nleb x (fst p)) (combine ds gs)) = map f (mask_list (map (fun y => nleb x y) ds) ds).
Proof.
  induction ds as [|a ds IH]; intros [|g gs] L; try discriminate; [reflexivity|]. cbn in L. injection L as L. specialize (IH gs L).
  cbn [combine filter map mask_list fst]. destruct (nleb x a); cbn [map fst]; now rewrite IH.
Qed.
Lemma mask_some (ds : list R) (m : R -> bool) : existsb (fun b => b) (map m ds) = true <-> exists y, In y ds /\ m y = true.
Proof.
  rewrite existsb_exists. split.
  - intros (b & I & ->). apply in_map_iff in I as (y & E & I). eauto.
  - intros (y & I & E). exists true. split; [|reflexivity]. apply in_map_iff. eauto.
Qed.

(** ** Rolling *)
Section Rolling.
  Variables (d : sdrive R) (ug : option R) (d0 dmax stop vb ab : R).
  Hypothesis (CA : d_cache d = build_cache (d_cyc0 d)) (W : wf (d_cyc0 d)) (T : increasing (time_s (d_cyc0 d))) (P : nonneg (mps (d_cyc0 d)))
    (TOT : 0 < trapezoid (d_cyc0 d) 0 (length (time_s (d_cyc0 d)) - 1)).
  Lemma inner_same : forall n v va gr dt x k vn, r_coast_inner d ug n v va gr dt x k vn = coast_inner d ug n v va gr dt x k vn.
  Proof.
    induction n as [|n IH]; intros; [reflexivity|]. cbn [r_coast_inner coast_inner]. rewrite dvdd_same. cbv zeta.
    change (?v * (n1 + lit 1 2 * ?k * ?dt) / (n1 - lit 1 2 * ?k * ?dt))%num with (coast_next v k dt).
    destruct (favor_grade_accuracy (d_sp d)); [|cbn [bindR]; apply IH].
    destruct ug; [cbn [bindR]; apply IH|]. rewrite CA, r_mean by (try (right; reflexivity); assumption).
    destruct (average_grade_over_range _ _ _ _); [|reflexivity]. cbn [bindR]. apply IH.
  Qed.
  Lemma rolling_same : forall fuel v x acc iter idx e, (1 <= idx)%nat ->
    coast_loop fuel d ug d0 dmax stop vb ab v x acc iter idx = Ok e ->
    match e with
    | CoastNone => r_coast_loop fuel d ug d0 dmax stop vb ab v x (rev acc) iter idx = Ok None
    | CoastEnd v' x' sp it ix =>
        r_coast_loop fuel d ug d0 dmax stop vb ab v x (rev acc) iter idx = Ok (Some (v', x', sp, it, ix)) \/
        (sp <> [] /\ x' + - lit 1 2 * v' * v' / ab = stop /\ (it < iter + fuel)%nat /\ (ix < length (d_rows d))%nat)
    end.
  Proof.
    induction fuel as [|f IH]; intros v x acc iter idx e HI H; cbn [coast_loop r_coast_loop] in *.
    { injection H as <-. now left. }
    match type of H with (if ?b then _ else _) = _ => destruct b eqn:GU end; [|injection H as <-; now left].
    rewrite r_dt_at_same by exact HI. apply bind_ok in H as (dt & -> & H). cbn [bindR].
    assert (EG : (match ug with Some g => Ok g | None => r_interp_grade (d_cache d) (x + d0)%num end) = match ug with Some g => Ok g | None => interp_grade (d_cache d) (x + d0)%num end).
    { destruct ug; [reflexivity|]. rewrite CA. apply r_point_cached. }
    rewrite EG. apply bind_ok in H as (gr & -> & H). cbn [bindR]. cbv zeta in H |- *. rewrite inner_same, dvdd_same.
    change (?v * (n1 + lit 1 2 * ?k * ?dt) / (n1 - lit 1 2 * ?k * ?dt))%num with (coast_next v k dt).
    apply bind_ok in H as ([k vn] & -> & H). cbn [bindR fst snd] in H |- *.
    match type of H with (if ?b then _ else _) = _ => destruct b end; [injection H as <-; reflexivity|].
    match type of H with (if ?b then _ else _) = _ => destruct b end; [injection H as <-; now left|].
    set (x' := (x + lit 1 2 * (v + vn) * dt)%num) in *. set (b := (- lit 1 2 * vn * vn / ab)%num) in *.
    destruct (stop <=? x' + b)%num eqn:Q.
    - injection H as <-. destruct (stop <? x' + b)%num eqn:Q'; [left; reflexivity|right].
      split; [cbn; intros Z; apply app_eq_nil in Z as [_ Z]; discriminate|]. unR. apply Rleb_true in Q. apply Rltb_false in Q'.
      apply andb_prop in GU as [_ GU]. apply Nat.ltb_lt in GU. split; [change (x' + b = stop); lra|]. split; [lia|exact GU].
    - assert (Q' : (stop <? x' + b)%num = false) by (unR; apply Rltb_false; apply Rleb_false in Q; lra). rewrite Q'.
      apply (IH _ _ (vn :: acc)) in H; [|lia]. destruct e as [|v' y sp it ix]; [exact H|]. destruct H as [H|(A & B & C & D)]; [now left|right].
      split; [exact A|]. split; [exact B|]. split; [lia|exact D].
  Qed.
End Rolling.

(** ** Planning *)
Lemma mapi_ext {A B} (f g : nat -> A -> B) l : forall j, (forall k r, f k r = g k r) -> mapi_from f j l = mapi_from g j l.
Proof. induction l as [|a l IH]; intros j H; cbn; [reflexivity|]. now rewrite H, IH. Qed.
Lemma write_same (vs : list R) (d : sdrive R) i : length (d_rows d) = length (mps (d_cyc d)) -> (i + length vs <= length (d_rows d))%nat ->
  write_speeds d i vs = with_cyc d (with_mps (d_cyc d) (r_write_speeds (mps (d_cyc d)) i vs)).
Proof.
  intros L H. destruct (write_speeds_spec vs d i L H) as (A1 & A2 & A3 & A4 & A5 & A6 & A7 & A8 & A9 & A10 & A11 & A12 & A13).
  set (d' := write_speeds d i vs) in *.
  assert (M : mps (d_cyc d') = r_write_speeds (mps (d_cyc d)) i vs).
  { unfold r_write_speeds. rewrite (firstn_all2 (n := length (mps (d_cyc d)) - i) vs) by lia.
    apply (nth_ext _ _ 0 0).
    - rewrite A4, !app_length, firstn_length, skipn_length. lia.
    - intros p Hp. rewrite A5. destruct (Nat.leb_spec i p) as [I|I].
      + rewrite app_nth2 by (rewrite firstn_length; lia). rewrite firstn_length, Nat.min_l by lia.
        destruct (Nat.ltb_spec p (i + length vs)) as [Q|Q]; cbn [andb]; [now rewrite app_nth1 by lia|].
        rewrite app_nth2 by lia. rewrite nth_skipn. f_equal. lia.
      + cbn [andb]. rewrite app_nth1 by (rewrite firstn_length; lia). now rewrite nth_firstn by exact I. }
  destruct d' as [dv dp ds dc dc0 dk di dr dh]; cbn in *. destruct dc as [t m g r]; cbn in *. subst. reflexivity.
Qed.
Lemma mps_ach_speed (d : sdrive R) i : mps_ach_at d i = speed d i.
Proof. reflexivity. Qed.

Lemma chain_nonneg (c : cyc R) : increasing (time_s c) -> forall vs i u, (1 <= i)%nat -> 0 <= u -> Forall (fun w => 0 <= w) vs -> (i + length vs <= length (time_s c))%nat ->
  0 <= chain_distance c i u vs.
Proof.
  intros T. induction vs as [|w vs IH]; intros i u I U H L; cbn [chain_distance length] in *; [lra|]. inversion H as [|? ? W R0]; subst.
  assert (0 <= chain_distance c (S i) w vs) by (apply IH; (lia || assumption)).
  assert (0 < duration c i) by (assert (Q1 : (i - 1 < length (time_s c))%nat) by lia; assert (Q2 : (i < length (time_s c))%nat) by lia; unfold duration;
    pose proof (T (i - 1)%nat i _ _ ltac:(lia) (nth_error_nth' _ 0 Q1) (nth_error_nth' _ 0 Q2)); lra).
  assert (0 <= (u + w) / 2 * duration c i) by (apply Rmult_le_pos; lra). lra.
Qed.
Section Plan.
  Variables (d : sdrive R) (i : nat) (stop : R).
  Hypothesis (C : coast_setting d i stop).
  Let vb := coast_brake_start_speed_m_per_s (d_sp d).
  Let ab := coast_brake_accel_m_per_s2 (d_sp d).
  Let p := place d i.
  Let ds := cumsum (trapz_step_distances (d_cyc0 d)).
  Let ug := unique_grade (mask_list (map (fun y => Rleb p y) ds) (grade (d_cyc0 d))).
  Let dmax := trapezoid (d_cyc0 d) 0 (length (time_s (d_cyc0 d)) - 1) - p - stopping_distance ab vb.

  Lemma cs_wf : wf_sd d.
  Proof. split; [apply C|split; apply C]. Qed.
  Lemma cs_ne : time_s (d_cyc0 d) <> [].
  Proof. exact (has_samples0 d i cs_wf (cs_i _ _ _ C)). Qed.
  Lemma cs_ds : cc_distances (d_cache d) = ds.
  Proof. rewrite (cs_cache _ _ _ C). reflexivity. Qed.
  Lemma cs_ds_len : length ds = length (grade (d_cyc0 d)).
  Proof. unfold ds. rewrite cum_dist_length; [symmetry; apply C|apply C|exact cs_ne]. Qed.
  Lemma cs_ahead : exists j, (j < length (time_s (d_cyc0 d)))%nat /\ p + 1/1000000 < trapezoid (d_cyc0 d) 0 j.
  Proof.
    destruct (cs_stop _ _ _ C) as (j & v & E & _ & D & _). exists j. split; [|exact D].
    rewrite <- (proj1 (cs_cyc0 _ _ _ C)). apply nth_error_Some. congruence.
  Qed.
  Lemma cs_some : existsb (fun b => b) (map (fun y => Rleb p y) ds) = true.
  Proof.
    destruct (existsb (fun b => b) (map (fun y => Rleb p y) ds)) eqn:E; [reflexivity|]. exfalso.
    destruct cs_ahead as (j & J & D). pose proof (proj1 (mask_none (d_cyc0 d) p (cs_cyc0 _ _ _ C) cs_ne) E j J). lra.
  Qed.
  Lemma cs_total : 0 < trapezoid (d_cyc0 d) 0 (length (time_s (d_cyc0 d)) - 1).
  Proof.
    destruct cs_ahead as (j & J & D). pose proof (cs_place _ _ _ C). fold p in H.
    pose proof (trapezoid_mono (d_cyc0 d) j (length (time_s (d_cyc0 d)) - 1) (inc_nd _ (cs_times _ _ _ C)) (cs_fwd _ _ _ C) (proj1 (cs_cyc0 _ _ _ C)) ltac:(lia) ltac:(lia)).
    lra.
  Qed.
  Lemma r_pred_ok : r_pred i = Ok (i - 1)%nat.
  Proof. pose proof (cs_i _ _ _ C). destruct i; [lia|]. cbn. now rewrite Nat.sub_0_r. Qed.
  Lemma r_start_place : r_trapz_step_start_distance (d_cyc d) i = Ok p.
  Proof. pose proof (cs_i _ _ _ C). apply r_start. unfold clen in *. lia. Qed.
  Lemma stops_both : calc_distance_to_next_stop_from (d_cyc0 d) p (Some (d_cache d)) = Ok stop /\
    r_calc_distance_to_next_stop_from (d_cyc0 d) p (Some (d_cache d)) = Ok stop.
  Proof. apply stop_both; [right; now rewrite (cs_cache _ _ _ C)|apply C|apply C]. Qed.
  Lemma masked_nonempty : mask_list (map (fun y => Rleb p y) ds) (grade (d_cyc0 d)) <> [].
  Proof.
    pose proof cs_some as E. pose proof cs_ds_len as L. revert E L. generalize (grade (d_cyc0 d)) ds.
    intros gs l. revert gs. induction l as [|a l IH]; intros [|g gs] E L; cbn in *; try discriminate.
    destruct (Rleb p a); [discriminate|]. apply IH; [exact E|lia].
  Qed.
  Lemma r_generate_loop : vb < speed d (i - 1) ->
    r_generate_coast_trajectory d i = do r <- r_coast_loop 180 d ug p dmax stop vb ab (speed d (i - 1)) 0 [] 0 i;
      match r with
      | None => Ok None
      | Some (v, x, speeds, iter, idx) =>
          if (Nat.ltb iter 180 && Nat.ltb idx (length (d_rows d)))%bool then
            let dtb := ((- lit 1 2) * v * v / ab)%num in
            let tgt := nmin (nmax (stop - x) (lit 1 2 * dtb)%num) (n2 * dtb)%num in
            Ok (Some (mkrtraj (x + tgt) i (Some speeds) (Some tgt)))
          else Ok None
      end.
  Proof.
    intros V. unfold r_generate_coast_trajectory. rewrite r_pred_ok. cbn [bindR]. fold vb ab. rewrite mps_ach_speed.
    pose proof (cs_brake _ _ _ C) as B. fold ab in B. assert (EB : (ab <=? n0)%num = true) by (unR; apply Rleb_true; lra). rewrite EB. cbn [bindR].
    rewrite r_start_place. cbn [bindR]. rewrite cs_ds. pose proof (mask_snd p ds (grade (d_cyc0 d)) cs_ds_len) as MS.
    pose proof (mask_fst p (fun y => nsub y p) ds (grade (d_cyc0 d)) cs_ds_len) as MF. unfold p in MS, MF. fold p in MS, MF.
    change (fun q : R * R => nleb p (fst q)) with (fun q : R * R => (p <=? fst q)%num) in MS, MF.
    destruct (filter (fun q : R * R => (p <=? fst q)%num) (combine ds (grade (d_cyc0 d)))) as [|a ah] eqn:EF.
    { exfalso. cbn in MS. symmetry in MS. revert MS. exact masked_nonempty. }
    assert (NV : (speed d (i - 1) <=? vb)%num = false) by (unR; apply Rleb_false; exact V). rewrite NV.
    rewrite MS, MF. rewrite unique_same by exact masked_nonempty. cbn [bindR]. rewrite (proj2 stops_both). cbn [bindR].
    assert (ED : (last (map (fun y => (y - p)%num) (mask_list (map (fun y => (p <=? y)%num) ds) ds)) n0 - - lit 1 2 * vb * vb / ab)%num = dmax).
    { unR. unfold ds. rewrite masked_last; try apply C; try exact cs_ne; [|apply inc_nd, C|destruct cs_ahead as (j & J & D); exists j; split; [exact J|lra]].
      unfold dmax, stopping_distance. rewrite lit_R. field. lra. }
    rewrite ED. reflexivity.
  Qed.
  Lemma py_generate_loop modify : vb < speed d (i - 1) ->
    generate_coast_trajectory d i modify = do r <- coast_loop 180 d ug p dmax stop vb ab (speed d (i - 1)) 0 [] 0 i;
      match r with
      | CoastNone => Ok (d, - n1)
      | CoastEnd v x speeds iter idx =>
          if (Nat.ltb iter 180 && Nat.ltb idx (length (d_rows d)))%bool then
            let dtb := ((- lit 1 2) * v * v / ab)%num in
            let tgt := nmin (nmax (stop - x) (lit 1 2 * dtb)%num) (n2 * dtb)%num in
            do d' <- (if modify then
                        let d1 := write_speeds d i speeds in
                        do r <- modify_with_braking_trajectory (d_cyc d1) ab (i + length speeds) (Some tgt);
                        Ok (set_coast_range (with_cyc d1 (fst (fst r))) i i (i + (length speeds + Z.to_nat (snd r))))
                      else Ok d);
            Ok (d', x + tgt)
          else Ok (d, - n1)
      end.
  Proof.
    intros V. unfold generate_coast_trajectory. fold vb ab. rewrite mps_ach_speed.
    pose proof (cs_brake _ _ _ C) as B. fold ab in B. assert (EB : (ab <=? n0)%num = true) by (unR; apply Rleb_true; lra). rewrite EB. cbn [assertR bindR].
    rewrite (start_place d i cs_wf (cs_i _ _ _ C)). cbn [bindR]. rewrite cs_ds. fold p.
    change (existsb (fun b => b) (map (fun x => (p <=? x)%num) ds)) with (existsb (fun b => b) (map (fun y => Rleb p y) ds)). rewrite cs_some. cbn [negb].
    assert (NV : (speed d (i - 1) <=? vb)%num = false) by (unR; apply Rleb_false; exact V). rewrite NV.
    assert (NZ : (ab =? n0)%num = false) by (unR; destruct (Reqb_spec ab 0); [lra|reflexivity]). rewrite NZ.
    rewrite (proj1 stops_both). cbn [bindR].
    assert (ED : (last (map (fun y => (y - p)%num) (mask_list (map (fun y => (p <=? y)%num) ds) ds)) n0 - - lit 1 2 * vb * vb / ab)%num = dmax).
    { unR. unfold ds. rewrite masked_last; try apply C; try exact cs_ne; [|apply inc_nd, C|destruct cs_ahead as (j & J & D); exists j; split; [exact J|lra]].
      unfold dmax, stopping_distance. rewrite lit_R. field. lra. }
    rewrite ED. reflexivity.
  Qed.
  Lemma until_range (e : sdrive R) a : r_coast_until e i a = set_coast_range e i i a.
  Proof.
    unfold r_coast_until, set_coast_range, upd_ctl_rows. f_equal. apply mapi_ext. intros j r. f_equal. apply functional_extensionality. intros c. destruct (Nat.ltb_spec j i); [reflexivity|].
    destruct (Nat.leb_spec i j); [reflexivity|lia].
  Qed.
  Lemma braking_same (c : cyc R) j dts : time_s c = time_s (d_cyc d) -> length (mps c) = length (time_s c) -> (1 <= j)%nat ->
    0 <= nth (j - 1) (mps c) 0 -> brakes_alike d (nth (j - 1) (mps c) 0) j -> forall c' v n,
    modify_with_braking_trajectory c ab j dts = Ok (c', v, n) -> r_modify_with_braking_trajectory c ab j dts = Ok (c', v, Z.to_nat n).
  Proof.
    intros T L J V A c' v n H. pose proof (cs_brake _ _ _ C) as B. fold ab in B.
    destruct (Nat.lt_ge_cases j (length (time_s c))) as [Q|Q].
    - destruct A as (D & NT); [unfold clen; now rewrite <- T|]. unfold duration in D, NT. rewrite <- T in D, NT.
      destruct (r_braking_same c ab j dts L B ltac:(lia) V (conj D NT)) as (c1 & v1 & n1 & E1 & E2). rewrite E2 in H. injection H as <- <- <-.
      rewrite E1. now rewrite Nat2Z.id.
    - unfold modify_with_braking_trajectory, r_modify_with_braking_trajectory in *. apply bind_ok in H as (u & EB & H).
      unfold assertR in EB. destruct (ab <? n0)%num; [|discriminate]. cbn [negb].
      destruct (Nat.leb_spec (length (time_s c)) j); [|lia]. rewrite pyget_last_of in H. apply bind_ok in H as (w & -> & H). cbn [bindR]. now injection H as <- <- <-.
  Qed.
  Lemma plan_same d' x : vb < speed d (i - 1) -> generate_coast_trajectory d i true = Ok (d', x) -> ordinary_plan d d' i x ->
    exists t, r_generate_coast_trajectory d i = Ok t /\
      match t with
      | None => d' = d /\ x = -1
      | Some q => rt_start q = i /\ rt_dist q = x /\ 0 <= x /\ r_apply_coast_trajectory d q = Ok d'
      end.
  Proof.
    intros V H OP.
    pose proof (coast_plan_loop d d' i x cs_wf (cs_cache _ _ _ C) (cs_i _ _ _ C) (cs_rows _ _ _ C) (inc_nd _ (cs_times _ _ _ C)) (cs_fwd _ _ _ C)
      (cs_mass _ _ _ C) (conj (cs_low _ _ _ C) V) H) as PL.
    rewrite py_generate_loop in H by exact V. rewrite r_generate_loop by exact V. apply bind_ok in H as (r & EL & H).
    pose proof (rolling_same d ug p dmax stop vb ab (cs_cache _ _ _ C) (cs_cyc0 _ _ _ C) (cs_times _ _ _ C) (cs_fwd _ _ _ C) cs_total
      180 (speed d (i - 1)) 0 [] 0 i r (proj1 (cs_i _ _ _ C)) EL) as RS. cbn [rev] in RS.
    destruct r as [|v X sp it ix].
    { rewrite RS. cbn [bindR]. injection H as <- <-. exists None. split; [reflexivity|]. split; [reflexivity|unR; lra]. }
    destruct (Nat.ltb it 180 && Nat.ltb ix (length (d_rows d)))%bool eqn:FO.
    2:{ destruct RS as [RS|(_ & _ & L1 & L2)].
        - rewrite RS. cbn [bindR]. rewrite FO. injection H as <- <-. exists None. split; [reflexivity|]. split; [reflexivity|unR; lra].
        - exfalso. apply Bool.andb_false_iff in FO as [FO|FO]; apply Nat.ltb_ge in FO; lia. }
    set (B := (- lit 1 2 * v * v / ab)%num) in *. cbv zeta in H |- *. set (tgt := nmin _ _) in *.
    pose proof (cs_brake _ _ _ C) as AB. fold ab in AB. pose proof (cs_low _ _ _ C) as VB. fold vb in VB.
    apply bind_ok in H as (d2 & H2 & H). assert (d2 = d' /\ x = X + tgt) as [-> EX] by (split; injection H; congruence). clear H.
    apply bind_ok in H2 as ([[c1 w] n] & EM & H2). cbn [fst snd] in H2.
    assert (UG : forall g, ug = Some g <-> grade_from (d_cyc0 d) p g).
    { intros g. pose proof (unique_ahead d p g (cs_cyc0 _ _ _ C) cs_ne (cs_cache _ _ _ C)) as G. unfold ahead_grades in G. rewrite cs_ds in G. exact G. }
    destruct (loop_chain d p ug (cs_mass _ _ _ C) UG _ _ _ _ (Rlt_not_eq _ _ AB) _ _ _ _ _ _ _ _ _ _ _ EL (proj1 (cs_i _ _ _ C))) as (ws & E1 & _ & E3 & E4 & E5 & E6 & _).
    cbn [rev app] in E1. subst sp. rewrite Rplus_0_l in E5. apply andb_prop in FO as FO'. destruct FO' as [_ FO2]. apply Nat.ltb_lt in FO2.
    pose proof (cs_rows _ _ _ C) as RL. pose proof (cs_len _ _ _ C) as LL. unfold clen in *.
    assert (FI : (i + length ws <= length (d_rows d))%nat) by lia.
    assert (NN : Forall (fun w => 0 <= w) ws) by (eapply Forall_impl; [|exact E3]; cbn; intros; lra).
    assert (XP : 0 <= X) by (rewrite E5; apply chain_nonneg; [apply C|apply C|lra|exact NN|lia]).
    assert (EB : B = stopping_distance ab v) by (unfold B, stopping_distance; rewrite lit_R; unR; field; lra).
    assert (BP : 0 <= B).
    { rewrite EB. unfold stopping_distance. apply Rmult_le_pos; [nra|]. apply Rlt_le, Rinv_0_lt_compat. lra. }
    assert (TP : 0 <= tgt).
    { unfold tgt. rewrite nmin_R, nmax_R, lit_R. unR. apply Rmin_glb; [|lra]. eapply Rle_trans; [|apply Rmax_r]. lra. }
    destruct PL as [(_ & _ & Q)|[(_ & Q)|PL]]; [exfalso; destruct cs_ahead as (j & J & D); specialize (Q j J); fold p in Q; lra|exfalso; unR; lra|].
    destruct PL as (st & vs & nb & ES & CP & v1 & X1 & it1 & ix1 & EL1). fold p in ES, EL1. rewrite (proj1 stops_both) in ES. injection ES as <-.
    fold vb ab ds in EL1. fold ug dmax in EL1. unfold ncoast_max in EL1. rewrite EL in EL1. injection EL1 as <- <- <- <- <-.
    destruct (OP _ _ _ (cs_stop _ _ _ C) CP) as (NT & BA). fold ab in NT, BA. rewrite <- E4 in NT, BA. rewrite <- E5 in NT.
    destruct RS as [RS|(NEs & TIE & _)]; [|exfalso; apply (NT NEs); rewrite <- EB; exact TIE].
    rewrite RS. cbn [bindR]. rewrite FO. eexists. split; [reflexivity|]. cbn [rt_start rt_dist]. split; [reflexivity|]. split; [symmetry; exact EX|]. split; [unR; lra|].
    unfold r_apply_coast_trajectory. cbn [rt_start rt_speeds rt_brake]. fold ab.
    assert (LM : length (d_rows d) = length (mps (d_cyc d))) by (rewrite RL; symmetry; apply C).
    rewrite (write_same ws d i LM FI) in EM, H2. destruct (write_speeds_spec ws d i LM FI) as (A1 & _ & _ & A4 & A5 & _). rewrite (write_same ws d i LM FI) in A1, A4, A5.
    set (c := with_mps (d_cyc d) (r_write_speeds (mps (d_cyc d)) i ws)) in *. cbn [d_cyc with_cyc] in EM, A1, A4, A5.
    assert (EV : nth (i + length ws - 1) (mps c) 0 = v).
    { rewrite A5, E4. pose proof (cs_i _ _ _ C). destruct ws as [|w0 ws] using rev_ind.
      - cbn [length last]. rewrite Nat.add_0_r. destruct (Nat.leb_spec i (i - 1)); [lia|]. cbn [andb]. apply C.
      - rewrite last_snoc, app_length. cbn [length]. destruct (Nat.leb_spec i (i + (length ws + 1) - 1)), (Nat.ltb_spec (i + (length ws + 1) - 1) (i + (length ws + 1))); try lia.
        cbn [andb]. replace (i + (length ws + 1) - 1 - i)%nat with (length ws) by lia. apply nth_middle. }
    assert (VP : 0 <= v).
    { rewrite E4. destruct ws as [|w0 ws] using rev_ind; [cbn; lra|]. rewrite last_snoc. rewrite Forall_app in NN. destruct NN as [_ NN]. now inversion NN. }
    assert (RB : r_modify_with_braking_trajectory c ab (i + length ws) (Some tgt) = Ok (c1, w, Z.to_nat n)).
    { apply braking_same; [exact A1|rewrite A4, A1; apply C|pose proof (cs_i _ _ _ C); lia|rewrite EV; exact VP|rewrite EV; exact BA|exact EM]. }
    cbv zeta. fold B. fold tgt. rewrite RB. cbn [bindR fst snd]. rewrite until_range. injection H2 as <-. reflexivity.
  Qed.
  Lemma brake_same d' x : 0 <= speed d (i - 1) <= vb -> generate_coast_trajectory d i true = Ok (d', x) -> brakes_alike d (speed d (i - 1)) i ->
    exists q, r_generate_coast_trajectory d i = Ok (Some q) /\ rt_start q = i /\ rt_dist q = x /\ 0 <= x /\ r_apply_coast_trajectory d q = Ok d'.
  Proof.
    intros (V0 & V) H BA. unfold generate_coast_trajectory in H. unfold r_generate_coast_trajectory. rewrite r_pred_ok. cbn [bindR]. fold vb ab in H |- *.
    rewrite mps_ach_speed in *. pose proof (cs_brake _ _ _ C) as B. fold ab in B.
    assert (EB : (ab <=? n0)%num = true) by (unR; apply Rleb_true; lra). rewrite EB in H |- *. cbn [assertR bindR] in H |- *.
    rewrite (start_place d i cs_wf (cs_i _ _ _ C)) in H. rewrite r_start_place. cbn [bindR] in H |- *. rewrite cs_ds in H |- *. fold p in H.
    change (existsb (fun b => b) (map (fun x => (p <=? x)%num) ds)) with (existsb (fun b => b) (map (fun y => Rleb p y) ds)) in H. rewrite cs_some in H. cbn [negb] in H.
    pose proof (mask_snd p ds (grade (d_cyc0 d)) cs_ds_len) as MS. change (fun q : R * R => nleb p (fst q)) with (fun q : R * R => (p <=? fst q)%num) in MS.
    destruct (filter (fun q : R * R => (p <=? fst q)%num) (combine ds (grade (d_cyc0 d)))) as [|a ah] eqn:EF.
    { exfalso. cbn in MS. symmetry in MS. revert MS. exact masked_nonempty. }
    assert (NV : (speed d (i - 1) <=? vb)%num = true) by (unR; apply Rleb_true; exact V). rewrite NV in H |- *.
    apply bind_ok in H as (d2 & H2 & H). assert (d2 = d' /\ x = (- lit 1 2 * speed d (i - 1) * speed d (i - 1) / ab)%num) as [-> EX] by (split; injection H; congruence). clear H.
    apply bind_ok in H2 as ([[c1 w] n] & EM & H2). cbn [fst snd] in H2.
    eexists. split; [reflexivity|]. cbn [rt_start rt_dist]. split; [reflexivity|]. split; [symmetry; exact EX|]. split.
    { rewrite EX, lit_R. unR. replace (- (1 / 2) * speed d (i - 1) * speed d (i - 1) / ab) with ((speed d (i - 1) * speed d (i - 1)) * / (2 * - ab)) by (field; lra).
      apply Rmult_le_pos; [nra|]. apply Rlt_le, Rinv_0_lt_compat. lra. }
    unfold r_apply_coast_trajectory. cbn [rt_start rt_speeds rt_brake length]. fold ab. rewrite Nat.add_0_r.
    assert (EC : with_mps (d_cyc d) (r_write_speeds (mps (d_cyc d)) i []) = d_cyc d).
    { unfold r_write_speeds. rewrite firstn_nil. cbn [length app]. rewrite Nat.add_0_r, firstn_skipn. now destruct (d_cyc d). }
    rewrite EC. pose proof (cs_driven _ _ _ C) as DR.
    rewrite (braking_same (d_cyc d) i None eq_refl (proj1 (cs_cyc _ _ _ C)) (proj1 (cs_i _ _ _ C)) ltac:(rewrite DR; exact V0) ltac:(rewrite DR; exact BA) _ _ _ EM).
    cbn [bindR fst snd Nat.add]. rewrite until_range. injection H2 as <-. reflexivity.
  Qed.
  Lemma generate_look d' x : generate_coast_trajectory d i true = Ok (d', x) -> generate_coast_trajectory d i false = Ok (d, x).
  Proof.
    unfold generate_coast_trajectory. intros H. apply bind_ok in H as (u & -> & H). apply bind_ok in H as (y & -> & H). cbn [bindR]. cbv zeta in H |- *.
    if_in H; [injection H as <- <-; reflexivity|]. if_in H.
    { apply bind_ok in H as (d2 & _ & H). cbn [bindR]. injection H as _ <-. reflexivity. }
    if_in H; [discriminate|]. apply bind_ok in H as (st & -> & H). cbn [bindR]. apply bind_ok in H as (r & -> & H). cbn [bindR].
    destruct r; [injection H as _ <-; reflexivity|]. if_in H; [|injection H as _ <-; reflexivity]. apply bind_ok in H as (d2 & _ & H). cbn [bindR]. injection H as _ <-. reflexivity.
  Qed.
  Lemma estimate_same : (exists g, grade_from (d_cyc0 d) p g /\ slows_down d g) \/
    (exists d' x, generate_coast_trajectory d i true = Ok (d', x) /\ ordinary_plan d d' i x) ->
    r_calc_distance_to_stop_coast_v2 d i = calc_distance_to_stop_coast_v2 d i.
  Proof.
    intros HG. unfold r_calc_distance_to_stop_coast_v2, calc_distance_to_stop_coast_v2. rewrite r_pred_ok. cbn [bindR]. fold vb ab.
    pose proof (cs_i _ _ _ C) as HI. pose proof (cs_driven _ _ _ C) as DR. unfold clen in HI.
    rewrite (r_get_ok _ _ 0) by (rewrite (proj1 (cs_cyc _ _ _ C)); lia). cbn [bindR]. unfold cmps. change (@n0 R RNum) with 0. rewrite DR, cs_ds.
    rewrite cs_ds_len, Nat.eqb_refl. cbn [negb]. rewrite r_start_place, (start_place d i cs_wf (cs_i _ _ _ C)). cbn [bindR]. fold p.
    pose proof (cs_brake _ _ _ C) as B. fold ab in B.
    assert (NZ : (ab =? 0)%num = false) by (unR; destruct (Reqb_spec ab 0); [lra|reflexivity]). rewrite NZ.
    destruct (speed d (i - 1) <=? vb)%num eqn:V; [reflexivity|]. apply Rleb_false in V.
    pose proof (mask_snd p ds (grade (d_cyc0 d)) cs_ds_len) as MS. change (fun q : R * R => nleb p (fst q)) with (fun q : R * R => (p <=? fst q)%num) in MS. rewrite MS.
    rewrite unique_same by exact masked_nonempty. cbn [bindR].
    change (unique_grade (mask_list (map (fun y => nleb p y) ds) (grade (d_cyc0 d)))) with ug.
    change (unique_grade (mask_list (map (fun y => (p <=? y)%num) ds) (grade (d_cyc0 d)))) with ug.
    assert (FALL : (exists d' x, generate_coast_trajectory d i true = Ok (d', x) /\ ordinary_plan d d' i x) ->
      (do t <- r_generate_coast_trajectory d i; Ok (match t with Some q => rt_dist q | None => (- n1)%num end)) = (do r <- generate_coast_trajectory d i false; Ok (snd r))).
    { intros (d' & x & E & OP). rewrite (generate_look _ _ E). destruct (plan_same d' x V E OP) as (t & -> & T). cbn [bindR snd]. f_equal.
      destruct t as [q|]; [apply T|]. destruct T as [_ ->]. unR. lra. }
    destruct ug as [g|] eqn:EU.
    - set (X := if (_ =? 0)%num then _ else _). change (@n0 R RNum) with 0. fold X. destruct (X =? - n1)%num eqn:EX; cbn [negb]; [|reflexivity].
      destruct HG as [(g' & G1 & G2)|HG]; [|apply FALL, HG]. exfalso.
      pose proof (proj2 (unique_ahead d p g' (cs_cyc0 _ _ _ C) cs_ne (cs_cache _ _ _ C)) G1) as G. unfold ahead_grades in G. rewrite cs_ds in G.
      change (ug = Some g') in G. assert (g' = g) as -> by congruence. pose proof (cs_low _ _ _ C) as VB. fold vb in VB.
      assert (XP : 0 < X); [|unR; destruct (Reqb_spec X (- (1))); [lra|discriminate]]. clear EX. unfold X. clear X. unR.
      destruct G2 as [AIR MASS GR SL]. set (c2 := _ / (2 * veh_kg (d_veh d))).
      assert (C2 : 0 <= c2) by (unfold c2; apply Rmult_le_pos; [exact AIR|apply Rlt_le, Rinv_0_lt_compat; lra]).
      set (c1 := a_grav_mps2 (d_props d) * _).
      assert (C1 : 0 < c1).
      { unfold c1. apply Rmult_lt_0_compat; [exact GR|]. change (0 < sin (atan g) + wheel_rr_coef (d_veh d) * cos (atan g)).
        pose proof (cos_atan_pos g) as CP.
        replace (sin (atan g)) with (g * cos (atan g)) by (rewrite <- (tan_atan g) at 1; unfold tan; field; lra). nra. }
      set (v := speed d (i - 1)) in *. destruct (Reqb_spec c2 0) as [Z|NZ2].
      + destruct (Rltb_spec 0 c1); [|lra]. apply Rmult_lt_0_compat; [|nra]. unfold Rdiv. rewrite Rmult_1_l. apply Rinv_0_lt_compat. lra.
      + destruct (Rltb_spec 0 (c1 + c2 * (v * v))); [|nra]. destruct (Rltb_spec 0 (c1 + c2 * (vb * vb))); [|nra]. cbn [andb].
        apply Rmult_lt_0_compat; [unfold Rdiv; rewrite Rmult_1_l; apply Rinv_0_lt_compat; lra|].
        assert (LT : c1 + c2 * (vb * vb) < c1 + c2 * (v * v)) by (assert (vb * vb < v * v) by nra; nra).
        pose proof (ln_increasing _ _ ltac:(eassumption) LT) as LN. change (0 < ln (c1 + c2 * (v * v)) - ln (c1 + c2 * (vb * vb))). lra.
    - assert (EN : ((- n1) =? - n1)%num = true) by (unR; destruct (Reqb_spec (- (1)) (- (1))); [reflexivity|congruence]). rewrite EN. cbn [negb].
      destruct HG as [(g' & G1 & G2)|HG]; [|apply FALL, HG]. exfalso.
      pose proof (proj2 (unique_ahead d p g' (cs_cyc0 _ _ _ C) cs_ne (cs_cache _ _ _ C)) G1) as G. unfold ahead_grades in G. rewrite cs_ds in G.
      change (ug = Some g') in G. congruence.
  Qed.
  Lemma decide_same : (coast_start_speed_m_per_s (d_sp d) <= 0 -> (exists g, grade_from (d_cyc0 d) p g /\ slows_down d g) \/
    (exists d' x, generate_coast_trajectory d i true = Ok (d', x) /\ ordinary_plan d d' i x)) ->
    r_should_impose_coast d i = should_impose_coast d i.
  Proof.
    intros HG. unfold r_should_impose_coast, should_impose_coast. pose proof (cs_i _ _ _ C) as HI. unfold clen in HI.
    destruct (n0 <? coast_start_speed_m_per_s (d_sp d))%num eqn:S.
    { rewrite (r_get_ok _ _ 0) by (rewrite (proj1 (cs_cyc _ _ _ C)); lia). reflexivity. }
    rewrite r_pred_ok. cbn [bindR]. destruct (mps_ach_at d (i - 1) <? coast_brake_start_speed_m_per_s (d_sp d))%num; [reflexivity|]. rewrite estimate_same.
    2:{ apply HG. unR. now apply Rltb_false in S. }
    destruct (calc_distance_to_stop_coast_v2 d i) as [x|]; [|reflexivity]. cbn [bindR]. destruct (x <? n0)%num; [reflexivity|].
    rewrite r_start_place, (start_place d i cs_wf (cs_i _ _ _ C)). cbn [bindR]. fold p. rewrite (proj1 stops_both). now rewrite (proj2 stops_both).
  Qed.
  (** ** Meeting the stop *)
  Definition rv_of (q : @rdv R) : nat * R * R := (rv_n q, rv_jerk q, rv_accel q).
  Definition rv_all (q : @rdv R) : nat * R * R * R := (rv_n q, rv_jerk q, rv_accel q, rv_spread q).
  Lemma rdv_same (dt L amn amx horizon v0 : R) : 0 < dt < 2 -> forall fuel idx plan best, (i <= idx)%nat ->
    r_rdv_loop fuel d i idx plan horizon v0 vb dt L amn amx (option_map rv_all best) =
    do r <- rdv_loop fuel d i idx plan horizon v0 vb dt L amn amx best; Ok (option_map rv_all r).
  Proof.
    intros DT. pose proof (cs_i _ _ _ C) as HI. induction fuel as [|f IH]; intros idx plan best LI; cbn [r_rdv_loop rdv_loop]; [reflexivity|].
    destruct (plan <=? horizon)%num; [|reflexivity]. rewrite r_dt_at_same by lia. destruct (dt_s_at_i (d_cyc0 d) idx) as [dti|]; [|reflexivity]. cbn [bindR]. cbv zeta.
    destruct (Nat.eqb_spec (idx - (i - 1)) 1) as [E1|E1].
    { match goal with |- (if ?b then _ else _) = _ => destruct b end; [reflexivity|]. apply IH. lia. }
    set (n := (idx - (i - 1))%nat) in *. assert (N2 : (2 <= n)%nat) by lia.
    destruct (n0 <? L)%num eqn:EL.
    2:{ cbn [bindR]. apply IH. lia. }
    assert (LP : 0 < L) by (unR; now apply Rltb_true in EL).
    rewrite (r_plan_same n n0 v0 L vb dt) by (unR; try lia; try lra; assert (2 <= INR n) by (apply (le_INR 2); lia); lra).
    destruct (calc_constant_jerk_trajectory _ _ _ _ _ _) as [[k a]|]; [|reflexivity]. cbn [bindR].
    match goal with |- (do x <- (if ?b then _ else _); _) = _ => destruct b end; [|cbn [bindR]; apply IH; lia].
    rewrite (map_ext (fun m => r_accel_for_constant_jerk m a k dt) (fun m => accel_for_constant_jerk (Z.of_nat m) a k dt)) by (intros; apply r_accel_same).
    set (acs := map (fun m => accel_for_constant_jerk (Z.of_nat m) a k dt) (seq 0 n)).
    change (match acs with [] => n0 | x :: r => nminl x r end) with (amin acs).
    change (match acs with [] => n0 | x :: r => nmaxl x r end) with (amax acs). cbn [bindR].
    assert (EB : match option_map rv_all best with None => true | Some (_, _, _, sp) => (nabs (amax acs - amin acs) <? sp)%num end = better best (nabs (amax acs - amin acs)%num)).
    { destruct best as [q|]; reflexivity. }
    rewrite EB. match goal with |- context [if ?b then Some (n, _, _, _) else _] => destruct b end.
    - apply (IH (S idx) (plan + dti)%num (Some (mkrdv n k a (nabs (amax acs - amin acs)%num)))). lia.
    - apply IH. lia.
  Qed.
  Lemma rendezvous_same mn mx : 0 < duration (d_cyc d) i < 2 ->
    r_calc_next_rendezvous_trajectory d i mn mx = do r <- calc_next_rendezvous_trajectory d i mn mx; Ok (option_map rv_of r).
  Proof.
    intros DT. unfold r_calc_next_rendezvous_trajectory, calc_next_rendezvous_trajectory. rewrite r_pred_ok. cbn [bindR]. fold vb ab.
    pose proof (cs_i _ _ _ C) as HI. unfold clen in HI. rewrite (r_get_ok _ _ 0) by (rewrite (proj1 (cs_cyc _ _ _ C)); lia). cbn [bindR]. cbv zeta.
    change (cmps (d_cyc d) (i - 1)) with (nth (i - 1) (mps (d_cyc d)) 0). set (v0 := nth (i - 1) (mps (d_cyc d)) 0).
    destruct (v0 <? vb + lit 1 1000000)%num; [reflexivity|]. set (aa := if (mx <? mn)%num then (mx, mn) else (mn, mx)).
    destruct aa as [amn amx]. rewrite r_start_place, (start_place d i cs_wf (cs_i _ _ _ C)). cbn [bindR]. fold p.
    rewrite (proj1 stops_both), (proj2 stops_both). cbn [bindR]. destruct (stop <? n0)%num; [reflexivity|].
    rewrite r_dt_at_same by lia. rewrite dt_s_at_i_pos by lia. cbn [bindR].
    pose proof (cs_brake _ _ _ C) as B. fold ab in B. assert (NZ : (ab =? n0)%num = false) by (unR; destruct (Reqb_spec ab 0); [lra|reflexivity]). rewrite NZ.
    match goal with |- (if ?b then _ else _) = _ => destruct b end; [reflexivity|].
    rewrite (rdv_same _ _ _ _ _ _ DT _ _ _ None) by lia.
    destruct (rdv_loop _ _ _ _ _ _ _ _ _ _ _ _ _) as [[q|]|]; reflexivity.
  Qed.

  (** ** Delay *)
  Lemma scan_delay idx0 : forall steps speeds idx (a b c : R) m z, r_delay_scan idx0 idx a b c steps speeds m z = delay_scan idx0 idx a b c steps speeds m z.
  Proof.
    reflexivity.
  Qed.
  Lemma delay_same : r_set_coast_delay d i = set_coast_delay d i.
  Proof.
    unfold r_set_coast_delay, set_coast_delay. pose proof (cs_i _ _ _ C) as HI. unfold clen in HI.
    rewrite r_start_place, (start_place d i cs_wf (cs_i _ _ _ C)), r_pred_ok, cs_ds. cbn [bindR].
    rewrite (r_get_ok ds (i - 1) 0). 2:{ unfold ds. rewrite cum_dist_length by (apply C || exact cs_ne). pose proof (cs_len _ _ _ C). unfold clen in *. lia. }
    cbn [bindR]. rewrite r_trapz_same by (apply C || exact cs_ne). rewrite scan_delay.
    match goal with |- (do x <- ?a; _) = (do y <- ?b; _) => change b with a; destruct a as [delay|] end; [|reflexivity]. cbn [bindR]. f_equal. unfold upd_ctl_rows. f_equal. apply mapi_ext. intros j r.
    f_equal. apply functional_extensionality. intros cc. destruct (Nat.ltb j i); [reflexivity|]. f_equal. destruct delay as [z|]; [|reflexivity].
    destruct (z <? 0)%Z; [|reflexivity]. destruct (Z.ltb_spec (z + (Z.of_nat j - Z.of_nat i)) 0); lia.
  Qed.
  Lemma lead_speed_same (e : sdrive R) j : mps (d_cyc0 e) <> [] -> r_delayed_speed e j = delayed_speed e j.
  Proof.
    intros NE. unfold r_delayed_speed, delayed_speed, cmps. f_equal. assert (0 < length (mps (d_cyc0 e)))%nat by (destruct (mps (d_cyc0 e)); [congruence|cbn; lia]).
    set (z := (Z.of_nat j - _)%Z). destruct (Z.ltb_spec z 0); lia.
  Qed.
End Plan.
