(** The calibration error metric and data-frame resampling. *)
From Coq Require Import Lia Lra.
From Verif Require Import Num Numpy CycleModel CycleSpec ListFacts ResampleProofs RateProofs VehModel VehProofs UtilModel UtilSpec UtilProofs.
Local Open Scope R_scope.

(** *** Error metric *)
Lemma area_cons a b t y0 y1 y : area (a :: b :: t) (y0 :: y1 :: y) = (b - a) * ((y0 + y1) / 2) + area (b :: t) (y1 :: y).
Proof. reflexivity. Qed.
Lemma trapz_area : forall (t y : list R), length y = length t -> trapz y t = area t y.
Proof.
  unfold trapz. intros t y. rewrite nsum_Rsum. revert y. induction t as [|t0 t IH]; intros [|y0 y] L; cbn in L; try discriminate; [reflexivity|].
  destruct t as [|t1 t], y as [|y1 y]; cbn in L; try discriminate; [reflexivity|].
  specialize (IH (y1 :: y) ltac:(cbn; lia)). rewrite area_cons, <- IH.
  change (diff (t0 :: t1 :: t)) with (nsub t1 t0 :: diff (t1 :: t)). cbn [tl]. change (removelast (y0 :: y1 :: y)) with (y0 :: removelast (y1 :: y)).
  cbn [zipw]. rewrite Rsum_cons. unR. f_equal. change (@n2 R RNum) with 2. field.
Qed.
Lemma zipw_gaps a b : zipw (fun x y => @nabs R RNum (nsub x y)) a b = gaps a b.
Proof. unfold gaps. revert b. induction a as [|x a IH]; intros [|y b]; cbn; auto. rewrite IH. reflexivity. Qed.
Lemma gaps_length a b : length (gaps a b) = Nat.min (length a) (length b).
Proof. unfold gaps. rewrite map_length, combine_length. reflexivity. Qed.
Lemma last_hd (t : list R) a : t <> [] -> last t a = last t 0.
Proof. destruct t; [congruence|]. intros _. apply last_default. Qed.
Lemma error_value (m e t : list R) : length m = length t -> length e = length t -> t <> [] ->
  get_error_val m e t = Ok (area t (gaps m e) / (last t 0 - hd 0 t)).
Proof.
  intros Lm Le T. unfold get_error_val. rewrite Lm, Le, Nat.eqb_refl. cbn [andb assertR bindR].
  destruct t as [|t0 t]; [congruence|]. rewrite pyget_last, pyget_0. cbn [bindR]. rewrite zipw_gaps, trapz_area.
  - unR. cbn [hd]. rewrite (last_default t0 t t0 0). reflexivity.
  - rewrite gaps_length, Lm, Le. apply Nat.min_id.
Qed.
Lemma error_lengths (m e t : list R) r : get_error_val m e t = Ok r -> length m = length t /\ length e = length t /\ t <> [].
Proof.
  unfold get_error_val. destruct (Nat.eqb (length m) (length e) && Nat.eqb (length e) (length t))%bool eqn:E; cbn [assertR bindR]; [|discriminate].
  apply andb_prop in E. destruct E as [E1 E2]. apply Nat.eqb_eq in E1, E2. intros H. repeat split; try lia. intros ->. discriminate.
Qed.
Lemma error_unequal (m e t : list R) : length m <> length e \/ length e <> length t -> get_error_val m e t = Err AssertionError.
Proof.
  intros H. unfold get_error_val. destruct (Nat.eqb (length m) (length e) && Nat.eqb (length e) (length t))%bool eqn:E; [|reflexivity].
  apply andb_prop in E. destruct E as [E1 E2]. apply Nat.eqb_eq in E1, E2. lia.
Qed.
Lemma error_empty : get_error_val (F := R) [] [] [] = Err IndexError.
Proof. reflexivity. Qed.

Lemma incr_head a b t : increasing (a :: b :: t) -> a < b /\ increasing (b :: t).
Proof. intros H. split; [apply (H 0%nat 1%nat); auto|]. apply increasing_cons in H. tauto. Qed.
Lemma area_le t : forall y z, increasing t -> length y = length t -> length z = length t -> (forall i, nth i y 0 <= nth i z 0) -> area t y <= area t z.
Proof.
  induction t as [|a t IH]; intros y z I Ly Lz H; [destruct y, z; cbn; lra|]. destruct y as [|y0 y], z as [|z0 z]; cbn in Ly, Lz; try discriminate.
  destruct t as [|b t]; [destruct y, z; cbn in *; try discriminate; lra|]. destruct y as [|y1 y], z as [|z1 z]; cbn in Ly, Lz; try discriminate.
  apply incr_head in I. destruct I as [I1 I2]. specialize (IH (y1 :: y) (z1 :: z) I2 ltac:(cbn; lia) ltac:(cbn; lia) (fun i => H (S i))).
  change (area (a :: b :: t) (y0 :: y1 :: y)) with ((b - a) * ((y0 + y1) / 2) + area (b :: t) (y1 :: y)).
  change (area (a :: b :: t) (z0 :: z1 :: z)) with ((b - a) * ((z0 + z1) / 2) + area (b :: t) (z1 :: z)).
  pose proof (H 0%nat). pose proof (H 1%nat). cbn in H0, H1. apply Rplus_le_compat; auto. apply Rmult_le_compat_l; lra.
Qed.
Lemma area_const c t : area t (repeat c (length t)) = c * (last t 0 - hd 0 t).
Proof.
  induction t as [|a t IH]; [cbn; ring|]. destruct t as [|b t]; [cbn; ring|].
  cbn [length repeat]. cbn [length repeat] in IH.
  change (area (a :: b :: t) (c :: c :: repeat c (length t))) with ((b - a) * ((c + c) / 2) + area (b :: t) (c :: repeat c (length t))). rewrite IH.
  change (last (a :: b :: t) 0) with (last (b :: t) 0). cbn [hd]. field.
Qed.
Lemma nth_repeat0 c n i : nth i (repeat c n) 0 = if (i <? n)%nat then c else 0.
Proof. revert i. induction n as [|n IH]; intros [|i]; cbn; auto. rewrite IH. reflexivity. Qed.
Lemma area_lin k j t : forall y z, length y = length t -> length z = length t ->
  area t (map (fun p => k * fst p + j * snd p) (combine y z)) = k * area t y + j * area t z.
Proof.
  induction t as [|a t IH]; intros y z Ly Lz; [destruct y, z; cbn; ring|]. destruct y as [|y0 y], z as [|z0 z]; cbn in Ly, Lz; try discriminate.
  destruct t as [|b t]; [destruct y, z; cbn in *; try discriminate; ring|]. destruct y as [|y1 y], z as [|z1 z]; cbn in Ly, Lz; try discriminate.
  specialize (IH (y1 :: y) (z1 :: z) ltac:(cbn; lia) ltac:(cbn; lia)).
  cbn [combine map fst snd] in *. rewrite !area_cons, IH. field.
Qed.
Lemma area_nonneg t y : increasing t -> length y = length t -> (forall i, 0 <= nth i y 0) -> 0 <= area t y.
Proof.
  intros I L H. pose proof (area_const 0 t) as C. rewrite Rmult_0_l in C. apply Rle_trans with (area t (repeat 0 (length t))); [lra|]. apply area_le; auto; [apply repeat_length|].
  intros i. rewrite nth_repeat0. destruct (i <? length t)%nat; auto.
Qed.
Lemma area_zero t : forall y, increasing t -> (2 <= length t)%nat -> length y = length t -> (forall i, 0 <= nth i y 0) -> area t y = 0 -> forall i, nth i y 0 = 0.
Proof.
  induction t as [|a t IH]; intros y I T L H Z; [cbn in T; lia|]. destruct y as [|y0 y]; cbn in L; try discriminate.
  destruct t as [|b t]; [cbn in T; lia|]. destruct y as [|y1 y]; cbn in L; try discriminate.
  apply incr_head in I. destruct I as [I1 I2]. rewrite area_cons in Z.
  assert (0 <= area (b :: t) (y1 :: y)) by (apply area_nonneg; [assumption|cbn; lia|intros i; apply (H (S i))]).
  pose proof (H 0%nat) as P0. pose proof (H 1%nat) as P1. cbn in P0, P1.
  assert (0 <= (b - a) * ((y0 + y1) / 2)) by (apply Rmult_le_pos; lra).
  assert (E : (b - a) * ((y0 + y1) / 2) = 0) by lra. apply Rmult_integral in E. assert (y0 = 0 /\ y1 = 0) as [-> ->] by lra.
  destruct t as [|c t].
  - destruct y; cbn in L; try discriminate. intros [|[|[|i]]]; reflexivity.
  - intros [|i]; [reflexivity|]. apply (IH (0 :: y)); try assumption; [cbn; lia|cbn in *; lia|intros k; apply (H (S k))|]. lra.
Qed.
Lemma gaps_nth a b i : length a = length b -> nth i (gaps a b) 0 = Rabs (nth i a 0 - nth i b 0).
Proof.
  intros L. unfold gaps. destruct (Nat.ltb_spec i (length a)).
  - set (f := fun p : R * R => Rabs (fst p - snd p)). rewrite (nth_indep _ 0 (f (0, 0))) by (rewrite map_length, combine_length; lia).
    rewrite map_nth. rewrite combine_nth by auto. reflexivity.
  - rewrite !nth_overflow by (rewrite ?map_length, ?combine_length; lia). rewrite Rminus_0_r, Rabs_R0. reflexivity.
Qed.
Lemma span_pos t : increasing t -> (2 <= length t)%nat -> 0 < last t 0 - hd 0 t.
Proof.
  intros I T. destruct t as [|a [|b t]]; cbn in T; try lia. change (last (a :: b :: t) 0) with (last (b :: t) 0). cbn [hd].
  apply increasing_cons in I. destruct I as [_ I]. assert (In (last (b :: t) 0) (b :: t)) by (apply last_In; discriminate). apply I in H. lra.
Qed.
Lemma eq_nth (a b : list R) : length a = length b -> (forall i, nth i a 0 = nth i b 0) -> a = b.
Proof. intros L H. apply (nth_ext a b 0 0); auto. Qed.

Section Error.
  Variables (m e t : list R) (r : R).
  Hypotheses (I : increasing t) (T : (2 <= length t)%nat) (E : get_error_val m e t = Ok r).
  Lemma lens : length m = length t /\ length e = length t. Proof. apply error_lengths in E. tauto. Qed.
  Lemma valE : r = area t (gaps m e) / (last t 0 - hd 0 t).
  Proof. destruct lens. assert (N : t <> []) by (intros Q; rewrite Q in T; cbn in T; lia). rewrite error_value in E by auto. congruence. Qed.
  Lemma glen : length (gaps m e) = length t. Proof. destruct lens. rewrite gaps_length. lia. Qed.
  Lemma gpos i : 0 <= nth i (gaps m e) 0. Proof. destruct lens. rewrite gaps_nth by lia. apply Rabs_pos. Qed.
  Lemma err_nonneg : 0 <= r.
  Proof. rewrite valE. pose proof (span_pos t I T). apply Rmult_le_pos; [apply area_nonneg; auto using glen, gpos|]. left. apply Rinv_0_lt_compat. auto. Qed.
  Lemma err_zero : r = 0 <-> m = e.
  Proof.
    pose proof (span_pos t I T) as S. destruct lens as [Lm Le]. rewrite valE. split.
    - intros Z. apply Rmult_integral in Z. destruct Z as [Z|Z]; [|apply Rinv_neq_0_compat in Z; [contradiction|lra]].
      apply eq_nth; [lia|]. intros i. pose proof (area_zero t (gaps m e) I T glen gpos Z i) as Q. rewrite gaps_nth in Q by lia.
      destruct (Req_dec (nth i m 0 - nth i e 0) 0); [lra|]. apply Rabs_no_R0 in H. contradiction.
    - intros ->. replace (gaps e e) with (repeat 0 (length t)); [rewrite area_const; unfold Rdiv; ring|].
      symmetry. apply eq_nth; [rewrite repeat_length, gaps_length; lia|]. intros i. rewrite gaps_nth, nth_repeat0 by lia.
      rewrite Rminus_diag_eq by reflexivity. rewrite Rabs_R0. destruct (i <? length t)%nat; reflexivity.
  Qed.
  Lemma err_bound B : (forall i, (i < length t)%nat -> Rabs (nth i m 0 - nth i e 0) <= B) -> r <= B.
  Proof.
    intros H. pose proof (span_pos t I T) as S. destruct lens as [Lm Le]. rewrite valE. apply (Rmult_le_reg_r (last t 0 - hd 0 t)); auto.
    unfold Rdiv. rewrite Rmult_assoc, Rinv_l, Rmult_1_r by lra. rewrite <- area_const. apply area_le; auto using glen; [apply repeat_length|].
    intros i. rewrite gaps_nth, nth_repeat0 by lia. destruct (Nat.ltb_spec i (length t)); auto. rewrite !nth_overflow by lia. rewrite Rminus_0_r, Rabs_R0. lra.
  Qed.
  Lemma err_below B : (forall i, (i < length t)%nat -> B <= Rabs (nth i m 0 - nth i e 0)) -> B <= r.
  Proof.
    intros H. pose proof (span_pos t I T) as S. destruct lens as [Lm Le]. rewrite valE. apply (Rmult_le_reg_r (last t 0 - hd 0 t)); auto.
    unfold Rdiv. rewrite Rmult_assoc, Rinv_l, Rmult_1_r by lra. rewrite <- area_const. apply area_le; auto using glen; [apply repeat_length|].
    intros i. rewrite gaps_nth, nth_repeat0 by lia. destruct (Nat.ltb_spec i (length t)); auto. rewrite !nth_overflow by lia. rewrite Rminus_0_r, Rabs_R0. lra.
  Qed.
End Error.
Lemma gaps_sym a b : gaps a b = gaps b a.
Proof. unfold gaps. revert b. induction a as [|x a IH]; intros [|y b]; cbn; auto. rewrite IH, Rabs_minus_sym. reflexivity. Qed.
Lemma err_sym (m e t : list R) : get_error_val m e t = get_error_val e m t.
Proof.
  destruct (Nat.eq_dec (length m) (length e)) as [E1|N]; [|rewrite !error_unequal by lia; reflexivity].
  destruct (Nat.eq_dec (length e) (length t)) as [E2|N]; [|rewrite !error_unequal by lia; reflexivity].
  destruct t as [|t0 t]. { destruct e, m; try discriminate. reflexivity. }
  rewrite !error_value by (lia || discriminate). rewrite gaps_sym. reflexivity.
Qed.
Lemma gaps_scale k a b : gaps (map (Rmult k) a) (map (Rmult k) b) = map (Rmult (Rabs k)) (gaps a b).
Proof. unfold gaps. revert b. induction a as [|x a IH]; intros [|y b]; cbn; auto. rewrite IH. f_equal. rewrite <- Rabs_mult. f_equal. ring. Qed.
Lemma area_scale k t : forall y, length y = length t -> area t (map (Rmult k) y) = k * area t y.
Proof.
  intros y L. pose proof (area_lin k 0 t y y L L) as H. replace (map (Rmult k) y) with (map (fun p => k * fst p + 0 * snd p) (combine y y)).
  - rewrite H. ring.
  - clear. induction y; cbn; auto. rewrite IHy. f_equal. ring.
Qed.
Lemma err_scale k (m e t : list R) r : get_error_val m e t = Ok r -> get_error_val (map (Rmult k) m) (map (Rmult k) e) t = Ok (Rabs k * r).
Proof.
  intros E. destruct (error_lengths _ _ _ _ E) as (L1 & L2 & T). rewrite error_value in * by (rewrite ?map_length; auto). injection E as <-.
  rewrite gaps_scale, area_scale by (rewrite gaps_length; lia). f_equal. unfold Rdiv. ring.
Qed.
Lemma err_triangle (a b c t : list R) rab rbc rac : increasing t -> (2 <= length t)%nat ->
  get_error_val a b t = Ok rab -> get_error_val b c t = Ok rbc -> get_error_val a c t = Ok rac -> rac <= rab + rbc.
Proof.
  intros I T E1 E2 E3. pose proof (span_pos t I T) as S. destruct (error_lengths _ _ _ _ E1) as (La & Lb & N). destruct (error_lengths _ _ _ _ E2) as (_ & Lc & _).
  rewrite error_value in * by auto. injection E1 as <-. injection E2 as <-. injection E3 as <-. unfold Rdiv. rewrite <- Rmult_plus_distr_r.
  apply Rmult_le_compat_r; [left; apply Rinv_0_lt_compat; lra|].
  pose proof (area_lin 1 1 t (gaps a b) (gaps b c) ltac:(rewrite gaps_length; lia) ltac:(rewrite gaps_length; lia)) as L. rewrite !Rmult_1_l in L. rewrite <- L.
  set (f := fun p : R * R => 1 * fst p + 1 * snd p).
  apply area_le; auto; [rewrite gaps_length; lia|rewrite map_length, combine_length, !gaps_length; lia|].
  intros i. rewrite gaps_nth by lia. destruct (Nat.ltb_spec i (length t)).
  - rewrite (nth_indep (map f (combine (gaps a b) (gaps b c))) 0 (f (0, 0))) by (rewrite map_length, combine_length, !gaps_length; lia). rewrite map_nth, combine_nth by (rewrite !gaps_length; lia).
    unfold f. cbn [fst snd]. rewrite !gaps_nth by lia. rewrite !Rmult_1_l. replace (nth i a 0 - nth i c 0) with ((nth i a 0 - nth i b 0) + (nth i b 0 - nth i c 0)) by ring. apply Rabs_triang.
  - rewrite (nth_overflow (map f (combine (gaps a b) (gaps b c)))) by (rewrite map_length, combine_length, !gaps_length; lia). rewrite !nth_overflow by lia. rewrite Rminus_0_r, Rabs_R0. lra.
Qed.
Lemma area_time s k t : forall y, area (map (fun x => s + k * x) t) y = k * area t y.
Proof.
  induction t as [|a t IH]; intros y; [destruct y; cbn; ring|]. destruct y as [|y0 y]; [cbn; destruct t; cbn; ring|]. destruct t as [|b t]; [destruct y; cbn; ring|].
  destruct y as [|y1 y]; [cbn; ring|]. specialize (IH (y1 :: y)). cbn [map] in *. rewrite !area_cons, IH. field.
Qed.
Lemma err_time s k (m e t : list R) r : k <> 0 -> get_error_val m e t = Ok r -> get_error_val m e (map (fun x => s + k * x) t) = Ok r.
Proof.
  intros K E. destruct (error_lengths _ _ _ _ E) as (L1 & L2 & T).
  assert (map (fun x => s + k * x) t <> []) by (destruct t; [congruence|discriminate]).
  rewrite error_value in * by (rewrite ?map_length; auto). injection E as <-. rewrite area_time. f_equal.
  destruct t as [|a t]; [congruence|]. 
  assert (LE : last (map (fun x => s + k * x) (a :: t)) 0 = s + k * last (a :: t) 0).
  { rewrite <- (last_map (fun x => s + k * x)). apply last_default. }
  rewrite LE. cbn [map hd].
  replace (s + k * last (a :: t) 0 - (s + k * a)) with (k * (last (a :: t) 0 - a)) by ring.
  destruct (Req_dec (last (a :: t) 0 - a) 0) as [->|Q]; [rewrite Rmult_0_r; unfold Rdiv; rewrite Rinv_0; ring|]. field. auto.
Qed.

(** *** Data frames *)
Lemma column_spec {F} (c : string) (df : frame F) v : column c df = Ok v <-> exists a b, df = a ++ (c, v) :: b /\ ~ In c (map fst a).
Proof.
  induction df as [|[k w] df IH]; cbn.
  - split; [discriminate|]. intros ([|] & b & E & _); discriminate.
  - destruct (String.eqb_spec k c) as [->|N].
    + split.
      * intros [= ->]. exists [], df. auto.
      * intros ([|[k' w'] a] & b & E & H); cbn in E; injection E as E1 E2; [congruence|]. exfalso. apply H. left. cbn. congruence.
    + rewrite IH. split.
      * intros (a & b & -> & H). exists ((k, w) :: a), b. split; auto. cbn. intros [E|E]; auto.
      * intros ([|[k' w'] a] & b & E & H); cbn in E; injection E as E1 E2; [congruence|]. exists a, b. split; auto. intros Q. apply H. right. auto.
Qed.
Lemma resample_time_spec (ts : list R) dt l : 0 < dt -> 0 <= last ts 0 -> resample_time ts dt = Ok l ->
  length l = S (Z.to_nat (Int_part (last ts 0 / dt))) /\ (forall k, (k < length l)%nat -> nth k l 0 = INR k * dt) /\
  INR (length l - 1) * dt <= last ts 0 < INR (length l) * dt.
Proof.
  intros D P H. unfold resample_time in H. destruct ts as [|t0 ts]; [discriminate|]. rewrite pyget_last in H. cbn [bindR] in H.
  match type of H with Ok ?x = Ok _ => assert (HL : l = x) by congruence end. subst l. clear H.
  
  assert (LD : last (t0 :: ts) t0 = last (t0 :: ts) 0) by apply last_default. rewrite LD. clear LD. set (T := last (t0 :: ts) 0) in *. pose proof (nfloor_R_bounds (T / dt)) as B. unR. set (z := Int_part (T / dt)) in *.
  assert (E : T / dt * dt = T) by (field; lra).
  assert (Z0 : (0 <= z)%Z).
  { assert (0 <= T / dt) by (apply Rmult_le_pos; [auto|left; apply Rinv_0_lt_compat; auto]). apply Z.lt_succ_r. apply lt_IZR. unfold Z.succ. rewrite plus_IZR. lra. }
  assert (IZ : IZR z = INR (Z.to_nat z)) by (rewrite INR_IZR_INZ, Z2Nat.id by auto; reflexivity).
  assert (L : length (arange 0 (IZR z * dt + dt) dt) = S (Z.to_nat z)).
  { apply arange_count_iff; auto; [lia|]. rewrite S_INR, IZ. split; lra. }
  repeat split.
  - exact L.
  - intros k K. rewrite arange_nth by auto. ring.
  - rewrite L. replace (S (Z.to_nat z) - 1)%nat with (Z.to_nat z) by lia. rewrite <- IZ. destruct B as [B _]. apply (Rmult_le_compat_r dt) in B; lra.
  - rewrite L, S_INR, <- IZ. destruct B as [_ B]. apply (Rmult_lt_compat_r dt) in B; lra.
Qed.
Lemma cumu_spec (ts vs : list R) : length vs = length ts -> cumu_vals ts vs = held_integrals ts vs.
Proof.
  intros L. unfold cumu_vals, held_integrals. destruct ts as [|t0 ts]; [destruct vs; [reflexivity|discriminate]|].
  assert (LZ : length (zipw nmul (n0 :: diff (t0 :: ts)) vs) = length (t0 :: ts)).
  { rewrite zipw_length. cbn [length]. rewrite diff_length. cbn [length] in *. lia. }
  assert (LC : length (cumsum (zipw nmul (n0 :: diff (t0 :: ts)) vs)) = length (t0 :: ts)) by (unfold cumsum; rewrite cumsum_from_length; auto).
  apply (nth_ext _ _ 0 0); [rewrite map_length, seq_length; auto|]. intros i Hi. rewrite LC in Hi.
  rewrite cumsum_nth by lia. rewrite nth_map_seq by auto. rewrite Nat.add_0_l.
  unfold held_integral. clear LC. induction i as [|i IH].
  - destruct vs as [|v0 vs]; [discriminate|]. cbn. unR. change (@n0 R RNum) with 0. ring.
  - rewrite Rsum_firstn_S by lia. rewrite IH by lia. rewrite seq_S, map_app, Rsum_app. f_equal. cbn [map Rsum fold_right Nat.add].
    rewrite (zipw_nth _ _ _ _ 0 0 0) by (cbn [length] in *; rewrite ?diff_length; cbn [length]; lia). cbn [nth]. rewrite diff_nth by (cbn [length] in *; lia). unR. destruct i; cbn [nth]; ring.
Qed.

Lemma rate_total (nt ts vs : list R) dt k : dt <> 0 -> (k < length nt)%nat ->
  dt * Rsum (firstn (S k) (resample_rate nt ts vs dt)) = interp1 (nth k nt 0) (combine ts (cumu_vals ts vs)).
Proof.
  intros D K. rewrite <- interp_nth by auto. unfold resample_rate. set (l := interp nt ts (cumu_vals ts vs)).
  assert (L : length l = length nt) by apply interp_len. clearbody l.
  set (f := fun x : R => (x / dt)%num).
  assert (N : forall j, (j < length l)%nat -> nth j (map f (diff_prepend n0 l)) 0 = (nth j l 0 - match j with O => 0 | S i => nth i l 0 end) / dt).
  { intros j J. rewrite (nth_indep _ 0 (f 0)) by (rewrite map_length, diff_prepend_length; auto). rewrite map_nth. unfold f. rewrite diff_prepend_nth by auto. unR. reflexivity. }
  assert (ML : length (map f (diff_prepend n0 l)) = length l) by (rewrite map_length, diff_prepend_length; auto).
  revert K. induction k as [|k IH]; intros K.
  - rewrite Rsum_firstn_S by lia. rewrite N by lia. cbn [firstn Rsum fold_right]. field. auto.
  - rewrite Rsum_firstn_S by lia. rewrite N by lia. rewrite Rmult_plus_distr_l, IH by lia. field. auto.
Qed.
Lemma rate_length (nt ts vs : list R) dt : length (resample_rate nt ts vs dt) = length nt.
Proof. unfold resample_rate. rewrite map_length, diff_prepend_length. apply interp_len. Qed.
Lemma rate_first (nt ts vs : list R) dt : ts <> [] -> length vs = length ts -> increasing ts -> 0 < dt -> nt <> [] -> nth 0 nt 0 = 0 -> 0 <= hd 0 ts ->
  nth 0 (resample_rate nt ts vs dt) 0 = 0.
Proof.
  intros NE L I D NN Z H. assert (K : (0 < length nt)%nat) by (destruct nt; [congruence|cbn; lia]).
  pose proof (rate_total nt ts vs dt 0 ltac:(lra) K) as E. rewrite Rsum_firstn_S in E by (rewrite rate_length; auto). cbn [firstn Rsum fold_right] in E.
  rewrite cumu_spec in E by auto. rewrite Z in E.
  assert (LH : length (held_integrals ts vs) = length ts) by (unfold held_integrals; rewrite map_length, seq_length; auto).
  pose proof (interp1_polyline ts (held_integrals ts vs) 0 NE LH I) as P.
  assert (P2 : on_polyline ts (held_integrals ts vs) 0 0).
  { left. split; auto. destruct ts; [congruence|]. reflexivity. }
  pose proof (on_polyline_unique _ _ _ _ _ NE LH I P P2) as Q. rewrite Q in E.
  assert (dt * nth 0 (resample_rate nt ts vs dt) 0 = 0) by lra. apply Rmult_integral in H0. destruct H0; [lra|auto].
Qed.
Lemma resample_form (df : frame R) dt tc rv hv ts nt : column tc df = Ok ts -> resample_time ts dt = Ok nt ->
  exists out, resample_frame df dt tc rv hv = Ok out /\
  out = flat_map (fun c : string * list R => if existsb (String.eqb (fst c)) rv then [(fst c, resample_rate nt ts (snd c) dt)]
     else if existsb (String.eqb (fst c)) hv then [] else [(fst c, interp nt ts (snd c))]) df.
Proof.
  intros C T. unfold resample_frame. rewrite C. cbn [bindR]. rewrite T. cbn [bindR]. eexists. split; [reflexivity|].
  clear C. induction df as [|[n v] df IH]; [reflexivity|]. cbn [flat_map]. rewrite IH. reflexivity.
Qed.
Lemma existsb_name s l : existsb (String.eqb s) l = true <-> In s l.
Proof. rewrite existsb_exists. split; [intros (x & I & E); apply String.eqb_eq in E; subst; auto|intros I; exists s; split; auto; apply String.eqb_refl]. Qed.
Lemma existsb_name_false s l : existsb (String.eqb s) l = false <-> ~ In s l.
Proof. rewrite <- existsb_name. destruct (existsb _ _); split; intros; congruence. Qed.
Lemma column_in {F} (c : string) (df : frame F) v : NoDup (map fst df) -> In (c, v) df -> column c df = Ok v.
Proof.
  intros N I. apply in_split in I. destruct I as (a & b & ->). apply column_spec. exists a, b. split; auto.
  rewrite map_app in N. cbn in N. apply NoDup_remove_2 in N. intros Q. apply N. apply in_or_app. auto.
Qed.
Section Frame.
  Variables (df : frame R) (dt : R) (tc : string) (rv hv : list string) (ts : list R).
  Hypothesis C : column tc df = Ok ts. Hypothesis NE : ts <> [].
  Lemma frame_time : exists nt, resample_time ts dt = Ok nt.
  Proof. unfold resample_time. destruct ts; [congruence|]. rewrite pyget_last. cbn [bindR]. eauto. Qed.
  Lemma frame_out : exists out nt, resample_frame df dt tc rv hv = Ok out /\ resample_time ts dt = Ok nt /\
    (forall name vals, In (name, vals) df -> In name rv -> In (name, resample_rate nt ts vals dt) out) /\
    (forall name vals, In (name, vals) df -> ~ In name rv -> ~ In name hv -> In (name, interp nt ts vals) out) /\
    map fst out = filter (fun n => existsb (String.eqb n) rv || negb (existsb (String.eqb n) hv)) (map fst df).
  Proof.
    destruct frame_time as [nt T]. destruct (resample_form df dt tc rv hv ts nt C T) as (out & E & F). exists out, nt.
    split; [auto|]. split; [auto|]. rewrite F. repeat split.
    - intros name vals I R. apply in_flat_map. exists (name, vals). split; auto. cbn [fst snd]. apply existsb_name in R. rewrite R. left. auto.
    - intros name vals I R H. apply in_flat_map. exists (name, vals). split; auto. cbn [fst snd].
      apply existsb_name_false in R. apply existsb_name_false in H. rewrite R, H. left. auto.
    - clear. induction df as [|[n v] l IH]; [reflexivity|]. cbn [flat_map map filter fst snd]. rewrite map_app, IH.
      destruct (existsb (String.eqb n) rv); [reflexivity|]. destruct (existsb (String.eqb n) hv); reflexivity.
  Qed.
End Frame.
Lemma NoDup_filter_names (f : string -> bool) l : NoDup l -> NoDup (filter f l).
Proof. apply NoDup_filter. Qed.
Lemma resample_missing (df : frame R) dt tc rv hv : ~ In tc (map fst df) -> resample_frame df dt tc rv hv = Err KeyError.
Proof.
  intros H. unfold resample_frame. assert (E : column tc df = Err KeyError).
  { induction df as [|[k w] l IH]; [reflexivity|]. cbn. destruct (String.eqb_spec k tc); [subst; exfalso; apply H; left; auto|]. apply IH. intros Q. apply H. right. auto. }
  rewrite E. reflexivity.
Qed.

(** A straight line is its own polyline. *)
Lemma polyline_line (k b : R) xs x y : xs <> [] -> increasing xs -> on_polyline xs (map (fun a => k * a + b) xs) x y -> hd 0 xs <= x <= last xs 0 -> y = k * x + b.
Proof.
  intros NE I [[H ->]|[[H ->]|(i & a & b' & c & d & A & B & C & D & H & ->)]] R.
  - destruct xs as [|x0 xs]; [congruence|]. cbn [map hd] in *. replace x with x0 by lra. reflexivity.
  - destruct xs as [|x0 xs]; [congruence|]. set (f := fun a => k * a + b) in *.
    assert (E : last (map f (x0 :: xs)) 0 = f (last (x0 :: xs) 0)). { rewrite <- (last_map f). apply last_default. }
    rewrite E. unfold f. replace x with (last (x0 :: xs) 0) by lra. reflexivity.
  - rewrite nth_error_map in C, D. rewrite A in C. rewrite B in D. injection C as <-. injection D as <-.
    assert (a < b') by (apply (I i (S i)); auto). field. lra.
Qed.
Lemma held_const (ts : list R) c k : (k < length ts)%nat -> held_integral ts (repeat c (length ts)) k = c * (nth k ts 0 - hd 0 ts).
Proof.
  intros K. unfold held_integral. induction k as [|k IH].
  - cbn. destruct ts; cbn; ring.
  - rewrite seq_S, map_app, Rsum_app, IH by lia. cbn [map Rsum fold_right Nat.add]. rewrite nth_repeat0.
    destruct (Nat.ltb_spec (S k) (length ts)); [|lia]. ring.
Qed.
Lemma held_const_list (ts : list R) c : held_integrals ts (repeat c (length ts)) = map (fun a => c * a + - c * hd 0 ts) ts.
Proof.
  unfold held_integrals. apply (nth_ext _ _ 0 0); [rewrite !map_length, seq_length; auto|]. intros i Hi. rewrite map_length, seq_length in Hi.
  rewrite nth_map_seq by auto. rewrite Nat.add_0_l, held_const by auto. set (f := fun a => c * a + - c * hd 0 ts).
  rewrite (nth_indep (map f ts) 0 (f 0)) by (rewrite map_length; auto). rewrite map_nth. unfold f. ring.
Qed.
Lemma Rsum_firstn_nth (l : list R) k : (k < length l)%nat -> nth k l 0 = Rsum (firstn (S k) l) - Rsum (firstn k l).
Proof. intros K. rewrite Rsum_firstn_S by auto. ring. Qed.
Lemma column_filter_none (c : string) (out : frame R) : ~ In c (map fst out) -> column c out = Err KeyError.
Proof.
  induction out as [|[k w] l IH]; intros H; [reflexivity|]. cbn. destruct (String.eqb_spec k c); [subst; exfalso; apply H; left; auto|]. apply IH. intros Q. apply H. right. auto.
Qed.
Lemma resample_all (df : frame R) dt tc rv hv ts : NoDup (map fst df) -> In (tc, ts) df -> (forall c, In c df -> length (snd c) = length ts) ->
  0 < dt -> ts <> [] -> increasing ts -> 0 <= last ts 0 ->
  exists out n, resample_frame df dt tc rv hv = Ok out /\ INR n * dt <= last ts 0 < INR (S n) * dt /\
    map fst out = filter (fun c => existsb (String.eqb c) rv || negb (existsb (String.eqb c) hv)) (map fst df) /\
    (forall name vals, In (name, vals) df -> In name rv -> exists ys, column name out = Ok ys /\ length ys = S n /\
       forall k, (k <= n)%nat -> on_polyline ts (held_integrals ts vals) (INR k * dt) (dt * Rsum (firstn (S k) ys))) /\
    (forall name vals, In (name, vals) df -> ~ In name rv -> ~ In name hv -> exists ys, column name out = Ok ys /\ length ys = S n /\
       forall k, (k <= n)%nat -> on_polyline ts vals (INR k * dt) (nth k ys 0)) /\
    (forall name, In name hv -> ~ In name rv -> column name out = Err KeyError).
Proof.
  intros ND TC LEN D NE INC P. pose proof (column_in _ _ _ ND TC) as C.
  destruct (frame_out df dt tc rv hv ts C NE) as (out & nt & E & T & HR & HS & HN).
  destruct (resample_time_spec ts dt nt D P T) as (L & N & B). set (n := Z.to_nat (Int_part (last ts 0 / dt))) in *.
  assert (ND2 : NoDup (map fst out)) by (rewrite HN; apply NoDup_filter; auto).
  exists out, n. split; [auto|]. split; [rewrite L in B; replace (S n - 1)%nat with n in B by lia; auto|]. split; [auto|]. split; [|split].
  - intros name vals I R. exists (resample_rate nt ts vals dt). split; [apply column_in; auto|]. split; [rewrite rate_length; auto|].
    intros k K. rewrite rate_total by (lra || lia). rewrite N by lia. pose proof (LEN _ I) as LV. cbn in LV. rewrite cumu_spec by auto.
    apply interp1_polyline; auto. unfold held_integrals. rewrite map_length, seq_length. auto.
  - intros name vals I R H. exists (interp nt ts vals). split; [apply column_in; auto|]. split; [rewrite interp_len; auto|].
    intros k K. rewrite interp_nth by lia. rewrite N by lia. pose proof (LEN _ I) as LV. cbn in LV. apply interp1_polyline; auto.
  - intros name H R. apply column_filter_none. rewrite HN. intros Q. apply filter_In in Q. destruct Q as [_ Q].
    apply existsb_name in H. apply existsb_name_false in R. rewrite H, R in Q. discriminate.
Qed.
