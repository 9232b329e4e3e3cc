(** What each SimDrive method leaves alone, for every number type; and the structure of a completed
    walk: every row is the result of solve_row on the row before it. *)
From Verif Require Import Num Numpy ListFacts CycleModel VehModel SimModel SimState WalkModel.
From Coq Require Import Lia.

(** ** Results of monadic code *)
Lemma bind_ok {A B} (r : Res A) (k : A -> Res B) y :
  bindR r k = Ok y -> exists x, r = Ok x /\ k x = Ok y.
Proof. destruct r; cbn; [eauto | discriminate]. Qed.
Ltac inv_ok H :=
  cbv beta zeta in H;
  match type of H with
  | bindR _ _ = Ok _ => let x := fresh "x" in let E := fresh "E" in
                        apply bind_ok in H; destruct H as (x & E & H); cbv beta in H
  | Ok _ = Ok _ => injection H as H; subst
  | Err _ = Ok _ => discriminate H
  end.

Ltac if_in H :=
  cbv beta zeta in H;
  match type of H with (if ?b then _ else _) = _ => let E := fresh "C" in destruct b eqn:E end.

Section Lists.
  Context {A B : Type}.
  Lemma mapi_from_length (f : nat -> A -> B) j l : length (mapi_from f j l) = length l.
  Proof. revert j; induction l; cbn; auto. Qed.
  Lemma mapi_from_nth (f : nat -> A -> B) l : forall j i da db, (i < length l)%nat ->
    nth i (mapi_from f j l) db = f (j + i)%nat (nth i l da).
  Proof.
    induction l as [|x l IH]; intros j i da db H; cbn in *; [lia|].
    destruct i as [|i]; [now rewrite Nat.add_0_r|].
    rewrite (IH (S j) i da) by lia. now rewrite Nat.add_succ_r.
  Qed.
End Lists.

Section Frame.
  Context {F : Type} {N : Num F}.

  Definition core (r : row F) := (misc r, lims r, pwr r, spd r, hyb r, forced r, dec r, fc r).
  Definition road (r : row F) : F := cur_max_roadway_chg_kw (ctl r).

  (** ** Rows after an update *)
  Lemma nth_set_other {A} (l : list A) k j v d : j <> k -> nth j (set_nth l k v) d = nth j l d.
  Proof.
    intros H. pose proof (set_nth_other l k j v (not_eq_sym H)) as E.
    destruct (nth_error l j) eqn:E2.
    - rewrite (nth_error_nth _ _ d E2). apply nth_error_nth. now rewrite E.
    - apply nth_error_None in E2. rewrite !nth_overflow; auto. now rewrite set_nth_length.
  Qed.
  Lemma row_at_out (d : sdrive F) i : (length (d_rows d) <= i)%nat -> row_at d i = zero_row.
  Proof. intros; unfold row_at; now rewrite nth_overflow. Qed.
  Lemma upd_row_length (d : sdrive F) i f : length (d_rows (upd_row d i f)) = length (d_rows d).
  Proof. unfold upd_row; cbn. apply set_nth_length. Qed.
  Lemma upd_row_same (d : sdrive F) i f : (i < length (d_rows d))%nat ->
    row_at (upd_row d i f) i = f (row_at d i).
  Proof.
    intros. unfold row_at at 1, upd_row. cbn.
    assert (E : nth_error (set_nth (d_rows d) i (f (row_at d i))) i = Some (f (row_at d i)))
      by (now apply set_nth_same).
    now apply nth_error_nth with (d := zero_row) in E.
  Qed.
  Lemma upd_row_other (d : sdrive F) i j f : j <> i -> row_at (upd_row d i f) j = row_at d j.
  Proof. intros H. unfold row_at at 1, upd_row; cbn. now apply nth_set_other. Qed.
  Lemma upd_row_out (d : sdrive F) i f : (length (d_rows d) <= i)%nat -> forall j, row_at (upd_row d i f) j = row_at d j.
  Proof.
    intros H j. destruct (Nat.eq_dec j i) as [->|E]; [|now apply upd_row_other].
    rewrite !row_at_out; auto. now rewrite upd_row_length.
  Qed.
  Lemma ctl_rows_at (d : sdrive F) f j : (j < length (d_rows d))%nat ->
    row_at (upd_ctl_rows d f) j = row_ctl (f j) (row_at d j).
  Proof. intros. unfold row_at, upd_ctl_rows; cbn. now rewrite (mapi_from_nth _ _ _ _ zero_row). Qed.
  Lemma ctl_rows_length (d : sdrive F) f : length (d_rows (upd_ctl_rows d f)) = length (d_rows d).
  Proof. unfold upd_ctl_rows; cbn. apply mapi_from_length. Qed.

  (** ** Everything but the rows and the cycle *)
  Definition same_fixed (d d' : sdrive F) : Prop :=
    d_veh d' = d_veh d /\ d_props d' = d_props d /\ d_sp d' = d_sp d /\ d_cyc0 d' = d_cyc0 d /\
    d_cache d' = d_cache d /\ d_i d' = d_i d /\ d_hev_sim_count d' = d_hev_sim_count d.
  (** The auxiliary load that a solve of step [i] would use. *)
  Definition next_aux (d : sdrive F) (i : nat) : F :=
    aux_in_kw (set_misc_calcs (d_veh d) (env_at d i) (row_at d (i - 1)) (aux_in_kw (misc (row_at d i)))).

  Record frame (i : nat) (d d' : sdrive F) : Prop := {
    fr_fixed : same_fixed d d';
    fr_len : length (d_rows d') = length (d_rows d);
    fr_time : time_s (d_cyc d') = time_s (d_cyc d);
    fr_grade : grade (d_cyc d') = grade (d_cyc d);
    fr_rt : road_type (d_cyc d') = road_type (d_cyc d);
    fr_mlen : length (mps (d_cyc d')) = length (mps (d_cyc d));
    fr_mps : forall j, (j < i)%nat -> cmps (d_cyc d') j = cmps (d_cyc d) j;
    fr_below : forall j, (j < i)%nat -> row_at d' j = row_at d j;
    fr_above : forall j, (i < j)%nat -> core (row_at d' j) = core (row_at d j);
    fr_road : forall j, road (row_at d' j) = road (row_at d j);
    fr_miss : forall j, trace_miss_iters (ctl (row_at d' j)) = trace_miss_iters (ctl (row_at d j));
    fr_fresh : newton_iters (spd (row_at d i)) = 0%nat -> newton_iters (spd (row_at d' i)) = 0%nat;
    fr_aux : (1 <= i)%nat -> next_aux d' i = next_aux d i }.

  Lemma same_fixed_refl d : same_fixed d d.
  Proof. repeat split. Qed.
  Lemma same_fixed_trans d1 d2 d3 : same_fixed d1 d2 -> same_fixed d2 d3 -> same_fixed d1 d3.
  Proof. unfold same_fixed; intuition congruence. Qed.
  Lemma frame_refl i d : frame i d d.
  Proof. constructor; auto using same_fixed_refl. Qed.
  Lemma frame_trans i d1 d2 d3 : frame i d1 d2 -> frame i d2 d3 -> frame i d1 d3.
  Proof.
    intros [] []; constructor; try congruence; eauto using same_fixed_trans.
    - intros j H; rewrite fr_mps1, fr_mps0; auto.
    - intros j H; rewrite fr_below1, fr_below0; auto.
    - intros j H; rewrite fr_above1, fr_above0; auto.
    - intros H. rewrite fr_aux1, fr_aux0; auto.
  Qed.

  (** The auxiliary load depends only on the auxiliary entries from [i] on. *)
  Lemma skipn_map_nth {A} (f : row F -> A) l l' i :
    length l = length l' -> (forall j, (i <= j)%nat -> f (nth j l zero_row) = f (nth j l' zero_row)) ->
    map f (skipn i l) = map f (skipn i l').
  Proof.
    revert l l'; induction i as [|i IH]; intros l l' HL H.
    - cbn. revert l' HL H. induction l as [|x l IHl]; intros [|y l'] HL H; try discriminate; auto.
      cbn. f_equal. { apply (H 0%nat); lia. }
      apply IHl; [now inversion HL|]. intros j _. apply (H (S j)); lia.
    - destruct l as [|x l], l' as [|y l']; try discriminate; auto. cbn.
      apply IH; [now inversion HL|]. intros j Hj. apply (H (S j)); lia.
  Qed.
  Lemma next_aux_eq d d' i :
    d_veh d' = d_veh d -> length (d_rows d') = length (d_rows d) ->
    (forall j, (i <= j)%nat -> aux_in_kw (misc (row_at d' j)) = aux_in_kw (misc (row_at d j))) ->
    next_aux d' i = next_aux d i.
  Proof.
    intros HV HL H. unfold next_aux, set_misc_calcs, env_at. cbn.
    rewrite HV, (H i) by lia.
    rewrite (skipn_map_nth (fun r => aux_in_kw (misc r)) (d_rows d') (d_rows d)); auto.
  Qed.
  Lemma all_zero_app (l1 l2 : list F) : all_zero (l1 ++ l2) = (all_zero l1 && all_zero l2)%bool.
  Proof. apply forallb_app. Qed.
  Lemma skipn_split (l : list (row F)) i : (i < length l)%nat -> skipn i l = nth i l zero_row :: skipn (S i) l.
  Proof.
    revert i; induction l as [|x l IH]; intros [|i] H; cbn in *; try lia; auto.
    apply IH. lia.
  Qed.
  (** The load that set_misc_calcs falls back to. *)
  Definition default_aux (v : vehicle F) : F := if no_elec_aux v then ndiv (aux_kw v) (alt_eff v) else aux_kw v.
  Lemma next_aux_unfold d i : (i < length (d_rows d))%nat ->
    next_aux d i =
    if (neqb (aux_in_kw (misc (row_at d i))) n0
        && all_zero (map (fun r => aux_in_kw (misc r)) (skipn (S i) (d_rows d))))%bool
    then default_aux (d_veh d) else aux_in_kw (misc (row_at d i)).
  Proof.
    intros Hi. unfold next_aux, set_misc_calcs, env_at. cbn [aux_in_kw e_aux_zero].
    rewrite (skipn_split (d_rows d) i) by lia. reflexivity.
  Qed.
  (** Using the load just computed again gives the same load. *)
  Lemma next_aux_solved d d' i : (i < length (d_rows d))%nat ->
    d_veh d' = d_veh d -> length (d_rows d') = length (d_rows d) ->
    aux_in_kw (misc (row_at d' i)) = next_aux d i ->
    (forall j, (i < j)%nat -> aux_in_kw (misc (row_at d' j)) = aux_in_kw (misc (row_at d j))) ->
    next_aux d' i = next_aux d i.
  Proof.
    intros Hi HV HL Hs H.
    rewrite (next_aux_unfold d') by lia. rewrite Hs, HV.
    rewrite (skipn_map_nth (fun r => aux_in_kw (misc r)) (d_rows d') (d_rows d) (S i)); auto.
    rewrite next_aux_unfold by lia.
    set (az := all_zero _). set (a := aux_in_kw _).
    destruct az; [|now rewrite !Bool.andb_false_r].
    rewrite !Bool.andb_true_r.
    destruct (neqb a n0) eqn:E; [|rewrite E; reflexivity].
    destruct (neqb (default_aux (d_veh d)) n0); reflexivity.
  Qed.

  (** ** Frames of the building blocks *)
  Lemma frame_ctl i d f : (forall j c, (j < i)%nat -> f j c = c) ->
    (forall j c, cur_max_roadway_chg_kw (f j c) = cur_max_roadway_chg_kw c) ->
    (forall j c, trace_miss_iters (f j c) = trace_miss_iters c) ->
    frame i d (upd_ctl_rows d f).
  Proof.
    intros H1 H2 H3.
    assert (K : forall j, core (row_at (upd_ctl_rows d f) j) = core (row_at d j)).
    { intros j. destruct (Nat.lt_ge_cases j (length (d_rows d))).
      - now rewrite ctl_rows_at.
      - rewrite !row_at_out; auto. now rewrite ctl_rows_length. }
    constructor; auto.
    - repeat split.
    - apply ctl_rows_length.
    - intros j Hj. destruct (Nat.lt_ge_cases j (length (d_rows d))).
      + rewrite ctl_rows_at by auto. unfold row_ctl. rewrite H1 by auto. now destruct (row_at d j).
      + rewrite !row_at_out; auto. now rewrite ctl_rows_length.
    - intros j. unfold road. destruct (Nat.lt_ge_cases j (length (d_rows d))).
      + rewrite ctl_rows_at by auto. cbn. apply H2.
      + rewrite !row_at_out; auto. now rewrite ctl_rows_length.
    - intros j. destruct (Nat.lt_ge_cases j (length (d_rows d))).
      + rewrite ctl_rows_at by auto. cbn. apply H3.
      + rewrite !row_at_out; auto. now rewrite ctl_rows_length.
    - intros E. generalize (K i). unfold core. intros Q. injection Q as _ _ _ Q _ _ _ _. now rewrite Q.
    - intros _. apply next_aux_eq; auto. { apply ctl_rows_length. }
      intros j _. generalize (K j). unfold core. intros Q. injection Q as Q _ _ _ _ _ _ _. now rewrite Q.
  Qed.
  Lemma frame_upd_ctl i k d f : (i <= k)%nat ->
    (forall c, cur_max_roadway_chg_kw (f c) = cur_max_roadway_chg_kw c) ->
    (forall c, trace_miss_iters (f c) = trace_miss_iters c) ->
    frame i d (upd_row d k (row_ctl f)).
  Proof.
    intros Hk H2 H3.
    destruct (Nat.lt_ge_cases k (length (d_rows d))) as [HL|HL].
    2:{ pose proof (upd_row_out d k (row_ctl f) HL) as Q.
        constructor; auto using upd_row_length; try (intros; now rewrite Q).
        - repeat split.
        - intros _. apply next_aux_eq; auto using upd_row_length. intros; now rewrite Q. }
    assert (K : forall j, core (row_at (upd_row d k (row_ctl f)) j) = core (row_at d j)).
    { intros j. destruct (Nat.eq_dec j k) as [->|E].
      - now rewrite upd_row_same. - now rewrite upd_row_other. }
    constructor; auto using upd_row_length.
    - repeat split.
    - intros j Hj. apply upd_row_other. lia.
    - intros j. unfold road. destruct (Nat.eq_dec j k) as [->|E].
      + rewrite upd_row_same by auto. cbn. apply H2. + now rewrite upd_row_other.
    - intros j. destruct (Nat.eq_dec j k) as [->|E].
      + rewrite upd_row_same by auto. cbn. apply H3. + now rewrite upd_row_other.
    - intros E. generalize (K i). unfold core. intros Q. injection Q as _ _ _ Q _ _ _ _. now rewrite Q.
    - intros _. apply next_aux_eq; auto using upd_row_length.
      intros j _. generalize (K j). unfold core. intros Q. injection Q as Q _ _ _ _ _ _ _. now rewrite Q.
  Qed.
  Lemma frame_with_cyc i d c :
    time_s c = time_s (d_cyc d) -> grade c = grade (d_cyc d) -> road_type c = road_type (d_cyc d) ->
    length (mps c) = length (mps (d_cyc d)) -> (forall j, (j < i)%nat -> cmps c j = cmps (d_cyc d) j) ->
    frame i d (with_cyc d c).
  Proof. intros. constructor; auto. repeat split. Qed.
  Lemma cmps_set (d : sdrive F) k v j : j <> k -> cmps (d_cyc (set_cyc_mps d k v)) j = cmps (d_cyc d) j.
  Proof. intros H. unfold cmps, set_cyc_mps; cbn. now apply nth_set_other. Qed.
  Lemma cmps_set_same (d : sdrive F) k v : (k < length (mps (d_cyc d)))%nat ->
    cmps (d_cyc (set_cyc_mps d k v)) k = v.
  Proof.
    intros H. unfold cmps, set_cyc_mps; cbn. apply nth_error_nth. now apply set_nth_same.
  Qed.
  Lemma frame_set_mps i k d v : (i <= k)%nat -> frame i d (set_cyc_mps d k v).
  Proof.
    intros Hk. unfold set_cyc_mps. apply frame_with_cyc; cbn; auto.
    - apply set_nth_length.
    - intros j Hj. apply (cmps_set d k v). lia.
  Qed.
  Lemma next_aux_row d i : (i < length (d_rows d))%nat ->
    aux_in_kw (misc (row_at (solve_step d i) i)) = next_aux d i.
  Proof.
    intros H. unfold solve_step. rewrite upd_row_same by auto.
    unfold solve_row. destruct (set_ach_speed _ _ _ _ _ _ _ _); reflexivity.
  Qed.
  Lemma solve_row_ctl v pr s e p c : ctl (solve_row v pr s e p c) = ctl c.
  Proof. unfold solve_row. destruct (set_ach_speed _ _ _ _ _ _ _ _); reflexivity. Qed.
  Lemma frame_solve_reset i d : frame i d (reset_newton (solve_step d i) i).
  Proof.
    destruct (Nat.lt_ge_cases i (length (d_rows d))) as [HL|HL].
    2:{ assert (Q : forall j, row_at (reset_newton (solve_step d i) i) j = row_at d j).
        { intros j. unfold reset_newton, solve_step. rewrite !upd_row_out; auto. now rewrite upd_row_length. }
        assert (QL : length (d_rows (reset_newton (solve_step d i) i)) = length (d_rows d)).
        { unfold reset_newton, solve_step. now rewrite !upd_row_length. }
        constructor; auto; try (intros; now rewrite Q).
        - repeat split.
        - intros _. apply next_aux_eq; auto. intros; now rewrite Q. }
    assert (QL : length (d_rows (reset_newton (solve_step d i) i)) = length (d_rows d)).
    { unfold reset_newton, solve_step. now rewrite !upd_row_length. }
    assert (HL' : (i < length (d_rows (solve_step d i)))%nat) by (unfold solve_step; now rewrite upd_row_length).
    assert (Q : forall j, j <> i -> row_at (reset_newton (solve_step d i) i) j = row_at d j).
    { intros j Hj. unfold reset_newton, solve_step. now rewrite !upd_row_other. }
    assert (QC : ctl (row_at (reset_newton (solve_step d i) i) i) = ctl (row_at d i)).
    { unfold reset_newton. rewrite upd_row_same by auto. unfold row_spd; cbn [ctl misc].
      unfold solve_step. rewrite upd_row_same by auto. apply solve_row_ctl. }
    constructor; auto.
    - repeat split.
    - intros j Hj. apply Q. lia.
    - intros j Hj. rewrite Q; auto; lia.
    - intros j. unfold road. destruct (Nat.eq_dec j i) as [->|E]; [now rewrite QC|now rewrite Q].
    - intros j. destruct (Nat.eq_dec j i) as [->|E]; [now rewrite QC|now rewrite Q].
    - intros _. unfold reset_newton. now rewrite upd_row_same.
    - intros _. apply next_aux_solved; auto.
      + unfold reset_newton. rewrite upd_row_same by auto. unfold row_spd; cbn [ctl misc]. now apply next_aux_row.
      + intros j Hj. rewrite Q; auto; lia.
  Qed.
  Lemma frame_solve_adopt i d : frame i d (solve_and_adopt d i).
  Proof. unfold solve_and_adopt. eapply frame_trans; [apply frame_solve_reset | now apply frame_set_mps]. Qed.

  Lemma frame_coast_range i a b d : frame i d (set_coast_range d i a b).
  Proof.
    apply frame_ctl; intros j c; intros.
    - apply Nat.ltb_lt in H. now rewrite H.
    - now destruct (Nat.ltb j i).
    - now destruct (Nat.ltb j i).
  Qed.
  Lemma frame_clear i d : frame i d (clear_coast d i).
  Proof. apply frame_coast_range. Qed.
  Lemma frame_add_range i a b d : (i <= a)%nat -> frame i d (add_coast_range d a b).
  Proof.
    intros H. apply frame_ctl; intros j c; intros.
    - destruct (Nat.leb_spec a j); [lia|reflexivity].
    - now destruct (_ && _)%bool.
    - now destruct (_ && _)%bool.
  Qed.

  (** Cycle editing functions *)
  Lemma jerk_loop_frame idx n v0 a0 k dt : forall fuel ni vs v vs' v',
    jerk_loop vs n idx v0 v a0 k dt ni fuel = (vs', v') -> (1 <= ni)%nat ->
    length vs' = length vs /\ (forall j, (j < idx)%nat -> nth j vs' n0 = nth j vs n0).
  Proof.
    induction fuel as [|f IH]; intros ni vs v vs' v' H Hn; cbn in H.
    - injection H as <- <-. auto.
    - destruct (Nat.leb n (idx - 1 + ni)); [injection H as <- <-; auto|].
      apply IH in H; [|lia]. destruct H as [L H]. rewrite set_nth_length in L. split; auto.
      intros j Hj. rewrite H by auto. apply nth_set_other. lia.
  Qed.
  Definition cyc_frame (i : nat) (c c' : cyc F) : Prop :=
    time_s c' = time_s c /\ grade c' = grade c /\ road_type c' = road_type c /\
    length (mps c') = length (mps c) /\ forall j, (j < i)%nat -> cmps c' j = cmps c j.
  Lemma jerk_frame c idx n k a0 c' v :
    modify_by_const_jerk_trajectory c idx n k a0 = Ok (c', v) -> cyc_frame idx c c'.
  Proof.
    unfold modify_by_const_jerk_trajectory. intros H. inv_ok H. inv_ok H.
    destruct (jerk_loop _ _ _ _ _ _ _ _ _ _) as [vs w] eqn:L. injection H as <- <-.
    apply jerk_loop_frame in L; [|lia]. destruct L as [L1 L2].
    repeat split; cbn; auto.
  Qed.
  Lemma brake_frame c b i o c' v n :
    modify_with_braking_trajectory c b i o = Ok (c', v, n) -> cyc_frame i c c'.
  Proof.
    unfold modify_with_braking_trajectory. intros H. inv_ok H.
    if_in H. { inv_ok H. injection H as <- <- <-. repeat split. }
    inv_ok H. inv_ok H. if_in H. { injection H as <- <- <-. repeat split. }
    if_in H; [discriminate|].
    inv_ok H. inv_ok H. injection H as <- <- <-. destruct x3 as [c2 w]. eapply jerk_frame; eauto.
  Qed.
  Lemma cyc_frame_le i k c c' : (i <= k)%nat -> cyc_frame k c c' -> cyc_frame i c c'.
  Proof. intros H (A & B & C & D & E). repeat split; auto. intros; apply E; lia. Qed.
  Lemma frame_cyc i d c : cyc_frame i (d_cyc d) c -> frame i d (with_cyc d c).
  Proof. intros (A & B & C & D & E). now apply frame_with_cyc. Qed.

  Lemma write_speeds_frame i : forall vs k d, (i <= k)%nat -> (i < length (d_rows d))%nat ->
    frame i d (write_speeds d k vs).
  Proof.
    induction vs as [|v vs IH]; intros k d Hk Hi; cbn; [apply frame_refl|].
    eapply frame_trans; [|apply IH; [lia|auto]]. apply frame_set_mps. lia.
  Qed.
  Lemma generate_frame d i m d' x : (i < length (d_rows d))%nat ->
    generate_coast_trajectory d i m = Ok (d', x) -> frame i d d'.
  Proof.
    intros HI. unfold generate_coast_trajectory. intros H. inv_ok H. inv_ok H.
    if_in H. { injection H as <- <-. apply frame_refl. }
    if_in H.
    - inv_ok H. injection H as <- _. destruct m; [|injection E1 as <-; apply frame_refl].
      inv_ok E1. injection E1 as <-. destruct x3 as [[c v] n].
      eapply frame_trans; [eapply frame_cyc, brake_frame; eauto | apply frame_coast_range].
    - if_in H; [discriminate|]. inv_ok H. inv_ok H.
      destruct x3; [injection H as <- <-; apply frame_refl|].
      if_in H; [|injection H as <- <-; apply frame_refl].
      inv_ok H. injection H as <- _. destruct m; [|injection E3 as <-; apply frame_refl].
      inv_ok E3. injection E3 as <-. destruct x5 as [[c w] n].
      eapply frame_trans; [apply write_speeds_frame with (k := i); auto|].
      eapply frame_trans; [eapply frame_cyc, cyc_frame_le; [|eapply brake_frame; eauto]; lia | apply frame_coast_range].
  Qed.
  Lemma delay_frame d i d' : set_coast_delay d i = Ok d' -> frame i d d'.
  Proof.
    unfold set_coast_delay. intros H. inv_ok H. injection H as <-.
    apply frame_ctl; intros j c; intros.
    - apply Nat.ltb_lt in H. now rewrite H.
    - now destruct (Nat.ltb j i).
    - now destruct (Nat.ltb j i).
  Qed.
  Lemma full_brake_frame i idx : forall ks d, (i <= idx)%nat -> frame i d (full_brake d idx ks).
  Proof.
    induction ks as [|k ks IH]; intros d H; cbn [full_brake]; [apply frame_refl|].
    eapply frame_trans; [|apply IH; auto].
    eapply frame_trans; [apply frame_set_mps with (k := (idx + k)%nat); lia|].
    apply frame_upd_ctl; [lia|reflexivity|reflexivity].
  Qed.
  Lemma candidate_idx d p fbs idx n q : collision_candidate d p fbs idx n = Ok (Some q) -> pc_idx q = idx.
  Proof.
    unfold collision_candidate. intros H. inv_ok H. if_in H; [discriminate|].
    inv_ok H. destruct x0 as [k a0]. destruct (forallb _ _); [|discriminate]. injection H as <-. reflexivity.
  Qed.
  Lemma scan_idx d p fbs i : forall fuel idx best q,
    (i <= idx)%nat -> (forall b, best = Some b -> i <= pc_idx b)%nat ->
    collision_scan fuel d p fbs i idx best = Ok (Some q) -> (i <= pc_idx q)%nat.
  Proof.
    induction fuel as [|f IH]; intros idx best q Hi Hb H; cbn in H.
    - injection H as ->. auto.
    - if_in H.
      + if_in H; [injection H as ->; auto|]. apply IH in H; auto.
      + if_in H; [injection H as ->; auto|].
        if_in H; [injection H as ->; auto|].
        inv_ok H. apply IH in H; auto.
        intros b Eb. destruct x as [c|]; [|auto].
        apply candidate_idx in E. destruct best as [b0|].
        * destruct (nltb _ _); injection Eb as <-; [lia|auto].
        * injection Eb as <-. lia.
  Qed.
  Lemma search_idx d p i : forall fbss q, collision_search fbss d p i = Ok (Some q) -> (i <= pc_idx q)%nat.
  Proof.
    induction fbss as [|f r IH]; intros q H; cbn in H; [discriminate|].
    inv_ok H. destruct x as [c|]; [injection H as ->|auto].
    eapply scan_idx in E; eauto. discriminate.
  Qed.
  Lemma apply_frame d q i d' : (i <= pc_idx q)%nat -> apply_collision d q = Ok d' -> frame i d d'.
  Proof.
    unfold apply_collision. intros Hi H. inv_ok H. injection H as <-.
    destruct x as [c v].
    eapply frame_trans; [apply full_brake_frame; eauto|].
    eapply frame_trans; [eapply frame_cyc, cyc_frame_le; [|eapply jerk_frame; eauto]; lia|].
    apply frame_ctl; intros j k; intros.
    - destruct (Nat.ltb_spec j (pc_idx q + pc_n q)); [reflexivity|lia].
    - now destruct (Nat.ltb _ _).
    - now destruct (Nat.ltb _ _).
  Qed.
  Lemma prevent_frame i : forall fuel d tol d' b, prevent_collisions_f fuel d i tol = Ok (d', b) -> frame i d d'.
  Proof.
    induction fuel as [|f IH]; intros d tol d' b H; cbn [prevent_collisions_f] in H; [discriminate|].
    inv_ok H. if_in H; [injection H as <- <-; apply frame_refl|].
    inv_ok H. inv_ok H. destruct x1 as [q|].
    - inv_ok H. injection H as <- <-. eapply apply_frame; [eapply search_idx; eassumption|eassumption].
    - if_in H; [injection H as <- <-; apply frame_refl|]. eauto.
  Qed.
  Lemma start_frame d i d' : (i < length (d_rows d))%nat -> start_coast d i = Ok d' -> frame i d d'.
  Proof.
    intros HI. unfold start_coast. intros H. if_in H; [|injection H as <-; apply frame_refl].
    inv_ok H. destruct x; [|injection H as <-; apply frame_refl].
    inv_ok H. destruct x as [d1 v].
    apply generate_frame in E0; auto.
    assert (Q : frame i d (if nltb (snd (d1, v)) n0 then clear_coast (fst (d1, v)) i else fst (d1, v))).
    { cbn. destruct (nltb v n0); auto. eapply frame_trans; [eauto|apply frame_clear]. }
    destruct (coast_allow_passing _).
    - injection H as <-. exact Q.
    - inv_ok H. injection H as <-. destruct x as [d2 b]. eapply frame_trans; [exact Q|]. eapply prevent_frame; eauto.
  Qed.
  Lemma adjust_frame d i a d' b : adjust_coast d i a = Ok (d', b) -> frame i d d'.
  Proof.
    unfold adjust_coast. intros H. if_in H.
    - inv_ok H. injection H as <- <-. destruct x as [[c v] n].
      eapply frame_trans; [eapply frame_cyc, brake_frame; eauto | apply frame_coast_range].
    - inv_ok H. destruct x as [q|]; [|injection H as <- <-; apply frame_refl].
      inv_ok H. destruct x as [c v].
      assert (Q : frame i d (set_coast_range (with_cyc d c) i i (i + rv_n q))).
      { eapply frame_trans; [eapply frame_cyc, jerk_frame; eauto | apply frame_coast_range]. }
      if_in H.
      + inv_ok H. injection H as <- <-. destruct x as [[c2 w] n].
        eapply frame_trans; [exact Q|].
        eapply frame_trans; [eapply frame_cyc, cyc_frame_le; [|eapply brake_frame; eauto]; lia | apply frame_add_range; lia].
      + injection H as <- <-. exact Q.
  Qed.
  Lemma coast_frame d i d' : (i < length (d_rows d))%nat -> set_coast_speed d i = Ok d' -> frame i d d'.
  Proof.
    intros HI. unfold set_coast_speed. intros H. inv_ok H.
    apply start_frame in E; auto. rename x into d1.
    if_in H.
    { injection H as <-. destruct (idm_allow _); auto. eapply frame_trans; [eauto|]. now apply frame_set_mps. }
    set (d2 := if nltb _ _ then set_cyc_mps d1 i _ else d1) in *.
    assert (Q2 : frame i d d2).
    { unfold d2. destruct (nltb _ _); auto. eapply frame_trans; [eauto|]. now apply frame_set_mps. }
    assert (Q3 : frame i d (solve_and_adopt d2 i)) by (eapply frame_trans; [exact Q2|apply frame_solve_adopt]).
    cbv zeta in H. if_in H.
    - inv_ok H. injection H as <-. apply delay_frame in E0.
      eapply frame_trans; [exact Q3|]. eapply frame_trans; [apply frame_clear|].
      eapply frame_trans; [exact E0|]. now apply frame_set_mps.
    - if_in H; [|injection H as <-; exact Q3].
      inv_ok H. destruct x as [d4 b]. apply adjust_frame in E0.
      cbn [fst snd] in H. destruct b.
      + inv_ok H. injection H as <-.
        eapply frame_trans; [exact Q3|]. eapply frame_trans; [exact E0|].
        assert (Q5 : frame i d4 x).
        { destruct (coast_allow_passing _); [injection E1 as <-; apply frame_refl|].
          inv_ok E1. injection E1 as <-. destruct x0 as [d5 b]. eapply prevent_frame; eauto. }
        eapply frame_trans; [exact Q5|]. apply frame_solve_adopt.
      + injection H as <-. eapply frame_trans; [exact Q3|]. exact E0.
  Qed.
  Lemma idm_frame d i d' : set_speed_for_target_gap d i = Ok d' -> frame i d d'.
  Proof.
    unfold set_speed_for_target_gap. intros H. inv_ok H. injection H as <-. now apply frame_set_mps.
  Qed.
  (** Everything sim_drive_step does before its solve_step. *)
  Definition plan (d : sdrive F) : Res (sdrive F) :=
    let i := d_i d in
    let s := d_sp d in
    do d1 <- (if idm_allow s then
                do t <- idm_target d i;
                set_speed_for_target_gap (upd_row d i (row_ctl (ctl_target t))) i
              else Ok d);
    (if coast_allow s then set_coast_speed d1 i else Ok d1).
  Lemma plan_frame d d' : (d_i d < length (d_rows d))%nat -> plan d = Ok d' -> frame (d_i d) d d'.
  Proof.
    intros HI. unfold plan. intros H. inv_ok H.
    assert (Q : frame (d_i d) d x).
    { destruct (idm_allow _); [|injection E as <-; apply frame_refl].
      inv_ok E. apply idm_frame in E. eapply frame_trans; [|exact E].
      apply frame_upd_ctl; [lia|reflexivity|reflexivity]. }
    destruct (coast_allow _); [|injection H as <-; exact Q].
    eapply frame_trans; [exact Q|]. apply coast_frame; auto. now rewrite (fr_len _ _ _ Q).
  Qed.
End Frame.
