(** Proofs about to_microtrips and concat (properties C01-C03). *)
From Verif Require Import Num Numpy ListFacts CycleModel CycleSpec.

Section Generic.
  Context {F : Type} {N : Num F}.

  Lemma samples_of_samples (l : list (sample F)) : samples (of_samples l) = l.
  Proof.
    unfold samples, of_samples; cbn. induction l as [|[t v g r] l IH]; cbn; [reflexivity|].
    now rewrite IH.
  Qed.
  Lemma of_samples_samples (c : cyc F) : wf c -> of_samples (samples c) = c.
  Proof.
    destruct c as [ts vs gs rs]. unfold wf, samples, of_samples; cbn.
    intros (H1 & H2 & H3).
    cut (map s_t (zip4 ts vs gs rs) = ts /\ map s_v (zip4 ts vs gs rs) = vs /\
         map s_g (zip4 ts vs gs rs) = gs /\ map s_r (zip4 ts vs gs rs) = rs).
    { intros (-> & -> & -> & ->). reflexivity. }
    revert vs gs rs H1 H2 H3; induction ts as [|t ts IH];
      intros [|v vs] [|g gs] [|r rs]; cbn; try discriminate; [auto|].
    intros [= H1] [= H2] [= H3]. destruct (IH vs gs rs H1 H2 H3) as (-> & -> & -> & ->). auto.
  Qed.
  Lemma of_samples_app (a b : list (sample F)) :
    of_samples (a ++ b) = mkcyc (map s_t a ++ map s_t b) (map s_v a ++ map s_v b)
                                (map s_g a ++ map s_g b) (map s_r a ++ map s_r b).
  Proof. unfold of_samples. now rewrite !map_app. Qed.

  Definition shift_samples (dt : F) (l : list (sample F)) : list (sample F) :=
    map (fun s => mksample (nadd (s_t s) dt) (s_v s) (s_g s) (s_r s)) l.

  Lemma concat_step_samples (A m : list (sample F)) a0 :
    A <> [] ->
    concat_step (of_samples A) (of_samples m) =
    Ok (of_samples (A ++ shift_samples (s_t (last A a0)) (tl m))).
  Proof.
    intros HA. destruct A as [|a A]; [congruence|].
    unfold concat_step. cbn [time_s of_samples map].
    f_equal. rewrite of_samples_app. unfold of_samples, shift_samples; cbn [time_s mps grade road_type].
    rewrite !map_map. cbn [s_t s_v s_g s_r].
    change (s_t a :: map s_t A) with (map s_t (a :: A)).
    rewrite (last_map s_t a A a). rewrite (last_default a A a a0).
    destruct m as [|x m]; [cbn; now rewrite !app_nil_r|]. cbn [tl map]. now rewrite map_map.
  Qed.

  Lemma mt_scan_nonempty_mt stop mt moving rest :
    mt <> [] -> mt_scan stop mt moving rest <> [].
  Proof.
    revert mt moving; induction rest as [|s rest IH]; intros mt moving H; cbn [mt_scan].
    - destruct mt; congruence.
    - destruct (_ && _)%bool; [discriminate|].
      apply IH. destruct mt; discriminate.
  Qed.

  Lemma rebase_samples_fields (l : list (sample F)) :
    map s_v (rebase_samples l) = map s_v l /\ map s_g (rebase_samples l) = map s_g l /\
    map s_r (rebase_samples l) = map s_r l.
  Proof.
    destruct l as [|s l]; [auto|]. unfold rebase_samples. rewrite !map_map. cbn. auto.
  Qed.
  Lemma map_tl {A B} (f : A -> B) l : map f (tl l) = tl (map f l).
  Proof. destruct l; reflexivity. Qed.

  (** Speeds, grades and road types survive, whatever the arithmetic does. *)
  Lemma concat_fold_fields stop rest :
    forall mt moving A, mt <> [] -> A <> [] ->
    exists A', concat_fold (of_samples A) (map of_samples (mt_scan stop mt moving rest)) = Ok (of_samples A')
      /\ A' <> []
      /\ map s_v A' = map s_v A ++ map s_v (tl mt ++ rest)
      /\ map s_g A' = map s_g A ++ map s_g (tl mt ++ rest)
      /\ map s_r A' = map s_r A ++ map s_r (tl mt ++ rest).
  Proof.
    assert (Hsh : forall dt (l : list (sample F)),
      map s_v (shift_samples dt l) = map s_v l /\ map s_g (shift_samples dt l) = map s_g l
      /\ map s_r (shift_samples dt l) = map s_r l).
    { intros; unfold shift_samples; rewrite !map_map; cbn; auto. }
    assert (Hstep : forall A m, A <> [] -> m <> [] -> exists A',
      concat_step (of_samples A) (of_samples (rebase_samples m)) = Ok (of_samples A') /\ A' <> []
      /\ map s_v A' = map s_v A ++ map s_v (tl m)
      /\ map s_g A' = map s_g A ++ map s_g (tl m)
      /\ map s_r A' = map s_r A ++ map s_r (tl m)).
    { intros A m HA Hm. destruct A as [|a0 A0] eqn:EA; [congruence|]. rewrite <- EA in *.
      exists (A ++ shift_samples (s_t (last A a0)) (tl (rebase_samples m))).
      rewrite (concat_step_samples A _ a0) by congruence.
      destruct (rebase_samples_fields m) as (R1 & R2 & R3).
      split; [reflexivity|]. split; [rewrite EA; discriminate|].
      rewrite !map_app.
      destruct (Hsh (s_t (last A a0)) (tl (rebase_samples m))) as (-> & -> & ->).
      rewrite !map_tl, R1, R2, R3. auto. }
    induction rest as [|s rest IH]; intros mt moving A Hmt HA; cbn [mt_scan].
    - destruct mt as [|m0 mt0]; [congruence|]. cbn [map concat_fold].
      destruct (Hstep A (m0 :: mt0) HA Hmt) as (A' & E & HA' & E1 & E2 & E3).
      exists A'. rewrite E. cbn [bindR concat_fold]. rewrite app_nil_r. auto.
    - destruct (_ && _ && _)%bool eqn:Ec.
      + apply andb_prop in Ec as [_ Elen]. apply Nat.ltb_lt in Elen.
        cbn [map concat_fold].
        destruct (Hstep A mt HA Hmt) as (A1 & E & HA1 & E1 & E2 & E3).
        rewrite E. cbn [bindR].
        destruct (IH [last mt s; s] (nltb stop (s_v s)) A1 ltac:(discriminate) HA1)
          as (A' & F1 & F2 & F3 & F4 & F5).
        exists A'. split; [exact F1|]. split; [exact F2|].
        rewrite F3, F4, F5, E1, E2, E3. cbn [tl app map]. rewrite !map_app, <- !app_assoc. auto.
      + destruct (IH (mt ++ [s]) (nltb stop (s_v s)) A ltac:(destruct mt; discriminate) HA)
          as (A' & F1 & F2 & F3 & F4 & F5).
        exists A'. split; [exact F1|]. split; [exact F2|].
        rewrite F3, F4, F5. destruct mt as [|m0 mt0]; [congruence|].
        cbn [app tl]. rewrite !map_app, <- !app_assoc. cbn. auto.
  Qed.

  Lemma concat_microtrips_fields_mt stop rest :
    forall mt moving, mt <> [] ->
    exists A', concat (map of_samples (mt_scan stop mt moving rest)) = Ok (of_samples A')
      /\ map s_v A' = map s_v (mt ++ rest)
      /\ map s_g A' = map s_g (mt ++ rest)
      /\ map s_r A' = map s_r (mt ++ rest).
  Proof.
    induction rest as [|s rest IH]; intros mt moving Hmt; cbn [mt_scan].
    - destruct mt as [|m0 mt0]; [congruence|].
      exists (rebase_samples (m0 :: mt0)). cbn [map concat concat_fold].
      rewrite app_nil_r. destruct (rebase_samples_fields (m0 :: mt0)) as (-> & -> & ->). auto.
    - destruct (_ && _ && _)%bool eqn:Ec.
      + apply andb_prop in Ec as [_ Elen]. apply Nat.ltb_lt in Elen.
        cbn [map concat].
        destruct (concat_fold_fields stop rest [last mt s; s] (nltb stop (s_v s)) (rebase_samples mt)
                    ltac:(discriminate)) as (A' & F1 & F2 & F3 & F4 & F5).
        { destruct mt; [congruence|discriminate]. }
        exists A'. split; [exact F1|].
        rewrite F3, F4, F5. destruct (rebase_samples_fields mt) as (-> & -> & ->).
        cbn [tl app]. rewrite !map_app. auto.
      + destruct (IH (mt ++ [s]) (nltb stop (s_v s)) ltac:(destruct mt; discriminate))
          as (A' & F1 & F3 & F4 & F5).
        exists A'. split; [exact F1|]. rewrite F3, F4, F5. now rewrite <- app_assoc.
  Qed.

  Theorem microtrips_concat_fields (c : cyc F) stop :
    wf c ->
    exists c', concat (to_microtrips c stop) = Ok c'
      /\ length (time_s c') = length (time_s c)
      /\ mps c' = mps c /\ grade c' = grade c /\ road_type c' = road_type c.
  Proof.
    intros Hwf. rewrite <- (of_samples_samples c Hwf). unfold to_microtrips.
    rewrite samples_of_samples.
    destruct (samples c) as [|s rest] eqn:E.
    - exists (mkcyc [] [] [] []). cbn. auto.
    - change (mt_scan stop [] false (s :: rest)) with
        (if (nltb stop (s_v s) && negb false && Nat.ltb 1 0)%bool
         then rebase_samples [] :: mt_scan stop [last [] s; s] (nltb stop (s_v s)) rest
         else mt_scan stop [s] (nltb stop (s_v s)) rest).
      replace (nltb stop (s_v s) && negb false && Nat.ltb 1 0)%bool with false
        by (cbn; now rewrite andb_false_r).
      destruct (concat_microtrips_fields_mt stop rest [s] (nltb stop (s_v s)) ltac:(discriminate))
        as (A' & F1 & F3 & F4 & F5).
      exists (of_samples A'). split; [exact F1|].
      cbn [of_samples time_s mps grade road_type app].
      split; [|rewrite F3, F4, F5; auto].
      rewrite !map_length. apply (f_equal (@length F)) in F3. rewrite !map_length in F3. exact F3.
  Qed.

  (** ** Shape of microtrips (C02) *)

  Definition mv (stop v : F) : bool := nltb stop v.

  (** A list of speeds in which no stopped-to-moving step occurs after the first position. *)
  Definition no_late_start (stop : F) (vs : list F) : Prop :=
    forall k a b, (1 <= k)%nat -> nth_error vs k = Some a -> nth_error vs (S k) = Some b ->
                  ~ (nltb stop a = false /\ nltb stop b = true).

  Lemma no_late_start_snoc stop (l : list F) v a :
    no_late_start stop (l ++ [a]) ->
    ~ (nltb stop a = false /\ nltb stop v = true) \/ l = [] ->
    no_late_start stop ((l ++ [a]) ++ [v]).
  Proof.
    intros Hl Hav k x y Hk Hx Hy.
    assert (Hlen : (S k < length ((l ++ [a]) ++ [v]))%nat) by (apply nth_error_Some; congruence).
    rewrite !app_length in Hlen; cbn in Hlen.
    rewrite nth_error_app1 in Hx by (rewrite app_length; cbn; lia).
    destruct (Nat.eq_dec (S k) (length (l ++ [a]))) as [E|E].
    - rewrite E in Hy. rewrite nth_error_app2 in Hy by lia. rewrite Nat.sub_diag in Hy.
      injection Hy as <-. rewrite app_length in E; cbn in E.
      assert (Hka : k = length l) by lia. subst k.
      rewrite nth_error_app2 in Hx by lia. rewrite Nat.sub_diag in Hx. injection Hx as <-.
      destruct Hav as [Hav| ->]; [exact Hav|]. cbn in Hk; lia.
    - rewrite nth_error_app1 in Hy by (rewrite app_length in *; cbn in *; lia).
      exact (Hl k x y Hk Hx Hy).
  Qed.

  (** The scan before rebasing the times. *)
  Fixpoint mt_raw (stop : F) (mt : list (sample F)) (moving : bool) (rest : list (sample F))
    : list (list (sample F)) :=
    match rest with
    | [] => match mt with [] => [] | _ => [mt] end
    | s :: rest' =>
        if (nltb stop (s_v s) && negb moving && Nat.ltb 1 (length mt))%bool then
          mt :: mt_raw stop [last mt s; s] (nltb stop (s_v s)) rest'
        else mt_raw stop (mt ++ [s]) (nltb stop (s_v s)) rest'
    end.
  Lemma mt_scan_raw stop mt moving rest :
    mt_scan stop mt moving rest = map rebase_samples (mt_raw stop mt moving rest).
  Proof.
    revert mt moving; induction rest as [|s rest IH]; intros mt moving; cbn [mt_scan mt_raw].
    - destruct mt; reflexivity.
    - destruct (_ && _ && _)%bool; cbn [map]; now rewrite IH.
  Qed.

  Definition starts_ok (stop : F) (prev : option (sample F)) (m : list (sample F)) : Prop :=
    match prev with
    | None => True
    | Some p => exists s r, m = p :: s :: r /\ nltb stop (s_v p) = false /\ nltb stop (s_v s) = true
    end.
  Fixpoint mts_ok (stop : F) (prev : option (sample F)) (l : list (list (sample F))) : Prop :=
    match l with
    | [] => True
    | m :: l' =>
        (exists s0 r0, m = s0 :: r0 /\ mts_ok stop (Some (last m s0)) l')
        /\ no_late_start stop (map s_v m) /\ starts_ok stop prev m
    end.

  Lemma mt_raw_ok stop rest :
    forall prev l a, no_late_start stop (map s_v (l ++ [a])) -> starts_ok stop prev (l ++ [a]) ->
    mts_ok stop prev (mt_raw stop (l ++ [a]) (nltb stop (s_v a)) rest).
  Proof.
    assert (Hne : forall (l : list (sample F)) a, exists s0 r0, l ++ [a] = s0 :: r0).
    { intros [|x l] a; eexists; eexists; reflexivity. }
    induction rest as [|s rest IH]; intros prev l a Hl Hs; cbn [mt_raw].
    - destruct (Hne l a) as (s0 & r0 & E). rewrite E in *. cbn [mts_ok].
      repeat split; try assumption. eauto.
    - destruct (_ && _ && _)%bool eqn:Ec.
      + apply andb_prop in Ec as [Ec Elen]. apply andb_prop in Ec as [Em Est].
        apply negb_true_iff in Est.
        cbn [mts_ok]. split; [|split; assumption].
        destruct (Hne l a) as (s0 & r0 & E). exists s0, r0. split; [exact E|].
        rewrite !last_snoc.
        apply (IH (Some a) [a] s).
        * intros k x y Hk Hx Hy. destruct k as [|[|k]]; try lia; cbn in Hy; try discriminate.
        * cbn. exists s, []. auto.
      + apply (IH prev (l ++ [a]) s).
        * rewrite !map_app in *. cbn [map] in *. apply no_late_start_snoc; [exact Hl|].
          destruct l as [|x l]; [now right|]. left. intros [Ha Hv].
          rewrite Ha, Hv in Ec. rewrite app_length in Ec; cbn in Ec.
          rewrite Nat.add_1_r in Ec. cbn in Ec. discriminate.
        * destruct prev as [p|]; cbn in *; [|exact I].
          destruct Hs as (s1 & r1 & E & H1 & H2). exists s1, (r1 ++ [s]).
          rewrite E. auto.
  Qed.

  Lemma mt_raw_all_ok (l : list (sample F)) stop :
    mts_ok stop None (mt_raw stop [] false l).
  Proof.
    destruct l as [|s l]; cbn [mt_raw]; [exact I|].
    cbn [length Nat.ltb Nat.leb]. rewrite andb_false_r.
    apply (mt_raw_ok stop l None [] s); cbn; [|exact I].
    intros k x y Hk Hx Hy. destruct k; cbn in Hy; [lia|discriminate].
  Qed.

  Lemma mts_ok_nth stop l : forall prev, mts_ok stop prev l ->
    forall j m, nth_error l j = Some m ->
      m <> [] /\ no_late_start stop (map s_v m) /\
      (forall m' , nth_error l (S j) = Some m' -> forall d, starts_ok stop (Some (last m d)) m').
  Proof.
    induction l as [|m0 l IH]; intros prev H j m Hj; [destruct j; discriminate|].
    cbn [mts_ok] in H. destruct H as ((s0 & r0 & E0 & Hrest) & Hnl & _).
    destruct j as [|j]; cbn [nth_error] in *.
    - injection Hj as <-. split; [subst; discriminate|]. split; [exact Hnl|].
      intros m' Hm' d. destruct l as [|m1 l]; [discriminate|]. injection Hm' as <-.
      cbn [mts_ok] in Hrest. destruct Hrest as (_ & _ & Hs).
      subst m0. rewrite (last_default s0 r0 d s0). exact Hs.
    - destruct (IH _ Hrest j m Hj) as (H1 & H2 & H3). auto.
  Qed.
End Generic.

(** ** C01 over the reals: the times too *)
Local Open Scope R_scope.

Lemma concat_fold_times stop rest :
  forall (mt : list (sample R)) moving (A : list (sample R)) T a0 m0,
  mt <> [] -> A <> [] -> s_t (last A a0) = s_t (hd m0 mt) - T ->
  exists A', concat_fold (of_samples A) (map of_samples (mt_scan stop mt moving rest)) = Ok (of_samples A')
    /\ map s_t A' = map s_t A ++ map (fun s => s_t s - T) (tl mt ++ rest).
Proof.
  assert (Hstep : forall A m T a0 m0, A <> [] -> m <> [] -> s_t (last A a0) = s_t (hd m0 m) - T ->
    exists A', concat_step (of_samples A) (of_samples (rebase_samples m)) = Ok (of_samples A') /\ A' <> []
      /\ map s_t A' = map s_t A ++ map (fun s => s_t s - T) (tl m)
      /\ s_t (last A' a0) = s_t (last m m0) - T).
  { intros A m T a0 m0 HA Hm HT. exists (A ++ shift_samples (s_t (last A a0)) (tl (rebase_samples m))).
    rewrite (concat_step_samples A _ a0) by assumption. split; [reflexivity|].
    destruct m as [|s0 m]; [congruence|]. cbn [hd] in HT.
    cbn [rebase_samples map tl]. unfold shift_samples. rewrite map_map. cbn [s_t s_v s_g s_r].
    split; [destruct A; [congruence|discriminate]|].
    rewrite map_app, map_map. cbn [s_t]. unR. split.
    - f_equal. apply map_ext. intros x. rewrite HT. lra.
    - destruct m as [|x m].
      + cbn [map]. rewrite app_nil_r. cbn [last]. exact HT.
      + cbn [map]. rewrite last_app_ne.
        change (last (s0 :: x :: m) m0) with (last (x :: m) m0).
        set (f := fun s : sample R => mksample (s_t s - s_t s0 + s_t (last A a0)) (s_v s) (s_g s) (s_r s)).
        change (s_t (last (map f (x :: m)) a0) = s_t (last (x :: m) m0) - T).
        rewrite (last_default (f x) (map f m) a0 (f m0) : last (map f (x :: m)) a0 = _).
        change (f x :: map f m) with (map f (x :: m)).
        rewrite (last_map f x m m0). unfold f; cbn [s_t]. rewrite HT. lra. }
  induction rest as [|s rest IH]; intros mt moving A T a0 m0 Hmt HA HT; cbn [mt_scan].
  - destruct mt as [|m1 mt0]; [congruence|]. cbn [map concat_fold].
    destruct (Hstep A (m1 :: mt0) T a0 m0 HA Hmt HT) as (A' & E & HA' & E1 & _).
    exists A'. rewrite E. cbn [bindR concat_fold]. rewrite app_nil_r. auto.
  - destruct (_ && _ && _)%bool eqn:Ec.
    + cbn [map concat_fold].
      destruct (Hstep A mt T a0 m0 HA Hmt HT) as (A1 & E & HA1 & E1 & E2).
      rewrite E. cbn [bindR].
      destruct (IH [last mt s; s] (nltb stop (s_v s)) A1 T a0 m0 ltac:(discriminate) HA1) as (A' & F1 & F2).
      { cbn [hd]. rewrite E2. destruct mt as [|m1 mt]; [congruence|].
        now rewrite (last_default m1 mt s m0). }
      exists A'. split; [exact F1|]. rewrite F2, E1. cbn [tl app map].
      rewrite map_app, <- app_assoc. reflexivity.
    + destruct mt as [|m1 mt0]; [congruence|].
      destruct (IH ((m1 :: mt0) ++ [s]) (nltb stop (s_v s)) A T a0 m0 ltac:(discriminate) HA HT)
        as (A' & F1 & F2).
      exists A'. split; [exact F1|]. rewrite F2. cbn [app tl]. rewrite <- app_assoc. reflexivity.
Qed.

Lemma concat_microtrips_times_mt stop rest :
  forall (mt : list (sample R)) moving m0, mt <> [] ->
  exists A', concat (map of_samples (mt_scan stop mt moving rest)) = Ok (of_samples A')
    /\ map s_t A' = map (fun s => s_t s - s_t (hd m0 mt)) (mt ++ rest).
Proof.
  induction rest as [|s rest IH]; intros mt moving m0 Hmt; cbn [mt_scan].
  - destruct mt as [|m1 mt0]; [congruence|].
    exists (rebase_samples (m1 :: mt0)). cbn [map concat concat_fold].
    rewrite app_nil_r. split; [reflexivity|]. unfold rebase_samples. rewrite map_map. reflexivity.
  - destruct (_ && _ && _)%bool eqn:Ec.
    + cbn [map concat].
      destruct (concat_fold_times stop rest [last mt s; s] (nltb stop (s_v s)) (rebase_samples mt)
                  (s_t (hd m0 mt)) m0 m0) as (A' & F1 & F2).
      * discriminate.
      * destruct mt; [congruence|discriminate].
      * destruct mt as [|m1 mt]; [congruence|]. cbn [hd].
        set (f := fun s : sample R => mksample (nsub (s_t s) (s_t m1)) (s_v s) (s_g s) (s_r s)).
        change (rebase_samples (m1 :: mt)) with (map f (m1 :: mt)).
        rewrite (last_default (f m1) (map f mt) m0 (f s) : last (map f (m1 :: mt)) m0 = _).
        change (f m1 :: map f mt) with (map f (m1 :: mt)). rewrite (last_map f m1 mt s).
        reflexivity.
      * exists A'. split; [exact F1|]. rewrite F2. cbn [tl app].
        destruct mt as [|m1 mt]; [congruence|]. unfold rebase_samples. rewrite map_map. cbn [s_t hd].
        rewrite map_app. reflexivity.
    + destruct mt as [|m1 mt0]; [congruence|].
      destruct (IH ((m1 :: mt0) ++ [s]) (nltb stop (s_v s)) m0 ltac:(discriminate)) as (A' & F1 & F2).
      exists A'. split; [exact F1|]. rewrite F2. cbn [app hd]. now rewrite <- app_assoc.
Qed.

Theorem microtrips_concat_round_trip (c : cyc R) stop :
  wf c -> concat (to_microtrips c stop) = Ok (rebased c).
Proof.
  intros Hwf.
  destruct (microtrips_concat_fields c stop Hwf) as (c' & E & _ & E1 & E2 & E3).
  rewrite E. f_equal. destruct c' as [ts' vs' gs' rs']. cbn in E1, E2, E3. subst.
  unfold rebased. f_equal.
  pose proof (of_samples_samples c Hwf) as Hc.
  unfold to_microtrips in E. destruct (samples c) as [|s rest].
  - cbn in E. injection E as <- _ _ _. rewrite <- Hc. reflexivity.
  - cbn [mt_scan] in E. cbn [length Nat.ltb Nat.leb] in E. rewrite andb_false_r in E.
    destruct (concat_microtrips_times_mt stop rest [s] (nltb stop (s_v s)) s ltac:(discriminate))
      as (A' & F1 & F2).
    cbn [app] in E. rewrite F1 in E. injection E as E _ _ _. subst ts'. rewrite F2.
    cbn [app hd]. rewrite <- Hc. unfold of_samples; cbn [time_s]. rewrite map_map. reflexivity.
Qed.
