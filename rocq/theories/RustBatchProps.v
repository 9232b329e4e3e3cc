(** C132: running a list of simulations. *)
From Coq Require Import Lia.
From Verif Require Import Num Numpy SimState RustWalkModel RustBatchModel.

Section Batch.
  Context {S E : Type} (run : S -> S * option E).
  (** A run without error. *)
  Definition fine (x y : S) : Prop := run x = (y, None).

  Lemma serial_spec l : forall i l' o, serial run i l = (l', o) <->
    match o with
    | None => Forall2 fine l l'
    | Some (k, e) => exists a a' x y b, l = a ++ x :: b /\ l' = a' ++ y :: b /\ Forall2 fine a a' /\ run x = (y, Some e) /\ k = i + length a
    end.
  Proof.
    induction l as [|x l IH]; intros i l' o; cbn [serial].
    - split.
      + intros [= <- <-]. constructor.
      + destruct o as [[k e]|]; [intros (a & a' & x & y & b & H & _); destruct a; discriminate|]. intros H. inversion H. reflexivity.
    - destruct (run x) as [y [e|]] eqn:R.
      + split.
        * intros [= <- <-]. exists [], [], x, y, l. repeat split; auto; cbn; lia.
        * destruct o as [[k e']|].
          -- intros (a & a' & x0 & y0 & b & H1 & H2 & H3 & H4 & H5). destruct a as [|z a].
             ++ inversion H3; subst. injection H1 as <- <-. rewrite R in H4. injection H4 as <- <-. cbn [length app]. match goal with |- (_, Some (?u, _)) = (_, Some (?w, _)) => replace w with u by (cbn [length]; lia) end. reflexivity.
             ++ injection H1 as <- ->. inversion H3; subst. unfold fine in *. congruence.
          -- intros H. inversion H; subst. unfold fine in *. congruence.
      + destruct (serial run (Datatypes.S i) l) as [r' o'] eqn:Q. pose proof (proj1 (IH _ _ _) Q) as P. split.
        * intros [= <- <-]. destruct o' as [[k e]|].
          -- destruct P as (a & a' & x0 & y0 & b & -> & -> & H3 & H4 & ->). exists (x :: a), (y :: a'), x0, y0, b. repeat split; auto; cbn; lia.
          -- constructor; assumption.
        * destruct o as [[k e]|].
          -- intros (a & a' & x0 & y0 & b & H1 & H2 & H3 & H4 & H5). destruct a as [|z a].
             ++ injection H1 as <- <-. congruence.
             ++ injection H1 as <- ->. inversion H3 as [|? y1 ? a1 F1 F2]; subst. unfold fine in F1. rewrite R in F1. injection F1 as <-.
                assert (Z : serial run (Datatypes.S i) (a ++ x0 :: b) = (a1 ++ y0 :: b, Some (Datatypes.S i + length a, e))).
                { apply IH. exists a, a1, x0, y0, b. auto. }
                rewrite Q in Z. injection Z as -> ->. cbn [length app]. match goal with |- (_, Some (?u, _)) = (_, Some (?w, _)) => replace w with u by (cbn [length]; lia) end. reflexivity.
          -- intros H. inversion H as [|? y1 ? a1 F1 F2]; subst. unfold fine in F1. rewrite R in F1. injection F1 as <-.
             apply (IH (Datatypes.S i) a1 None) in F2. rewrite Q in F2. injection F2 as -> ->. reflexivity.
  Qed.

  (** What holds throughout a parallel run of [l0]. *)
  Definition sound (l0 : list S) (s : pstate) : Prop :=
    let '(l, p, o) := s in length l = length l0 /\ NoDup p /\
    (forall i x, nth_error l0 i = Some x -> In i p -> nth_error l i = Some x) /\
    (forall i x, nth_error l0 i = Some x -> ~ In i p ->
       (exists e, run x = (match nth_error l i with Some y => y | None => x end, e) /\ (o = None -> e = None)) \/ (o <> None /\ nth_error l i = Some x)) /\
    (forall i e, o = Some (i, e) -> ~ In i p /\ exists x y, nth_error l0 i = Some x /\ nth_error l i = Some y /\ run x = (y, Some e)).
  Lemma at_middle (a : list S) x b : nth_error (a ++ x :: b) (length a) = Some x.
  Proof. rewrite nth_error_app2 by lia. now rewrite Nat.sub_diag. Qed.
  Lemma elsewhere (a : list S) x y b i : i <> length a -> nth_error (a ++ x :: b) i = nth_error (a ++ y :: b) i.
  Proof.
    intros H. destruct (Nat.lt_ge_cases i (length a)); [now rewrite !nth_error_app1 by assumption|].
    rewrite !nth_error_app2 by assumption. destruct (i - length a) as [|k] eqn:K; [lia|reflexivity].
  Qed.
  Lemma sound_step l0 s t : pstep run s t -> sound l0 s -> sound l0 t.
  Proof.
    intros [a x b p q o y e o' R K|l p i q d] (L & ND & A & B & C).
    - pose proof (NoDup_remove_1 _ _ _ ND) as ND1. pose proof (NoDup_remove_2 _ _ _ ND) as ND2.
      assert (X0 : nth_error l0 (length a) = Some x).
      { destruct (nth_error l0 (length a)) as [x0|] eqn:Q.
        - pose proof (A _ _ Q (in_elt _ _ _)) as Z. rewrite at_middle in Z. symmetry. exact Z.
        - apply nth_error_None in Q. rewrite <- L, app_length in Q. cbn in Q. lia. }
      assert (IN : forall i, i <> length a -> (In i (p ++ length a :: q) <-> In i (p ++ q))).
      { intros i Hi. rewrite !in_app_iff. cbn. split; [intros [?|[?|?]]; [auto|congruence|auto]|tauto]. }
      assert (ON : o' = None -> o = None) by (destruct K; congruence).
      split; [rewrite <- L, !app_length; reflexivity|]. split; [exact ND1|]. split; [|split].
      + intros i z Z Hi. assert (i <> length a) by (intros ->; contradiction). rewrite (elsewhere a y x b i) by assumption. apply A; [assumption|]. now apply IN.
      + intros i z Z Hi. destruct (Nat.eq_dec i (length a)) as [->|Hn].
        * left. rewrite X0 in Z. injection Z as <-. rewrite at_middle. exists e. split; [assumption|]. intros Ho. destruct K; congruence.
        * rewrite (elsewhere a y x b i) by assumption. destruct (B i z Z) as [(e0 & R0 & N0)|[N0 Q]]; [now rewrite IN| |].
          -- left. exists e0. auto.
          -- right. split; [intros Ho; apply N0; auto|assumption].
      + intros i e1 Ho. destruct K as [|e2|e2 d Hd].
        * destruct (C i e1 Ho) as (Hi & x1 & y1 & H1 & H2 & H3). assert (Hn : i <> length a) by (intros ->; apply Hi, in_elt).
          split; [now rewrite <- IN|]. exists x1, y1. rewrite (elsewhere a y x b i) by assumption. auto.
        * injection Ho as <- <-. split; [assumption|]. exists x, y. rewrite at_middle. auto.
        * destruct (C i e1 Ho) as (Hi & x1 & y1 & H1 & H2 & H3). assert (Hn : i <> length a) by (intros ->; apply Hi, in_elt).
          split; [now rewrite <- IN|]. exists x1, y1. rewrite (elsewhere a y x b i) by assumption. auto.
    - split; [assumption|]. split; [now apply NoDup_remove_1 in ND|].
      assert (IN : forall k, In k (p ++ q) -> In k (p ++ i :: q)) by (intros k; rewrite !in_app_iff; cbn; tauto). split; [|split].
      + intros k z Z Hk. auto.
      + intros k z Z Hk. destruct (in_dec Nat.eq_dec k (p ++ i :: q)) as [Hi|Hi]; [|auto]. right. split; [discriminate|auto].
      + intros k e Hk. destruct (C k e Hk) as [H1 H2]. auto.
  Qed.
  Lemma sound_parallel l l' o : parallel run l l' o -> sound l (l', [], o).
  Proof.
    unfold parallel. assert (S0 : sound l (l, seq 0 (length l), None)).
    { split; [reflexivity|]. split; [apply seq_NoDup|]. split; [auto|]. split; [|discriminate].
      intros i x H Hi. exfalso. apply Hi, in_seq. split; [lia|]. apply nth_error_Some. congruence. }
    revert S0. generalize (l, seq 0 (length l), @None (nat * E)) (l', @nil nat, o). intros s t H1 H2. induction H2; [assumption|]. apply IHpsteps. eapply sound_step; eassumption.
  Qed.
  Lemma forall2_nth (P : S -> S -> Prop) l : forall l', length l' = length l -> (forall i x y, nth_error l i = Some x -> nth_error l' i = Some y -> P x y) -> Forall2 P l l'.
  Proof.
    induction l as [|x l IH]; intros [|y l'] L H; try discriminate; constructor.
    - exact (H 0 x y eq_refl eq_refl).
    - apply IH; [now injection L|]. intros i u v Hu Hv. exact (H (Datatypes.S i) u v Hu Hv).
  Qed.
  Lemma fine_nth l l' i x : Forall2 fine l l' -> nth_error l i = Some x -> exists y, fine x y /\ nth_error l' i = Some y.
  Proof. intros H. revert i. induction H as [|u v l l' Huv _ IH]; intros [|i]; cbn; try discriminate; [intros [= <-]; eauto|apply IH]. Qed.
  (** Some parallel run ends without error if every run does. *)
  Lemma run_all l : forall a l', Forall2 fine l l' -> psteps run (a ++ l, seq (length a) (length l), None) (a ++ l', [], None).
  Proof.
    induction l as [|x l IH]; intros a l' H; inversion H as [|? y ? r F1 F2]; subst; [apply p_none|].
    eapply p_more; [exact (p_run run a x l [] (seq (Datatypes.S (length a)) (length l)) None y None None F1 (no_error _ _))|]. cbn [app].
    specialize (IH (a ++ [y]) r F2). rewrite app_length, Nat.add_1_r, <- !app_assoc in IH. exact IH.
  Qed.

  (** Without an error, in parallel or not, every simulation is as if run alone. *)
  Theorem C132_alone how l l' : batch run how l l' None <-> Forall2 fine l l'.
  Proof.
    assert (P : parallel run l l' None <-> Forall2 fine l l').
    { split; [|apply (run_all l [])]. intros H. apply sound_parallel in H as (L & _ & _ & B & _). apply forall2_nth; [assumption|].
      intros i x y Hx Hy. destruct (B i x Hx (fun z => z)) as [(e & R & N)|[N _]]; [|contradiction]. rewrite Hy in R. now rewrite (N eq_refl) in R. }
    unfold batch. destruct how as [[]|]; [exact P|exact (serial_spec l 0 l' None)|exact P].
  Qed.
  (** Whether there is an error does not depend on running in parallel, or on the order. *)
  Theorem C132_error how how' l l1 l2 o1 o2 : batch run how l l1 o1 -> batch run how' l l2 o2 -> (o1 = None <-> o2 = None) /\ (o1 = None -> l1 = l2).
  Proof.
    assert (G : forall h m o r, batch run h l m o -> Forall2 fine l r -> o = None /\ m = r).
    { intros h m o r H F. assert (O : o = None).
      { destruct o as [[k e]|]; [exfalso|reflexivity].
        assert (X : exists x y, nth_error l k = Some x /\ run x = (y, Some e)).
        { assert (Q : parallel run l m (Some (k, e)) -> exists x y, nth_error l k = Some x /\ run x = (y, Some e)).
          { intros Z. apply sound_parallel in Z as (_ & _ & _ & _ & C). destruct (C k e eq_refl) as (_ & x & y & H1 & _ & H3). eauto. }
          destruct h as [[]|]; [auto| |auto]. cbn in H. apply serial_spec in H as (a & a' & x & y & b & -> & _ & _ & R & ->). exists x, y. split; [apply at_middle|assumption]. }
        destruct X as (x & y & Hx & R). destruct (fine_nth _ _ _ _ F Hx) as (z & Hz & _). unfold fine in Hz. congruence. }
      split; [assumption|]. subst o. apply C132_alone in H. clear - H F. revert r F. induction H as [|x y l m Hxy _ IH]; intros r F; inversion F as [|? z ? r' Hz Hr]; subst; [reflexivity|].
      unfold fine in *. f_equal; [congruence|auto]. }
    intros H1 H2. split; [split|]; intros ->.
    - apply C132_alone in H1. exact (proj1 (G _ _ _ _ H2 H1)).
    - apply C132_alone in H2. exact (proj1 (G _ _ _ _ H1 H2)).
    - apply C132_alone in H1. symmetry. exact (proj2 (G _ _ _ _ H2 H1)).
  Qed.
  (** One after another, the first error ends the run: those before it are run, those after it are as they were. *)
  Theorem C132_first l l' k e : batch run (Some false) l l' (Some (k, e)) <->
    exists a a' x y b, l = a ++ x :: b /\ l' = a' ++ y :: b /\ Forall2 fine a a' /\ run x = (y, Some e) /\ k = length a.
  Proof. exact (serial_spec l 0 l' (Some (k, e))). Qed.
  (** In parallel the error returned is that of the simulation it names; every other simulation has been run once or is as it was. *)
  Theorem C132_any l l' k e : batch run None l l' (Some (k, e)) -> length l' = length l /\
    (exists x y, nth_error l k = Some x /\ nth_error l' k = Some y /\ run x = (y, Some e)) /\
    (forall i x y, nth_error l i = Some x -> nth_error l' i = Some y -> y = fst (run x) \/ y = x).
  Proof.
    intros H. apply sound_parallel in H as (L & _ & _ & B & C). split; [assumption|]. split; [exact (proj2 (C k e eq_refl))|].
    intros i x y Hx Hy. destruct (B i x Hx (fun z => z)) as [(e0 & R & _)|[_ Q]]; [left|right; congruence]. rewrite Hy in R. now rewrite R.
  Qed.
  (** Adding and taking away: the others keep their order. *)
  Theorem C132_push (x : S) l : v_pop (v_push x l) = (Some x, l) /\ v_pop (@nil S) = (None, []) /\ v_insert (length l) x l = Ok (v_push x l).
  Proof.
    unfold v_pop, v_push, v_insert. rewrite rev_app_distr. cbn [rev app]. rewrite rev_involutive, Nat.leb_refl, firstn_all, skipn_all. auto.
  Qed.
  Theorem C132_insert (x : S) a b : v_insert (length a) x (a ++ b) = Ok (a ++ x :: b) /\ v_remove (length a) (a ++ x :: b) = Ok (a ++ b).
  Proof.
    unfold v_insert, v_remove. rewrite !app_length. rewrite (proj2 (Nat.leb_le _ _)) by lia. rewrite (proj2 (Nat.ltb_lt _ _)) by (cbn; lia).
    rewrite !firstn_app, !firstn_all, !Nat.sub_diag, !skipn_app, !skipn_all, Nat.sub_diag. cbn [firstn skipn app].
    rewrite app_nil_r. rewrite (skipn_all2 a) by lia. replace (length a + 1 - length a) with 1 by lia. split; reflexivity.
  Qed.
  Theorem C132_refused (x : S) i l : ((exists m, v_insert i x l = Ok m) <-> i <= length l) /\ ((exists m, v_remove i l = Ok m) <-> i < length l).
  Proof.
    unfold v_insert, v_remove. destruct (Nat.leb_spec i (length l)), (Nat.ltb_spec i (length l)).
    all: split; split; intros Q; try lia; eauto; destruct Q; discriminate.
  Qed.
End Batch.
(** Simulations of trips: a list run without error holds what sim_drive gives for each. *)
Theorem C132_drives {F} {N : Num F} spoiled how (l l' : list (sdrive F)) :
  batch (run_drive spoiled) how l l' None <-> Forall2 (fun d d' => r_sim_drive d None None = Ok d') l l'.
Proof.
  rewrite C132_alone. assert (Q : forall d d', fine (run_drive spoiled) d d' <-> r_sim_drive d None None = Ok d').
  { intros d d'. unfold fine, run_drive. destruct (r_sim_drive d None None); split; congruence. }
  split; induction 1; constructor; auto; now apply Q.
Qed.

(** A list whose second and fourth runs fail. *)
Definition half (n : nat) : nat * option nat := if Nat.even n then (Nat.div2 n, None) else (0, Some n).
Example C132_run : map (serial half 0) [[8; 6; 4]; [8; 3; 4; 5]; []] = [([4; 3; 2], None); ([4; 0; 4; 5], Some (1, 3)); ([], None)].
Proof. reflexivity. Qed.
(** In parallel the same list can also end with the other error, with the third run done. *)
Example C132_case : batch half None [8; 3; 4; 5] [4; 3; 2; 0] (Some (3, 5)) /\ batch half None [8; 3; 4; 5] [4; 0; 4; 5] (Some (1, 3)) /\ batch half (Some true) [8; 6; 4] [4; 3; 2] None.
Proof.
  split; [|split].
  - eapply p_more. { exact (p_run half [8; 3] 4 [5] [0; 1] [3] None 2 None None eq_refl (no_error _ _)). }
    eapply p_more. { exact (p_run half [] 8 [3; 2; 5] [] [1; 3] None 4 None None eq_refl (no_error _ _)). }
    eapply p_more. { exact (p_run half [4; 3; 2] 5 [] [1] [] None 0 (Some 5) _ eq_refl (this_error _ _ _)). }
    eapply p_more. { exact (p_skip half [4; 3; 2; 0] [] 1 [] (3, 5)). } apply p_none.
  - eapply p_more. { exact (p_run half [8] 3 [4; 5] [0] [2; 3] None 0 (Some 3) _ eq_refl (this_error _ _ _)). }
    eapply p_more. { exact (p_run half [] 8 [0; 4; 5] [] [2; 3] (Some (1, 3)) 4 None _ eq_refl (no_error _ _)). }
    eapply p_more. { exact (p_skip half [4; 0; 4; 5] [] 2 [3] (1, 3)). }
    eapply p_more. { exact (p_skip half [4; 0; 4; 5] [] 3 [] (1, 3)). } apply p_none.
  - apply C132_alone. repeat constructor.
Qed.
