(** Proofs about veh_equal (C48). *)
From Coq Require Import Lia Ascii.
From Verif Require Import Num Numpy ListFacts CycleModel CycleSpec VehModel SimModel SimState FrameProofs VehSpec VehProofs VehProofs2 VehProofs3 VehDictModel DictSpec DictProofs DictProofs2.
Local Open Scope R_scope.

(** The keys of copies are always the same. *)
Definition copy_keys : list string := filter (fun k => negb (mem k keys_to_remove)) (map fst keys_and_types).
Section Keys.
  Context {F : Type} {N : Num F}.
  Lemma keys_of_copy (v : pyveh F) : length (pv_vals v) = 18%nat -> map fst (copy_dict v) = copy_keys.
  Proof.
    intros L. destruct v as [c sc se ye te wh vals rho afr]. cbn [pv_vals] in L.
    destruct (explode18 _ L) as (x1 & x2 & x3 & x4 & x5 & x6 & x7 & x8 & x9 & x10 & x11 & x12 & x13 & x14 & x15 & x16 & x17 & x18 & ->). reflexivity.
  Qed.
  Lemma copy_keys_nodup : NoDup copy_keys.
  Proof.
    assert (Q : forall l, (fix nd (l : list string) := match l with [] => true | k :: r => (negb (mem k r) && nd r)%bool end) l = true -> NoDup l).
    { induction l as [|k r IH]; [constructor|]. intros H. apply andb_prop in H as [A B]. constructor; [|now apply IH]. intros I.
      apply Bool.negb_true_iff in A. unfold mem in A. enough (existsb (String.eqb k) r = true) by congruence. apply existsb_exists. exists k. split; [exact I|apply String.eqb_refl]. }
    apply Q. reflexivity.
  Qed.
  (** Entry by entry. *)
  Fixpoint zip_loop (d1 d2 : pydict F) : Res bool :=
    match d1, d2 with
    | (k, a) :: r, (_, b) :: r' => do ne <- entry_ne k a b; if (ne && negb (String.eqb k "veh_override_kg"))%bool then Ok false else zip_loop r r'
    | _, _ => Ok true
    end.
  Lemma pget_app (l r : pydict F) k : ~ In k (map fst l) -> pget (l ++ r) k = pget r k.
  Proof.
    induction l as [|[k' v] l IH]; [reflexivity|]. cbn [app pget map fst]. intros H. destruct (String.eqb_spec k' k) as [->|]; [destruct H; now left|].
    apply IH. intros I. apply H. now right.
  Qed.
  Lemma zip_is (d1 : pydict F) : forall pre d2, map fst d1 = map fst d2 -> NoDup (map fst (pre ++ d2)) -> eq_loop d1 (pre ++ d2) = zip_loop d1 d2.
  Proof.
    induction d1 as [|[k a] d1 IH]; intros pre [|[k' b] d2] H ND; try discriminate; [reflexivity|]. cbn [map fst] in H.
    injection H as <- H. cbn [eq_loop zip_loop]. unfold pitem.
    assert (P : pget (pre ++ (k, b) :: d2) k = Some b).
    { rewrite pget_app; [cbn [pget]; now rewrite String.eqb_refl|]. intros I. rewrite map_app in ND. cbn [map fst] in ND. apply NoDup_remove_2 in ND.
      apply ND, in_or_app. now left. }
    rewrite P. cbn [bindR]. destruct (entry_ne k a b) as [ne|]; [|reflexivity]. cbn [bindR].
    destruct (ne && _)%bool; [reflexivity|]. replace (pre ++ (k, b) :: d2) with ((pre ++ [(k, b)]) ++ d2) in * by now rewrite <- app_assoc. now apply IH.
  Qed.
  Lemma equal_zip (v w : pyveh F) : length (pv_vals v) = 18%nat -> length (pv_vals w) = 18%nat -> veh_equal v w = zip_loop (copy_dict v) (copy_dict w).
  Proof.
    intros A B. unfold veh_equal. apply (zip_is _ [] (copy_dict w)); cbn [app]; rewrite (keys_of_copy w B); [apply keys_of_copy, A|apply copy_keys_nodup].
  Qed.
  Definition entry_same (e e' : string * pyval F) : Prop := fst e = "veh_override_kg"%string \/ entry_ne (fst e) (snd e) (snd e') = Ok false.
  Lemma zip_true d1 : forall d2, map fst d1 = map fst d2 -> (zip_loop d1 d2 = Ok true <-> Forall2 entry_same d1 d2).
  Proof.
    induction d1 as [|[k a] d1 IH]; intros [|[k' b] d2] H; try discriminate. { split; [constructor|reflexivity]. }
    cbn [map fst] in H. injection H as <- H. cbn [zip_loop]. split.
    - intros Q. destruct (entry_ne k a b) as [ne|] eqn:E; [|discriminate]. cbn [bindR] in Q.
      destruct (String.eqb_spec k "veh_override_kg") as [K|K].
      + rewrite Bool.andb_false_r in Q. constructor; [now left|]. now apply IH.
      + rewrite Bool.andb_true_r in Q. destruct ne; [discriminate|]. constructor; [right; exact E|]. now apply IH.
    - intros Q. inversion Q as [|x y l l' S R0]; subst. apply IH in R0; [|exact H]. destruct S as [S|S]; cbn [fst snd] in S.
      + subst k. cbn [entry_ne]. unfold entry_ne. cbn [String.eqb Ascii.eqb Bool.eqb bindR]. now rewrite Bool.andb_false_r.
      + rewrite S. cbn [bindR andb]. exact R0.
  Qed.
  Lemma zip_sym d1 : forall d2, Forall2 (fun e e' => fst e = fst e' /\ entry_ne (fst e) (snd e) (snd e') = entry_ne (fst e') (snd e') (snd e)) d1 d2 ->
    zip_loop d1 d2 = zip_loop d2 d1.
  Proof.
    induction d1 as [|[k a] d1 IH]; intros d2 H; inversion H as [|x [k' b] l l' [A B] R0]; subst; [reflexivity|]. cbn [fst snd] in A, B. subst k'.
    cbn [zip_loop]. rewrite B. destruct (entry_ne k b a) as [ne|]; [|reflexivity]. cbn [bindR]. now rewrite (IH _ R0).
  Qed.
End Keys.

(** ** Over the reals *)
Lemma Reqb_same x : Reqb x x = true. Proof. now apply Reqb_true. Qed.
Lemma num_ne_R (x y : R) : num_ne x y = false <-> y = x.
Proof. unfold num_ne, is_nan. unR. rewrite !Reqb_same. cbn [negb andb]. rewrite Bool.andb_true_r. rcase; cbn; split; intros; congruence. Qed.
Lemma far_R (x y : R) : nltb (@tol R RNum) (nabs (nsub x y)) = false <-> Rabs (x - y) <= / 1000000.
Proof. unfold tol. rewrite lit_R. unR. replace (1 / 1000000) with (/ 1000000) by lra. rcase; split; intros; try discriminate; try lra; reflexivity. Qed.
Lemma existsb_false {A} (f : A -> bool) l : existsb f l = false <-> forall x, In x l -> f x = false.
Proof.
  split.
  - intros H x I. destruct (f x) eqn:E; [|reflexivity]. assert (existsb f l = true) by (apply existsb_exists; eauto). congruence.
  - intros H. destruct (existsb f l) eqn:E; [|reflexivity]. apply existsb_exists in E as (x & I & E). rewrite H in E by exact I. discriminate.
Qed.
Lemma zipw_false (f : R -> R -> bool) a : forall b, length a = length b -> (existsb (fun b => b) (zipw f a b) = false <-> forall i, (i < length a)%nat -> f (nth i a 0) (nth i b 0) = false).
Proof.
  induction a as [|x a IH]; intros [|y b] L; try discriminate. { split; [intros _ i I; cbn in I; lia|reflexivity]. }
  cbn [length] in L. cbn [zipw existsb]. split.
  - intros H. apply Bool.orb_false_iff in H as [A B]. intros [|i] I; [exact A|]. cbn [nth]. apply IH; [lia|exact B|cbn in I; lia].
  - intros H. apply Bool.orb_false_iff. split; [apply (H 0%nat); cbn; lia|]. apply IH; [lia|]. intros i I. apply (H (S i)). cbn. lia.
Qed.
Lemma list_ne_near (l m : list R) : list_ne l m = Ok false <-> near l m.
Proof.
  unfold list_ne, near. destruct (Nat.eqb_spec (length l) (length m)) as [E|E].
  - split.
    + intros H. left. split; [exact E|]. intros i I. apply far_R. match type of H with Ok ?x = Ok _ => assert (Q : x = false) by congruence end.
      rewrite zipw_false in Q by exact E. now apply Q.
    + intros H. f_equal. apply zipw_false; [exact E|]. intros i I. apply far_R. destruct H as [(_ & H)|[(y & -> & H)|(x & -> & H)]]; [now apply H| |].
      * cbn [length] in E. destruct l as [|x [|]]; try discriminate. cbn in I. assert (i = 0%nat) by lia. subst. apply H. now left.
      * cbn [length] in E. destruct m as [|y [|]]; try discriminate. cbn in I. assert (i = 0%nat) by lia. subst. apply H. now left.
  - split.
    + intros H. right. destruct m as [|y [|y' m]].
      * destruct l as [|x [|x' l]]; [congruence| |discriminate]. right. exists x. split; [reflexivity|]. intros y [].
      * left. exists y. split; [reflexivity|]. assert (Q : existsb (fun x => nltb tol (nabs (nsub x y))) l = false) by (destruct l as [|? [|]]; congruence).
        intros x I. apply far_R. now apply (proj1 (existsb_false _ _) Q).
      * destruct l as [|x [|]]; [discriminate| |discriminate]. right. exists x. split; [reflexivity|].
        match type of H with Ok ?x = Ok _ => assert (Q : x = false) by congruence end. intros z I. apply far_R. now apply (proj1 (existsb_false _ _) Q).
    + intros [(Q & _)|[(y & -> & H)|(x & -> & H)]]; [congruence| |].
      * assert (Q : existsb (fun x => nltb tol (nabs (nsub x y))) l = false) by (apply existsb_false; intros x I; now apply far_R, H).
        destruct l as [|? [|]]; now rewrite Q.
      * assert (Q : existsb (fun y => nltb tol (nabs (nsub x y))) m = false) by (apply existsb_false; intros z I; now apply far_R, H).
        destruct m as [|? [|]]; [reflexivity|now destruct E|now rewrite Q].
Qed.
Lemma far_sym (x y : R) : nltb (@tol R RNum) (nabs (nsub x y)) = nltb tol (nabs (nsub y x)).
Proof. f_equal. unR. apply Rabs_minus_sym. Qed.
Lemma list_ne_sym (l m : list R) : list_ne l m = list_ne m l.
Proof.
  unfold list_ne. rewrite (Nat.eqb_sym (length m)). destruct (Nat.eqb_spec (length l) (length m)) as [E|E].
  - f_equal. f_equal. revert m E. induction l as [|x l IH]; intros [|y m] E; try discriminate; [reflexivity|]. cbn [zipw]. f_equal; [apply far_sym|apply IH; cbn in E; lia].
  - assert (X : forall y l, existsb (fun x => nltb (@tol R RNum) (nabs (nsub x y))) l = existsb (fun x => nltb tol (nabs (nsub y x))) l).
    { intros y k. induction k as [|z k IH]; [reflexivity|]. cbn [existsb]. now rewrite IH, far_sym. }
    destruct l as [|x [|x' l]], m as [|y [|y' m]]; try reflexivity; try (now destruct E); now rewrite X.
Qed.
Lemma props_ne_R (p q : physprops R) a b c d : props_ne p q a b c d = false <-> q = p /\ c = a /\ d = b.
Proof.
  unfold props_ne. destruct p as [p1 p2 p3], q as [q1 q2 q3]. cbn. unR. split.
  - intros H. apply Bool.negb_false_iff in H. repeat rcase_in H; cbn in H; try discriminate. subst. auto.
  - intros (Q & -> & ->). injection Q as -> -> ->. rewrite !Reqb_same. reflexivity.
Qed.
Lemma entry_ne_sym k (a b : pyval R) : 
  (match a, b with VList _, VList _ => True | VList _, _ | _, VList _ => False | _, _ => True end) -> entry_ne k a b = entry_ne k b a.
Proof.
  intros H. unfold entry_ne. destruct (String.eqb k "veh_override_kg").
  - f_equal. destruct a, b; cbn; try reflexivity; f_equal. unR. repeat rcase; congruence.
  - destruct a, b; try reflexivity; try destruct H; try (f_equal; fail).
    + f_equal. now destruct b, b0.
    + f_equal. now rewrite Z.eqb_sym.
    + f_equal. unfold num_ne, is_nan. unR. rewrite !Reqb_same. repeat rcase; congruence.
    + f_equal. now rewrite String.eqb_sym.
    + apply list_ne_sym.
    + f_equal. unfold props_ne. unR. repeat rcase; cbn; congruence.
Qed.
Section Entries.
  Variables k k' : string.
  Hypothesis K : String.eqb k "veh_override_kg" = false.
  Let KO : k <> "veh_override_kg"%string. Proof. now apply String.eqb_neq. Qed.
  Lemma same_ne a b : entry_same (F := R) (k, a) (k', b) <-> entry_ne k a b = Ok false.
  Proof. unfold entry_same. cbn [fst snd]. split; [intros [H|H]; [now destruct KO|exact H]|now right]. Qed.
  Lemma ok_false b : Ok b = Ok false <-> b = false. Proof. split; congruence. Qed.
  Lemma e_num (x y : R) : entry_same (k, VNum x) (k', VNum y) <-> y = x.
  Proof. rewrite same_ne. unfold entry_ne. rewrite K, ok_false. apply num_ne_R. Qed.
  Lemma e_int x y : entry_same (F := R) (k, VInt x) (k', VInt y) <-> y = x.
  Proof. rewrite same_ne. unfold entry_ne. rewrite K, ok_false. rewrite Bool.negb_false_iff, Z.eqb_eq. split; congruence. Qed.
  Lemma e_str x y : entry_same (F := R) (k, VStr x) (k', VStr y) <-> y = x.
  Proof. rewrite same_ne. unfold entry_ne. rewrite K, ok_false. rewrite Bool.negb_false_iff, String.eqb_eq. split; congruence. Qed.
  Lemma e_bool x y : entry_same (F := R) (k, VBool x) (k', VBool y) <-> y = x.
  Proof. rewrite same_ne. unfold entry_ne. rewrite K, ok_false. rewrite Bool.negb_false_iff, Bool.eqb_true_iff. split; congruence. Qed.
  Lemma e_list (x y : list R) : entry_same (k, VList x) (k', VList y) <-> near x y.
  Proof. rewrite same_ne. unfold entry_ne. rewrite K. apply list_ne_near. Qed.
  Lemma e_opt (x y : option R) : entry_same (k, opt_num x) (k', opt_num y) <-> y = x.
  Proof.
    destruct x as [x|], y as [y|]; cbn [opt_num]; [rewrite e_num; split; congruence| | |]; rewrite same_ne; unfold entry_ne; rewrite K; split; intros; congruence.
  Qed.
  Lemma e_olist (x : list R) (y : option (list R)) : entry_same (k, VList x) (k', opt_list y) <-> exists m, y = Some m /\ near x m.
  Proof.
    destruct y as [y|]; cbn [opt_list].
    - rewrite e_list. split; [eauto|]. intros (m & A & B). congruence.
    - rewrite same_ne. unfold entry_ne. rewrite K. split; [discriminate|]. intros (m & A & _). discriminate.
  Qed.
  Lemma e_props (p q : physprops R) a b c d : entry_same (k, VProps p a b) (k', VProps q c d) <-> q = p /\ c = a /\ d = b.
  Proof. rewrite same_ne. unfold entry_ne. rewrite K, ok_false. apply props_ne_R. Qed.
End Entries.
Lemma F2c {A B} (P : A -> B -> Prop) a b l l' : Forall2 P (a :: l) (b :: l') -> P a b /\ Forall2 P l l'.
Proof. intros H. now inversion H. Qed.
Lemma pt_text_inj a b : pt_text a = pt_text b -> a = b. Proof. destruct a, b; cbn; congruence. Qed.
Lemma equal_iff (v w : pyveh R) m : length (pv_vals v) = 18%nat -> length (pv_vals w) = 18%nat -> mc_eff_map (pv_core v) = Some m ->
  (veh_equal v w = Ok true <-> same_settings v w /\ near_maps (pv_core v) (pv_core w)).
Proof.
  intros LV LW MM. rewrite equal_zip by assumption. rewrite zip_true by (rewrite !keys_of_copy by assumption; reflexivity).
  destruct v as [c sc se ye te wh vals rho afr], w as [c' sc' se' ye' te' wh' vals' rho' afr']. cbn [pv_vals pv_core] in *.
  destruct (explode18 _ LV) as (x1 & x2 & x3 & x4 & x5 & x6 & x7 & x8 & x9 & x10 & x11 & x12 & x13 & x14 & x15 & x16 & x17 & x18 & ->).
  destruct (explode18 _ LW) as (y1 & y2 & y3 & y4 & y5 & y6 & y7 & y8 & y9 & y10 & y11 & y12 & y13 & y14 & y15 & y16 & y17 & y18 & ->).
  unfold copy_dict. cbn [pv_core pv_scenario pv_selection pv_year pv_type pv_wheels pv_vals pv_rho pv_afr val_keys combine map app fst snd]. rewrite MM. cbn [opt_list]. split.
  - intros H.
    repeat (apply F2c in H as [?E H]; lazymatch goal with E : entry_same _ _ |- _ =>
      first [apply e_num in E; [|reflexivity] | apply e_int in E; [|reflexivity] | apply e_str in E; [|reflexivity] | apply e_bool in E; [|reflexivity]
            | apply e_list in E; [|reflexivity] | apply e_props in E; [|reflexivity] | apply e_opt in E; [|reflexivity] | apply e_olist in E; [|reflexivity] | clear E] end).
    clear H. repeat match goal with H : _ /\ _ |- _ => destruct H end. split.
    + constructor; cbn [pv_core pv_scenario pv_selection pv_year pv_type pv_wheels pv_vals pv_rho pv_afr]; try assumption; [congruence|now apply pt_text_inj|].
      unfold numbers. repeat (apply Forall_cons; [assumption|]). apply Forall_nil.
    + unfold near_maps. cbn [pv_core]. split; [assumption|]. split; [assumption|]. split; [assumption|].
      match goal with H : exists m0, mc_eff_map c' = Some m0 /\ _ |- _ => destruct H as (m' & A & B) end. exists m, m'. auto.
  - intros ([S1 S2 S3 S4 S5 S6 S7 S8 S9 S10 S11 S12 S13 S14 S15] & N1 & N2 & N3 & m0 & m' & M1 & M2 & N4).
    cbn [pv_core pv_scenario pv_selection pv_year pv_type pv_wheels pv_vals pv_rho pv_afr] in *.
    assert (m0 = m) by congruence. subst m0. rewrite M2. cbn [opt_list]. unfold numbers in S15.
    repeat (let E := fresh "E" in pose proof (Forall_inv S15) as E; cbn beta in E; apply Forall_inv_tail in S15). clear S15.
    injection S6 as -> -> -> -> -> -> -> -> -> -> -> -> -> -> -> -> -> ->.
    repeat (apply Forall2_cons; [first [apply e_num; [reflexivity|first [assumption|reflexivity]] | apply e_int; [reflexivity|assumption] | apply e_str; [reflexivity|first [assumption|now rewrite S9]]
       | apply e_bool; [reflexivity|assumption] | apply e_list; [reflexivity|assumption] | apply e_props; [reflexivity|auto] | apply e_opt; [reflexivity|assumption] | left; reflexivity]|]).
    apply Forall2_nil.
Qed.
