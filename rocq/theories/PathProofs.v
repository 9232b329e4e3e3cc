(** Attribute paths and log levels. *)
From Coq Require Import Ascii Lia.
From Verif Require Import Num Numpy CycleModel ListFacts UtilModel UtilSpec.

Section Paths.
  Context {A : Type}.
  Implicit Types h : heap A.
  Implicit Types o v x y : pyval A.

  Lemma assoc_find n (l : list (string * pyval A)) : assoc n l = option_map snd (find (fun kv => String.eqb (fst kv) n) l).
  Proof. induction l as [|[k w] l IH]; cbn; [reflexivity|]. destruct (String.eqb k n); cbn; auto. Qed.
  Lemma has_attr_assoc h l n x : has_attr h l n x <-> exists ob, nth_error h l = Some ob /\ assoc n (attrs ob) = Some x.
  Proof.
    split.
    - intros (ob & k & E & F). exists ob. rewrite assoc_find, F. auto.
    - intros (ob & E & F). rewrite assoc_find in F. destruct (find _ _) as [[k w]|] eqn:G; cbn in F; [|discriminate].
      injection F as ->. exists ob, k. auto.
  Qed.
  Lemma getattr_ok h o n x : getattr h o n = Ok x <-> exists l, o = Ref l /\ has_attr h l n x.
  Proof.
    split.
    - destruct o as [l|a]; cbn; [|discriminate]. destruct (nth_error h l) as [ob|] eqn:E; [|discriminate].
      destruct (assoc n (attrs ob)) eqn:G; [|discriminate]. intros [= ->]. exists l. split; auto. apply has_attr_assoc; eauto.
    - intros (l & -> & H). apply has_attr_assoc in H. destruct H as (ob & E & F). cbn. rewrite E, F. reflexivity.
  Qed.
  Lemma getattr_err h o n e : getattr h o n = Err e -> e = AttributeError.
  Proof. destruct o as [l|a]; cbn; [|congruence]. destruct (nth_error h l) as [ob|]; [|congruence]. destruct (assoc _ _); congruence. Qed.
  Lemma has_attr_fun h l n x y : has_attr h l n x -> has_attr h l n y -> x = y.
  Proof. rewrite !has_attr_assoc. intros (? & E & F) (? & E' & F'). congruence. Qed.

  Lemma leads_fun h o p x : leads h o p x -> forall y, leads h o p y -> x = y.
  Proof.
    induction 1; intros z Hz; inversion Hz; subst; auto.
    match goal with H : has_attr h l n ?a |- _ => assert (y = a) by (eapply has_attr_fun; eauto) end. subst. auto.
  Qed.
  Lemma leads_app h o p q x : leads h o (p ++ q) x <-> exists y, leads h o p y /\ leads h y q x.
  Proof.
    split.
    - revert o. induction p as [|n p IH]; cbn; intros o H.
      + exists o. split; [constructor|auto].
      + inversion H; subst. destruct (IH _ H5) as (z & H1 & H2). exists z. split; auto. econstructor; eauto.
    - intros (y & H1 & H2). induction H1; cbn; auto. econstructor; eauto.
  Qed.
  Lemma leads_one h o n x : leads h o [n] x <-> exists l, o = Ref l /\ has_attr h l n x.
  Proof.
    split.
    - intros H. inversion H; subst. inversion H5; subst. eauto.
    - intros (l & -> & H). econstructor; eauto. constructor.
  Qed.
  Lemma getattr_leads h o n x : getattr h o n = Ok x <-> leads h o [n] x.
  Proof. rewrite getattr_ok, leads_one. reflexivity. Qed.

  (** follow: the containers along a path *)
  Lemma follow_ok h : forall p o cs, follow h o p = Ok cs ->
    length cs = S (length p) /\ hd o cs = o /\ (forall k, (k <= length p)%nat -> leads h o (firstn k p) (nth k cs o)) /\ leads h o p (last cs o).
  Proof.
    induction p as [|n p IH]; cbn; intros o cs H.
    - injection H as <-. cbn. repeat split; auto; try constructor. intros k K. assert (k = 0)%nat by lia. subst. constructor.
    - destruct (getattr h o n) as [c|e] eqn:G; cbn in H; [|discriminate].
      destruct (follow h c p) as [cs'|e] eqn:F; cbn in H; [|discriminate]. injection H as <-.
      destruct (IH _ _ F) as (L1 & L2 & L3 & L4). apply getattr_ok in G. destruct G as (l & -> & G).
      assert (D : forall d k, (k < length cs')%nat -> nth k cs' d = nth k cs' c) by (intros; apply nth_indep; auto).
      repeat split.
      + cbn. lia.
      + intros k K. destruct k; cbn; [constructor|]. econstructor; [eauto|]. rewrite D by lia. apply L3. lia.
      + econstructor; [eauto|]. destruct cs' as [|z cs']; [cbn in L1; lia|]. change (last (Ref l :: z :: cs') (Ref l)) with (last (z :: cs') (Ref l)).
        replace (last (z :: cs') (Ref l)) with (last (z :: cs') c); auto.
        clear. revert z. induction cs' as [|a cs' IH]; intros z; cbn; auto. apply IH.
  Qed.
  Lemma follow_total h : forall p o x, leads h o p x -> exists cs, follow h o p = Ok cs.
  Proof.
    intros p o x H. induction H; cbn [follow]; [eauto|].
    assert (getattr h (Ref l) n = Ok y) as G by (apply getattr_ok; eauto). rewrite G. cbn [bindR]. destruct IHleads as (cs & ->). cbn. eauto.
  Qed.
  Lemma follow_err h : forall p o e, follow h o p = Err e -> e = AttributeError.
  Proof.
    induction p as [|n p IH]; cbn; intros o e H; [discriminate|].
    destruct (getattr h o n) as [c|e'] eqn:G; cbn in H; [|injection H as <-; eapply getattr_err; eauto].
    destruct (follow h c p) eqn:F; cbn in H; [discriminate|]. injection H as <-. eauto.
  Qed.
  (** struct together with its containers *)
  Lemma containers_follow h o n r : r <> [] ->
    (do cs <- get_containers h o (n :: r); Ok (o :: cs)) = follow h o (removelast (n :: r)).
  Proof. intros R. destruct r as [|m r]; [congruence|]. cbn [get_containers]. change (removelast (n :: m :: r)) with (n :: removelast (m :: r)). cbn [follow].
    destruct (getattr h o n) as [c|e]; cbn; reflexivity. Qed.

  Lemma last_cons_cs (o d : pyval A) cs : last (o :: cs) d = last cs o.
  Proof. revert o d. induction cs as [|a cs IH]; intros o d; [reflexivity|]. change (last (o :: a :: cs) d) with (last (a :: cs) d).
    rewrite IH. cbn. destruct cs; auto. rewrite <- (IH a o). reflexivity. Qed.
  Lemma path_split (p : list string) : p <> [] -> p = removelast p ++ [last p ""%string].
  Proof. apply app_removelast_last. Qed.

  Lemma get_spec h o p x : p <> [] -> (get_attr_with_path h o p = Ok x <-> leads h o p x).
  Proof.
    intros P. destruct p as [|n [|m r]]; [congruence|apply getattr_leads|].
    change (get_attr_with_path h o (n :: m :: r)) with (do cs <- get_containers h o (n :: m :: r); getattr h (last cs o) (last (n :: m :: r) ""%string)).
    remember (n :: m :: r) as p eqn:EP.
    pose proof (containers_follow h o n (m :: r) ltac:(discriminate)) as C. rewrite <- EP in C.
    replace (leads h o p x) with (leads h o (removelast p ++ [last p ""%string]) x) by (rewrite <- path_split by auto; reflexivity).
    rewrite leads_app.
    destruct (get_containers h o p) as [cs|e] eqn:G; cbn [bindR] in *.
    - symmetry in C. apply follow_ok in C. destruct C as (_ & _ & _ & C). rewrite last_cons_cs in C.
      rewrite getattr_leads. split; [eauto|]. intros (y & H1 & H2). rewrite (leads_fun _ _ _ _ C _ H1). auto.
    - split; [discriminate|]. intros (y & H1 & _). apply follow_total in H1. destruct H1 as (cs & H1). congruence.
  Qed.
  Lemma get_fails h o p e : p <> [] -> get_attr_with_path h o p = Err e -> e = AttributeError.
  Proof.
    intros P. destruct p as [|n [|m r]]; [congruence|apply getattr_err|].
    change (get_attr_with_path h o (n :: m :: r)) with (do cs <- get_containers h o (n :: m :: r); getattr h (last cs o) (last (n :: m :: r) ""%string)).
    remember (n :: m :: r) as p eqn:EP.
    pose proof (containers_follow h o n (m :: r) ltac:(discriminate)) as C. rewrite <- EP in C.
    destruct (get_containers h o p) as [cs|e'] eqn:G; cbn [bindR] in *; [apply getattr_err|].
    intros [= <-]. symmetry in C. eapply follow_err; eauto.
  Qed.

  (** setattr *)
  Lemma assoc_set_get n v m (l : list (string * pyval A)) : assoc m (assoc_set n v l) = if String.eqb n m then Some v else assoc m l.
  Proof.
    induction l as [|[k w] l IH]; cbn.
    - reflexivity.
    - destruct (String.eqb k n) eqn:E; cbn.
      + apply String.eqb_eq in E. subst k. destruct (String.eqb n m); reflexivity.
      + rewrite IH. destruct (String.eqb k m) eqn:K; auto. destruct (String.eqb n m) eqn:M; auto.
        apply String.eqb_eq in K, M. subst. rewrite String.eqb_refl in E. discriminate.
  Qed.
  Lemma assoc_set_same n v (l : list (string * pyval A)) : assoc n l = Some v -> assoc_set n v l = l.
  Proof. induction l as [|[k w] l IH]; cbn; [discriminate|]. destruct (String.eqb k n) eqn:E; [congruence|]. intros H. rewrite IH; auto. Qed.
  Lemma nth_error_set {B} (l : list B) k b j : nth_error (set_nth l k b) j = if (Nat.eqb k j && Nat.ltb k (length l))%bool then Some b else nth_error l j.
  Proof.
    revert k j. induction l as [|a l IH]; intros k j; cbn.
    - rewrite Bool.andb_false_r. destruct k, j; reflexivity.
    - destruct k, j; cbn; auto. rewrite IH. reflexivity.
  Qed.
  Lemma set_nth_self {B} (l : list B) k b : nth_error l k = Some b -> set_nth l k b = l.
  Proof. revert k. induction l as [|a l IH]; intros [|k]; cbn; try discriminate; [congruence|]. intros H. rewrite IH; auto. Qed.

  (** The heap after setattr. *)
  Definition upd h l n v : heap A :=
    match nth_error h l with Some ob => set_nth h l (mkobj (assoc_set n v (attrs ob)) (resettable ob)) | None => h end.
  Lemma setattr_ok h l n v : (l < length h)%nat -> setattr h (Ref l) n v = Ok (upd h l n v).
  Proof. intros L. cbn. unfold upd. destruct (nth_error h l) eqn:E; auto. apply nth_error_None in E. lia. Qed.
  Lemma setattr_inv h o n v h' : setattr h o n v = Ok h' -> exists l, o = Ref l /\ (l < length h)%nat /\ h' = upd h l n v.
  Proof.
    destruct o as [l|]; cbn; [|discriminate]. destruct (nth_error h l) eqn:E; [|discriminate]. intros [= <-].
    exists l. repeat split; auto. { apply nth_error_Some. congruence. } unfold upd. rewrite E. reflexivity.
  Qed.
  Lemma set_nth_len {B} (l : list B) k b : length (set_nth l k b) = length l.
  Proof. revert k. induction l as [|a l IH]; intros [|k]; cbn; auto. Qed.
  Lemma upd_len h l n v : length (upd h l n v) = length h.
  Proof. unfold upd. destruct (nth_error h l); auto. apply set_nth_len. Qed.
  Lemma upd_attr h l n v l' n' x : (l < length h)%nat ->
    (has_attr (upd h l n v) l' n' x <-> if (Nat.eqb l l' && String.eqb n n')%bool then x = v else has_attr h l' n' x).
  Proof.
    intros L. rewrite has_attr_assoc. unfold upd. destruct (nth_error h l) as [ob|] eqn:E; [|apply nth_error_None in E; lia].
    rewrite nth_error_set. assert (Nat.ltb l (length h) = true) as -> by (apply Nat.ltb_lt; auto). rewrite Bool.andb_true_r.
    destruct (Nat.eqb l l') eqn:Q; cbn [andb].
    - apply Nat.eqb_eq in Q. subst l'. split.
      + intros (ob' & [= <-] & F). cbn in F. rewrite assoc_set_get in F. destruct (String.eqb n n'); [congruence|apply has_attr_assoc; exists ob; auto].
      + intros H. eexists. split; [reflexivity|]. cbn. rewrite assoc_set_get. destruct (String.eqb n n'); [congruence|].
        apply has_attr_assoc in H. destruct H as (ob' & F & G). rewrite E in F. injection F as <-. exact G.
    - rewrite (has_attr_assoc h). reflexivity.
  Qed.
  Lemma upd_reset h l n v l' : has_reset (upd h l n v) l' <-> has_reset h l'.
  Proof.
    unfold has_reset, upd. destruct (nth_error h l) as [ob|] eqn:E; [|reflexivity].
    rewrite nth_error_set. destruct (Nat.eqb l l' && Nat.ltb l (length h))%bool eqn:Q; [|reflexivity].
    apply andb_prop in Q. destruct Q as [Q _]. apply Nat.eqb_eq in Q. subst l'.
    split; intros (ob' & F & G); [injection F as <-; eauto|]. eexists. split; [reflexivity|]. cbn. congruence.
  Qed.
  Lemma upd_same h l n v : has_attr h l n v -> upd h l n v = h.
  Proof.
    intros H. apply has_attr_assoc in H. destruct H as (ob & E & F). unfold upd. rewrite E. apply set_nth_self. rewrite E. f_equal.
    rewrite assoc_set_same by auto. destruct ob; reflexivity.
  Qed.
  Lemma assoc_set_twice n v w (l : list (string * pyval A)) : assoc_set n w (assoc_set n v l) = assoc_set n w l.
  Proof.
    induction l as [|[k u] l IH]; cbn.
    - rewrite String.eqb_refl. reflexivity.
    - destruct (String.eqb k n) eqn:E; cbn; rewrite E; [reflexivity|]. rewrite IH. reflexivity.
  Qed.
  Lemma set_nth_twice {B} (l : list B) k a b : set_nth (set_nth l k a) k b = set_nth l k b.
  Proof. revert k. induction l as [|c l IH]; intros [|k]; cbn; auto. rewrite IH. reflexivity. Qed.
  Lemma upd_twice h l n v w : upd (upd h l n v) l n w = upd h l n w.
  Proof.
    unfold upd. destruct (nth_error h l) as [ob|] eqn:E; [|rewrite E; reflexivity].
    rewrite nth_error_set. assert (Nat.ltb l (length h) = true) as -> by (apply Nat.ltb_lt, nth_error_Some; congruence).
    rewrite Nat.eqb_refl. cbn [andb attrs resettable]. rewrite set_nth_twice, assoc_set_twice. reflexivity.
  Qed.
  Lemma only_changes_upd h l n v : (l < length h)%nat -> only_changes h (upd h l n v) l n v.
  Proof.
    intros L. repeat split.
    - apply upd_len.
    - apply upd_attr; auto. rewrite Nat.eqb_refl, String.eqb_refl. reflexivity.
    - intros H0. apply upd_attr in H0; auto. destruct (Nat.eqb l l' && String.eqb n n')%bool eqn:Q; auto.
      apply andb_prop in Q. destruct Q as [Q1 Q2]. apply Nat.eqb_eq in Q1. apply String.eqb_eq in Q2. subst. congruence.
    - intros H0. apply upd_attr; auto. destruct (Nat.eqb l l' && String.eqb n n')%bool eqn:Q; auto.
      apply andb_prop in Q. destruct Q as [Q1 Q2]. apply Nat.eqb_eq in Q1. apply String.eqb_eq in Q2. subst. congruence.
    - apply upd_reset.
    - apply upd_reset.
  Qed.

  (** A path that avoids the changed slot leads to the same place. *)
  Lemma leads_upd h l n v p o x : (l < length h)%nat -> ~ goes_through h o p l n -> (leads (upd h l n v) o p x <-> leads h o p x).
  Proof.
    intros L. revert o. induction p as [|m p IH]; intros o G.
    - split; intros H; inversion H; subst; constructor.
    - assert (Hd : forall l', o = Ref l' -> ((Nat.eqb l l' && String.eqb n m)%bool = false)).
      { intros l' ->. destruct (Nat.eqb l l' && String.eqb n m)%bool eqn:Q; auto. apply andb_prop in Q. destruct Q as [Q1 Q2].
        apply Nat.eqb_eq in Q1. apply String.eqb_eq in Q2. subst. exfalso. apply G. exists [], p. split; auto. constructor. }
      split; intros H; inversion H; subst.
      + apply upd_attr in H3; auto. rewrite (Hd _ eq_refl) in H3. econstructor; eauto. apply IH in H5; auto.
        intros (q & r & E & T). apply G. exists (m :: q), r. cbn. rewrite E. split; auto. econstructor; eauto.
      + econstructor. { apply upd_attr; auto. rewrite (Hd _ eq_refl). eauto. } apply IH; auto.
        intros (q & r & E & T). apply G. exists (m :: q), r. cbn. rewrite E. split; auto. econstructor; eauto.
  Qed.
  Lemma goes_upd h l n v p o l' n' : (l < length h)%nat -> ~ goes_through h o p l n ->
    (goes_through (upd h l n v) o p l' n' <-> goes_through h o p l' n').
  Proof.
    intros L G. assert (P : forall q r, p = q ++ n' :: r -> ~ goes_through h o q l n).
    { intros q r -> (q' & r' & -> & T). apply G. exists q', (r' ++ n' :: r). rewrite <- app_assoc. auto. }
    split; intros (q & r & E & T); exists q, r; split; auto; apply (leads_upd h l n v q o (Ref l')) in T; auto; eapply P; eauto.
  Qed.

  (** put_back writes what is already there. *)
  Lemma reset_ok h o : reset_orphaned h o = Ok tt <-> exists l, o = Ref l /\ has_reset h l.
  Proof.
    destruct o as [l|a]; cbn; [|split; [discriminate|intros (l & E & _); discriminate]].
    destruct (nth_error h l) as [ob|] eqn:E; split.
    - destruct (resettable ob) eqn:Q; [|discriminate]. intros _. exists l. split; auto. exists ob. auto.
    - intros (l' & [= <-] & ob' & F & Q). rewrite E in F. injection F as <-. rewrite Q. reflexivity.
    - discriminate.
    - intros (l' & [= <-] & ob' & F & Q). congruence.
  Qed.
  Lemma reset_err h o e : reset_orphaned h o = Err e -> e = AttributeError.
  Proof. destruct o as [l|]; cbn; [|congruence]. destruct (nth_error h l) as [ob|]; [|congruence]. destruct (resettable ob); congruence. Qed.
  Lemma setattr_err h o n v e : setattr h o n v = Err e -> e = AttributeError.
  Proof. destruct o as [l|]; cbn; [|congruence]. destruct (nth_error h l); congruence. Qed.
  Lemma same_object_ref o r : same_object o (Ref r) = true <-> o = Ref r.
  Proof. destruct o as [l|]; cbn; [|split; discriminate]. rewrite Nat.eqb_eq. split; congruence. Qed.
  Lemma put_back_err h s o l h' e : put_back h s o l = (h', Err e) -> e = AttributeError.
  Proof.
    revert h o. induction l as [|[c n] l IH]; cbn; intros h o H; [discriminate|].
    destruct (if same_object c s then Ok tt else reset_orphaned h c) as [u|e'] eqn:G.
    - destruct (setattr h c n o) eqn:Q; [eauto|]. injection H as _ <-. eapply setattr_err; eauto.
    - injection H as _ <-. destruct (same_object c s); [discriminate|]. eapply reset_err; eauto.
  Qed.

  Fixpoint chain h (nested : pyval A) (l : list (pyval A * string)) : Prop :=
    match l with [] => True | (c, n) :: r => leads h c [n] nested /\ chain h c r end.
  Definition outer (nested : pyval A) (l : list (pyval A * string)) : pyval A := last (map fst l) nested.
  Lemma outer_cons nested c n l : outer nested ((c, n) :: l) = outer c l.
  Proof. unfold outer. cbn [map fst]. apply last_cons_cs. Qed.
  Lemma outer_snoc nested l c n : outer nested (l ++ [(c, n)]) = c.
  Proof. unfold outer. rewrite map_app. cbn. apply last_last. Qed.
  Lemma chain_snoc h nested l c n : chain h nested (l ++ [(c, n)]) <-> chain h nested l /\ leads h c [n] (outer nested l).
  Proof.
    revert nested. induction l as [|[d m] l IH]; intros nested; cbn [app chain].
    - unfold outer. cbn. tauto.
    - rewrite IH, outer_cons. tauto.
  Qed.
  Lemma put_back_chain h s nested l : chain h nested l ->
    fst (put_back h s nested l) = h /\
    (snd (put_back h s nested l) = Ok (outer nested l) \/ snd (put_back h s nested l) = Err AttributeError) /\
    ((forall c n, In (c, n) l -> c = s \/ exists k, c = Ref k /\ has_reset h k) -> (exists r, s = Ref r) -> snd (put_back h s nested l) = Ok (outer nested l)).
  Proof.
    revert nested. induction l as [|[c n] l IH]; intros nested; cbn [put_back chain].
    - intros _. cbn. auto.
    - intros [H1 H2]. apply leads_one in H1. destruct H1 as (k & -> & H1).
      assert (K : (k < length h)%nat) by (destruct H1 as (ob & ? & E & _); apply nth_error_Some; congruence).
      rewrite setattr_ok, upd_same, outer_cons by auto. destruct (IH _ H2) as (I1 & I2 & I3).
      destruct (if same_object (Ref k) s then Ok tt else reset_orphaned h (Ref k)) as [u|e] eqn:G.
      + repeat split; auto. intros H (r & R). apply I3; eauto. intros c' n' Hin. eapply H. right. eauto.
      + assert (e = AttributeError) by (destruct (same_object (Ref k) s); [discriminate|eapply reset_err; eauto]). subst e.
        cbn [fst snd]. repeat split; auto. intros H (r & ->). exfalso. destruct (H (Ref k) n (or_introl eq_refl)) as [E|(k' & [= <-] & Q)].
        * rewrite E in G. cbn in G. rewrite Nat.eqb_refl in G. discriminate.
        * destruct (same_object (Ref k) (Ref r)); [discriminate|]. assert (reset_orphaned h (Ref k) = Ok tt) by (apply reset_ok; eauto). congruence.
  Qed.
  Lemma follow_chain h : forall p o cs x, follow h o p = Ok cs -> leads h o p x ->
    chain h x (combine (tl (rev cs)) (rev p)) /\ outer x (combine (tl (rev cs)) (rev p)) = o.
  Proof.
    induction p as [|n p IH]; intros o cs x F L.
    - injection F as <-. inversion L; subst. cbn. auto.
    - inversion L; subst. cbn [follow] in F. assert (getattr h (Ref l) n = Ok y) as G by (apply getattr_ok; eauto). rewrite G in F. cbn [bindR] in F.
      destruct (follow h y p) as [cs'|e] eqn:F'; cbn [bindR] in F; [|discriminate]. injection F as <-.
      destruct (IH _ _ _ F' H4) as (I1 & I2). pose proof (follow_ok _ _ _ _ F') as (Ln & _).
      assert (E : combine (tl (rev (Ref l :: cs'))) (rev (n :: p)) = combine (tl (rev cs')) (rev p) ++ [(Ref l, n)]).
      { cbn [rev]. destruct (rev cs') as [|z zs] eqn:Z.
        { apply (f_equal (@length _)) in Z. rewrite rev_length in Z. cbn in Z. lia. }
        cbn [tl app]. assert (Q : length zs = length (rev p)).
        { apply (f_equal (@length _)) in Z. rewrite rev_length in *. cbn in Z. lia. }
        clear -Q. revert Q. generalize (rev p) as w. induction zs as [|a zs IH]; intros [|b w] Q; cbn in *; try discriminate; auto. f_equal. apply IH. lia. }
      rewrite E. rewrite chain_snoc, outer_snoc, I2. repeat split; auto. apply leads_one. eauto.
  Qed.
  Lemma chain_members h : forall p o cs c n, follow h o p = Ok cs -> In (c, n) (combine (tl (rev cs)) (rev p)) -> exists q r, p = q ++ r /\ r <> [] /\ leads h o q c.
  Proof.
    intros p o cs c n F H. apply in_combine_l in H. pose proof (follow_ok _ _ _ _ F) as (Ln & _ & Lk & _).
    assert (In c (rev cs)) as Hc by (destruct (rev cs); cbn in *; auto). apply in_rev in Hc.
    assert (exists k, (k < length p)%nat /\ nth k cs o = c) as (k & K & E).
    { destruct (rev cs) as [|z zs] eqn:Z; [destruct H|]. cbn in H. assert (cs = rev zs ++ [z]) as -> by (rewrite <- (rev_involutive cs), Z; reflexivity).
      rewrite app_length, rev_length in Ln. cbn in Ln. apply in_rev in H. apply (In_nth _ _ o) in H. destruct H as (k & K & E). rewrite rev_length in K.
      exists k. split; [lia|]. rewrite app_nth1 by (rewrite rev_length; lia). auto. }
    exists (firstn k p), (skipn k p). rewrite firstn_skipn. repeat split; auto.
    - intros Q. apply (f_equal (@length _)) in Q. rewrite skipn_length in Q. cbn in Q. lia.
    - rewrite <- E. apply Lk. lia.
  Qed.

  Lemma follow_upd h l n v p o : (l < length h)%nat -> ~ goes_through h o p l n -> follow (upd h l n v) o p = follow h o p.
  Proof.
    intros L. revert o. induction p as [|m p IH]; intros o G; [reflexivity|]. cbn [follow].
    assert (E : getattr (upd h l n v) o m = getattr h o m).
    { destruct (getattr h o m) as [x|e] eqn:Q.
      - apply getattr_leads. apply getattr_leads in Q. apply leads_upd; auto. intros (q & r & E & T).
        apply G. destruct q as [|q0 q]; [|destruct q; discriminate]. cbn in E. injection E as -> <-. exists [], p. auto.
      - destruct (getattr (upd h l n v) o m) as [x|e'] eqn:Q'; [|apply getattr_err in Q, Q'; congruence].
        apply getattr_leads in Q'. apply leads_upd in Q'; auto; [apply getattr_leads in Q'; congruence|].
        intros (q & r & E & T). apply G. destruct q as [|q0 q]; [|destruct q; discriminate]. cbn in E. injection E as -> <-. exists [], p. auto. }
    rewrite E. destruct (getattr h o m) as [x|e] eqn:Q; cbn [bindR]; auto. rewrite IH; auto.
    intros (q & r & E' & T). apply G. exists (m :: q), r. cbn. rewrite E'. split; auto. apply getattr_ok in Q. destruct Q as (k & -> & Q). econstructor; eauto.
  Qed.

  (** What set_attr_with_path does when the path leads to an object and avoids the slot it sets. *)
  Definition through_ok h r p : Prop := forall q s k, removelast p = q ++ s -> q <> [] -> leads h (Ref r) q (Ref k) -> has_reset h k.
  Lemma set_form h r p l v : p <> [] -> (r < length h)%nat -> leads h (Ref r) (removelast p) (Ref l) -> ~ goes_through h (Ref r) (removelast p) l (last p ""%string) ->
    let n := last p ""%string in
    (fst (set_attr_with_path h (Ref r) p v) = h \/ fst (set_attr_with_path h (Ref r) p v) = upd h l n v) /\
    (forall s, snd (set_attr_with_path h (Ref r) p v) = Ok s -> fst (set_attr_with_path h (Ref r) p v) = upd h l n v /\ s = Ref r) /\
    (forall e, snd (set_attr_with_path h (Ref r) p v) = Err e -> e = AttributeError) /\
    (through_ok h r p -> set_attr_with_path h (Ref r) p v = (upd h l n v, Ok (Ref r))).
  Proof.
    intros P Rl Ld NG n. destruct p as [|a [|b p']]; [congruence| |].
    { inversion Ld; subst. unfold set_attr_with_path. rewrite setattr_ok by auto. cbn. repeat split; auto; try congruence. }
    change (set_attr_with_path h (Ref r) (a :: b :: p') v) with
      (match get_containers h (Ref r) (a :: b :: p') with
        | Err e => (h, Err e)
        | Ok cs => let containers := Ref r :: cs in let inner := last containers (Ref r) in
            match reset_orphaned h inner with
            | Err e => (h, Err e)
            | Ok _ => match setattr h inner (last (a :: b :: p') ""%string) v with
                | Err e => (h, Err e)
                | Ok h1 => put_back h1 (Ref r) inner (combine (tl (rev containers)) (tl (rev (a :: b :: p'))))
                end end end).
    assert (RL : removelast (a :: b :: p') <> []) by (cbn; congruence).
    pose proof (containers_follow h (Ref r) a (b :: p') ltac:(discriminate)) as C.
    remember (a :: b :: p') as p eqn:EP. fold n.
    destruct (follow_total _ _ _ _ Ld) as (cs0 & F). rewrite F in C.
    destruct (get_containers h (Ref r) p) as [cs|e]; cbn [bindR] in C; [|discriminate]. injection C as <-. cbv zeta.
    pose proof (follow_ok _ _ _ _ F) as (_ & _ & _ & LL). pose proof (leads_fun _ _ _ _ LL _ Ld) as E. rewrite E.
    assert (Thr : through_ok h r p -> has_reset h l) by (intros T; apply (T (removelast p) []); auto; rewrite app_nil_r; auto).
    destruct (reset_orphaned h (Ref l)) as [u|e] eqn:RO.
    2: { apply reset_err in RO as RE. subst e. cbn [fst snd]. repeat split; auto; try congruence. intros T. apply Thr in T.
         assert (reset_orphaned h (Ref l) = Ok tt) by (apply reset_ok; eauto). congruence. }
    destruct u. apply reset_ok in RO. destruct RO as (l' & [= <-] & HR).
    assert (Ll : (l < length h)%nat) by (destruct HR as (ob & Eo & _); apply nth_error_Some; congruence).
    rewrite setattr_ok by auto.
    assert (F1 : follow (upd h l n v) (Ref r) (removelast p) = Ok (Ref r :: cs)) by (rewrite follow_upd; auto).
    assert (Ld1 : leads (upd h l n v) (Ref r) (removelast p) (Ref l)) by (apply leads_upd; auto).
    assert (TR : tl (rev p) = rev (removelast p)).
    { rewrite (path_split p) at 1 by auto. rewrite rev_app_distr. reflexivity. }
    rewrite TR. destruct (follow_chain _ _ _ _ _ F1 Ld1) as (Ch & Ou).
    destruct (put_back_chain _ (Ref r) _ _ Ch) as (B1 & B2 & B3). rewrite Ou in *.
    repeat split.
    - auto.
    - auto.
    - destruct B2; congruence.
    - intros e He. destruct B2; congruence.
    - intros T. rewrite <- (B3). { rewrite <- B1 at 2. destruct (put_back _ _ _ _); reflexivity. }
      + intros c m Hin. destruct (chain_members _ _ _ _ _ _ F1 Hin) as (q & s & Eq & Ns & Lq).
        destruct q as [|q0 q]; [left; inversion Lq; auto|right].
        assert (NG' : ~ goes_through h (Ref r) (q0 :: q) l n).
        { intros (q' & r' & Eq' & T'). apply NG. exists q', (r' ++ s). rewrite Eq, Eq', <- app_assoc. auto. }
        apply leads_upd in Lq; auto.
        assert (exists k, c = Ref k) as (k & ->).
        { destruct s as [|s0 s]; [congruence|]. rewrite Eq in Ld. apply leads_app in Ld. destruct Ld as (y & Y1 & Y2).
          pose proof (leads_fun _ _ _ _ Lq _ Y1). subst y. inversion Y2; eauto. }
        exists k. split; auto. apply upd_reset. eapply T; eauto. discriminate.
      + eauto.
  Qed.

  (** Facts that hold for every path. *)
  Lemma set_long h o a b p' v : set_attr_with_path h o (a :: b :: p') v =
      match follow h o (removelast (a :: b :: p')) with
        | Err e => (h, Err e)
        | Ok containers => let inner := last containers o in
            match reset_orphaned h inner with
            | Err e => (h, Err e)
            | Ok _ => match setattr h inner (last (a :: b :: p') ""%string) v with
                | Err e => (h, Err e)
                | Ok h1 => put_back h1 o inner (combine (tl (rev containers)) (tl (rev (a :: b :: p'))))
                end end end.
  Proof.
    pose proof (containers_follow h o a (b :: p') ltac:(discriminate)) as C. rewrite <- C.
    unfold set_attr_with_path. destruct (get_containers h o (a :: b :: p')) as [cs|e]; reflexivity.
  Qed.
  Lemma set_errors h o p v h' e : p <> [] -> set_attr_with_path h o p v = (h', Err e) -> e = AttributeError.
  Proof.
    intros P. destruct p as [|a [|b p']]; [congruence| |].
    - unfold set_attr_with_path. destruct (setattr h o a v) eqn:S; [discriminate|]. intros [= _ <-]. eapply setattr_err; eauto.
    - rewrite set_long. destruct (follow _ _ _) as [cs|e'] eqn:F; [|intros [= _ <-]; eapply follow_err; eauto]. cbv zeta.
      destruct (reset_orphaned _ _) eqn:R; [|intros [= _ <-]; eapply reset_err; eauto].
      destruct (setattr _ _ _ _) eqn:S; [|intros [= _ <-]; eapply setattr_err; eauto]. apply put_back_err.
  Qed.
  Lemma set_missing h o p v : p <> [] -> (forall l, ~ leads h o (removelast p) (Ref l)) -> set_attr_with_path h o p v = (h, Err AttributeError).
  Proof.
    intros P M. destruct p as [|a [|b p']]; [congruence| |].
    - unfold set_attr_with_path. destruct (setattr h o a v) eqn:S; [|apply setattr_err in S; congruence].
      apply setattr_inv in S. destruct S as (l & -> & _). exfalso. apply (M l). constructor.
    - rewrite set_long. destruct (follow _ _ _) as [cs|e'] eqn:F; [|apply follow_err in F; congruence]. cbv zeta.
      apply follow_ok in F. destruct F as (_ & _ & _ & F). destruct (last cs o) as [l|x]; [exfalso; apply (M l); auto|]. reflexivity.
  Qed.
  Lemma set_not_object h o p v l : p <> [] -> removelast p <> [] -> leads h o (removelast p) (Ref l) -> ~ has_reset h l ->
    set_attr_with_path h o p v = (h, Err AttributeError).
  Proof.
    intros P P2 L R. destruct p as [|a [|b p']]; [congruence|cbn in P2; congruence|].
    rewrite set_long. destruct (follow _ _ _) as [cs|e'] eqn:F; [|apply follow_err in F; congruence]. cbv zeta.
    apply follow_ok in F. destruct F as (_ & _ & _ & F). pose proof (leads_fun _ _ _ _ F _ L) as E. rewrite E.
    destruct (reset_orphaned h (Ref l)) as [[]|e] eqn:Q; [|apply reset_err in Q; congruence].
    apply reset_ok in Q. destruct Q as (l' & [= <-] & Q). contradiction.
  Qed.
  Lemma set_same h r p v : p <> [] -> leads h (Ref r) p v -> fst (set_attr_with_path h (Ref r) p v) = h.
  Proof.
    intros P L. rewrite (path_split p) in L by auto. apply leads_app in L. destruct L as (y & L1 & L2).
    apply leads_one in L2. destruct L2 as (l & -> & L2).
    destruct p as [|a [|b p']]; [congruence| |].
    - inversion L1; subst. cbn [last] in L2. unfold set_attr_with_path. rewrite setattr_ok.
      + rewrite upd_same by auto. reflexivity.
      + destruct L2 as (ob & ? & E & _). apply nth_error_Some. congruence.
    - rewrite set_long. remember (a :: b :: p') as p eqn:EP.
      destruct (follow _ _ _) as [cs|e'] eqn:F; [|reflexivity]. cbv zeta.
      pose proof (follow_ok _ _ _ _ F) as (_ & _ & _ & F'). pose proof (leads_fun _ _ _ _ F' _ L1) as E. rewrite E.
      destruct (reset_orphaned h (Ref l)); [|reflexivity].
      rewrite setattr_ok by (destruct L2 as (ob & ? & Eo & _); apply nth_error_Some; congruence). rewrite upd_same by auto.
      assert (TR : tl (rev p) = rev (removelast p)).
      { rewrite (path_split p) at 1 by auto. rewrite rev_app_distr. reflexivity. }
      rewrite TR. destruct (follow_chain _ _ _ _ _ F L1) as (Ch & Ou). apply put_back_chain. auto.
  Qed.

  (** The laws. *)
  Lemma set_only h r p v h' s l : p <> [] -> leads h (Ref r) (removelast p) (Ref l) -> ~ goes_through h (Ref r) (removelast p) l (last p ""%string) ->
    set_attr_with_path h (Ref r) p v = (h', Ok s) -> s = Ref r /\ h' = upd h l (last p ""%string) v /\ (l < length h)%nat.
  Proof.
    intros P L NG E. assert (Lr : (l < length h)%nat).
    { destruct p as [|a [|b p']]; [congruence| |].
      - inversion L; subst. unfold set_attr_with_path in E. destruct (setattr h (Ref l) a v) eqn:S; [|discriminate]. apply setattr_inv in S. destruct S as (k & [= <-] & K & _). auto.
      - destruct (nth_error h l) as [ob|] eqn:Q; [apply nth_error_Some; congruence|].
        rewrite (set_not_object h (Ref r) (a :: b :: p') v l) in E; auto; [discriminate|cbn; discriminate|]. intros (ob & Eo & _). congruence. }
    assert (Rr : (r < length h)%nat).
    { destruct p as [|a [|b p']]; [congruence|inversion L; subst; auto|].
      change (removelast (a :: b :: p')) with (a :: removelast (b :: p')) in L. inversion L; subst.
      match goal with H : has_attr h r a _ |- _ => destruct H as (ob & ? & Eo & _) end. apply nth_error_Some. congruence. }
    destruct (set_form h r p l v P Rr L NG) as (_ & B & _). rewrite E in B. cbn in B. destruct (B s eq_refl). auto.
  Qed.
  Lemma get_set h r p v h' s l : p <> [] -> leads h (Ref r) (removelast p) (Ref l) -> ~ goes_through h (Ref r) (removelast p) l (last p ""%string) ->
    set_attr_with_path h (Ref r) p v = (h', Ok s) -> get_attr_with_path h' (Ref r) p = Ok v.
  Proof.
    intros P L NG E. destruct (set_only _ _ _ _ _ _ _ P L NG E) as (-> & -> & K). apply get_spec; auto. rewrite (path_split p) at 2 by auto.
    apply leads_app. exists (Ref l). split; [apply leads_upd; auto|]. apply leads_one. exists l. split; auto. apply upd_attr; auto.
    rewrite Nat.eqb_refl, String.eqb_refl. reflexivity.
  Qed.
  Lemma set_set h r p v w h' s l : p <> [] -> leads h (Ref r) (removelast p) (Ref l) -> ~ goes_through h (Ref r) (removelast p) l (last p ""%string) ->
    set_attr_with_path h (Ref r) p v = (h', Ok s) -> set_attr_with_path h' (Ref r) p w = set_attr_with_path h (Ref r) p w.
  Proof.
    intros P L NG E. destruct (set_only _ _ _ _ _ _ _ P L NG E) as (-> & -> & K).
    assert (Rr : (r < length h)%nat).
    { destruct p as [|a [|b p']]; [congruence|inversion L; subst; auto|].
      change (removelast (a :: b :: p')) with (a :: removelast (b :: p')) in L. inversion L; subst.
      match goal with H : has_attr h r a _ |- _ => destruct H as (ob & ? & Eo & _) end. apply nth_error_Some. congruence. }
    destruct p as [|a [|b p']]; [congruence| |].
    - inversion L; subst. cbn [last]. unfold set_attr_with_path. rewrite !setattr_ok by (rewrite ?upd_len; auto). rewrite upd_twice. reflexivity.
    - rewrite !set_long in *. remember (a :: b :: p') as p eqn:EP.
      rewrite follow_upd by auto. destruct (follow h (Ref r) (removelast p)) as [cs|e] eqn:F; [|discriminate]. cbv zeta in *.
      pose proof (follow_ok _ _ _ _ F) as (_ & _ & _ & F'). pose proof (leads_fun _ _ _ _ F' _ L) as EI. rewrite EI in *.
      destruct (reset_orphaned h (Ref l)) as [[]|e] eqn:RO; [|discriminate].
      assert (RO' : reset_orphaned (upd h l (last p ""%string) v) (Ref l) = Ok tt).
      { apply reset_ok. apply reset_ok in RO. destruct RO as (k & [= <-] & RO). exists l. split; auto. apply upd_reset; auto. }
      rewrite RO', !setattr_ok in * by (rewrite ?upd_len; auto). rewrite upd_twice. reflexivity.
  Qed.
  Lemma path_frame h r p v h' s l o q : p <> [] -> leads h (Ref r) (removelast p) (Ref l) -> ~ goes_through h (Ref r) (removelast p) l (last p ""%string) ->
    set_attr_with_path h (Ref r) p v = (h', Ok s) -> q <> [] -> ~ goes_through h o q l (last p ""%string) -> get_attr_with_path h' o q = get_attr_with_path h o q.
  Proof.
    intros P L NG E Q NQ. destruct (set_only _ _ _ _ _ _ _ P L NG E) as (-> & -> & K).
    destruct (get_attr_with_path h o q) as [x|e] eqn:G.
    - apply get_spec; auto. apply get_spec in G; auto. apply leads_upd; auto.
    - apply get_fails in G as Ge; auto. subst e. destruct (get_attr_with_path (upd _ _ _ _) o q) as [x|e] eqn:G'.
      + apply get_spec in G'; auto. apply leads_upd in G'; auto. apply get_spec in G'; auto. congruence.
      + apply get_fails in G'; auto. congruence.
  Qed.

  (** Trees. *)
  Lemma tree_unique h r : tree h r -> forall p q l, leads h (Ref r) p (Ref l) -> leads h (Ref r) q (Ref l) -> p = q.
  Proof.
    intros [T1 T2] p. induction p as [|n p IH] using rev_ind; intros q l Lp Lq.
    - inversion Lp; subst. destruct q as [|m q _] using rev_ind; auto. exfalso. apply leads_app in Lq. destruct Lq as (y & _ & Y).
      apply leads_one in Y. destruct Y as (k & _ & Y). apply (T1 _ _ Y).
    - apply leads_app in Lp. destruct Lp as (y & Y1 & Y2). apply leads_one in Y2. destruct Y2 as (k & -> & Y2).
      destruct q as [|m q _] using rev_ind.
      + inversion Lq; subst. exfalso. apply (T1 _ _ Y2).
      + apply leads_app in Lq. destruct Lq as (z & Z1 & Z2). apply leads_one in Z2. destruct Z2 as (k' & -> & Z2).
        destruct (T2 _ _ _ _ _ Y2 Z2) as (<- & <-). rewrite (IH _ _ Y1 Z1). reflexivity.
  Qed.
  Lemma tree_through h r p q l n : tree h r -> leads h (Ref r) p (Ref l) -> goes_through h (Ref r) q l n -> is_prefix (p ++ [n]) q.
  Proof.
    intros T L (q1 & q2 & -> & L'). rewrite (tree_unique _ _ T _ _ _ L L'). exists q2. rewrite <- app_assoc. reflexivity.
  Qed.
  Lemma tree_no_self h r p l : tree h r -> p <> [] -> leads h (Ref r) (removelast p) (Ref l) -> ~ goes_through h (Ref r) (removelast p) l (last p ""%string).
  Proof.
    intros T P L G. apply (tree_through _ _ _ _ _ _ T L) in G. destruct G as (s & G). apply (f_equal (@length _)) in G. rewrite !app_length in G. cbn in G. lia.
  Qed.
  Lemma tree_upd h r l n a : tree h r -> (l < length h)%nat -> tree (upd h l n (Data a)) r.
  Proof.
    intros [T1 T2] L. assert (B : forall k m c, has_attr (upd h l n (Data a)) k m (Ref c) -> has_attr h k m (Ref c)).
    { intros k m c H. apply upd_attr in H; auto. destruct (Nat.eqb l k && String.eqb n m)%bool; [discriminate|auto]. }
    split; [intros k m H; apply B in H; apply (T1 _ _ H)|]. intros k m k' m' c H H'. apply B in H, H'. eauto.
  Qed.
  Lemma set_leads h r p v h' s : p <> [] -> set_attr_with_path h (Ref r) p v = (h', Ok s) -> exists l, leads h (Ref r) (removelast p) (Ref l).
  Proof.
    intros P E. destruct p as [|a [|b p']]; [congruence|exists r; constructor|]. rewrite set_long in E.
    destruct (follow _ _ _) as [cs|e'] eqn:F; [|discriminate]. cbv zeta in E.
    apply follow_ok in F. destruct F as (_ & _ & _ & F). destruct (last cs (Ref r)) as [l|x]; [eauto|discriminate].
  Qed.
  Lemma tree_frame h r p v h' s q : tree h r -> p <> [] -> q <> [] -> set_attr_with_path h (Ref r) p v = (h', Ok s) -> ~ is_prefix p q ->
    get_attr_with_path h' (Ref r) q = get_attr_with_path h (Ref r) q.
  Proof.
    intros T P Q E NP. destruct (set_leads _ _ _ _ _ _ P E) as (l & L). apply (path_frame h r p v h' s l (Ref r) q); auto.
    - apply tree_no_self; auto.
    - intros G. apply (tree_through _ _ _ _ _ _ T L) in G. rewrite <- path_split in G by auto. auto.
  Qed.
  Lemma tree_get_set h r p v h' s : tree h r -> p <> [] -> set_attr_with_path h (Ref r) p v = (h', Ok s) -> get_attr_with_path h' (Ref r) p = Ok v.
  Proof. intros T P E. destruct (set_leads _ _ _ _ _ _ P E) as (l & L). eapply (get_set h r p v h' s l); eauto. apply tree_no_self; auto. Qed.
  Lemma tree_set_set h r p v w h' s : tree h r -> p <> [] -> set_attr_with_path h (Ref r) p v = (h', Ok s) ->
    set_attr_with_path h' (Ref r) p w = set_attr_with_path h (Ref r) p w.
  Proof. intros T P E. destruct (set_leads _ _ _ _ _ _ P E) as (l & L). eapply (set_set h r p v w h' s l); eauto. apply tree_no_self; auto. Qed.
  Lemma tree_set_tree h r p a h' s : tree h r -> p <> [] -> set_attr_with_path h (Ref r) p (Data a) = (h', Ok s) -> tree h' r.
  Proof.
    intros T P E. destruct (set_leads _ _ _ _ _ _ P E) as (l & L). destruct (set_only _ _ _ _ _ _ _ P L (tree_no_self _ _ _ _ T P L) E) as (_ & -> & K).
    apply tree_upd; auto.
  Qed.

  Lemma set_attrs_app h o a b : set_attrs_with_path h o (a ++ b) =
    match set_attrs_with_path h o a with (h', Ok s) => set_attrs_with_path h' s b | (h', Err e) => (h', Err e) end.
  Proof. revert h o. induction a as [|[p v] a IH]; intros h o; cbn; [reflexivity|]. destruct (set_attr_with_path h o p v) as [h1 [s|e]]; auto. Qed.
End Paths.

(** Dotted names *)
Lemma split_dot_ne s : split_dot s <> [].
Proof. induction s as [|c s IH]; cbn; [discriminate|]. destruct (Ascii.eqb c "."); [discriminate|]. destruct (split_dot s); discriminate. Qed.
Lemma split_dot_spec s : join "." (split_dot s) = s /\ Forall (text_all (fun c => c <> "."%char)) (split_dot s).
Proof.
  induction s as [|c s [J W]]; cbn; [repeat constructor|]. destruct (Ascii.eqb c ".") eqn:E.
  - apply Ascii.eqb_eq in E. subst c. pose proof (split_dot_ne s). destruct (split_dot s) as [|w ws]; [congruence|].
    split; [cbn in *; rewrite J; reflexivity|]. constructor; cbn; auto.
  - pose proof (split_dot_ne s). destruct (split_dot s) as [|w ws]; [congruence|]. split.
    + cbn in *. destruct ws; cbn in *; rewrite J; reflexivity.
    + inversion W; subst. constructor; auto. cbn. split; auto. intros ->. discriminate.
Qed.
Lemma split_join ws : ws <> [] -> Forall (text_all (fun c => c <> "."%char)) ws -> split_dot (join "." ws) = ws.
Proof.
  induction ws as [|w ws IH]; intros N W; [congruence|]. inversion W; subst.
  assert (B : forall w r, text_all (fun c => c <> "."%char) w -> split_dot (append w (String "." r)) = w :: split_dot r).
  { clear. induction w as [|c w IH]; intros r H; cbn; [reflexivity|]. destruct H as [Hc H]. apply Ascii.eqb_neq in Hc. rewrite Hc, IH; auto. }
  assert (C : forall w, text_all (fun c => c <> "."%char) w -> split_dot w = [w]).
  { clear. induction w as [|c w IH]; intros H; cbn; [reflexivity|]. destruct H as [Hc H]. apply Ascii.eqb_neq in Hc. rewrite Hc, IH; auto. }
  destruct ws as [|w2 ws]; [cbn; auto|]. change (join "." (w :: w2 :: ws)) with (append w (String "." (join "." (w2 :: ws)))).
  rewrite B by auto. rewrite IH; auto. discriminate.
Qed.

(** Log levels *)
Lemma standard_allowed z : existsb (Z.eqb z) (map snd allowed_args) = true <-> standard z.
Proof.
  unfold standard. cbn. rewrite !Bool.orb_true_iff, !Z.eqb_eq. intuition congruence.
Qed.
Lemma set_int st z : standard z -> set_log_level st (LInt z) = (mklevels z z, Ok (fast_level st)).
Proof. intros H. apply standard_allowed in H. unfold set_log_level. rewrite H. reflexivity. Qed.
Lemma set_int_bad st z : ~ standard z -> set_log_level st (LInt z) = (st, Err AssertionError).
Proof. intros H. unfold set_log_level. destruct (existsb (Z.eqb z) (map snd allowed_args)) eqn:E; [apply standard_allowed in E; contradiction|reflexivity]. Qed.
Lemma suppress_std {T} (body : levels -> levels * Res T) st : standard (fast_level st) ->
  suppress_logging body st = (mklevels (fast_level st) (fast_level st), snd (body (mklevels 51 51))).
Proof.
  intros H. unfold suppress_logging, disable_logging. rewrite set_int by (unfold standard; tauto). destruct (body _) as [st2 r].
  unfold enable_logging. rewrite set_int by auto. reflexivity.
Qed.
Lemma suppress_odd {T} (body : levels -> levels * Res T) st : ~ standard (fast_level st) ->
  suppress_logging body st = (fst (body (mklevels 51 51)), Err AssertionError).
Proof.
  intros H. unfold suppress_logging, disable_logging. rewrite set_int by (unfold standard; tauto). destruct (body _) as [st2 r].
  unfold enable_logging. rewrite set_int_bad by auto. reflexivity.
Qed.
