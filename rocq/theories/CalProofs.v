(** Proofs about calibration. *)
From Verif Require Import Num CycleModel FrameProofs ResampleProofs UtilModel PrepSpec PrepProofs CalModel CalSpec.

Lemma dset_fresh {V} (d : dict V) k v : ~ In k (map fst d) -> dset d k v = (d ++ [(k, v)])%list.
Proof.
  induction d as [|[j w] d IH]; cbn [dset map fst In app]; intros H; [reflexivity|].
  destruct (String.eqb_spec j k) as [->|Q]; [exfalso; auto|]. now rewrite IH by auto.
Qed.
Lemma dset_keys {V} (d : dict V) k v j : In j (map fst (dset d k v)) <-> j = k \/ In j (map fst d).
Proof.
  induction d as [|[i w] r IH]; cbn [dset map fst In]; [intuition|]. destruct (String.eqb_spec i k) as [->|Q]; cbn [map fst In].
  - intuition. - rewrite IH. intuition.
Qed.
Lemma dset_nodup {V} (d : dict V) k v : NoDup (map fst d) -> NoDup (map fst (dset d k v)).
Proof.
  induction d as [|[i w] r IH]; cbn [dset map fst]; intros H; [constructor; [auto|constructor]|].
  destruct (String.eqb_spec i k) as [->|Q]; cbn [map fst]; [exact H|]. inversion H; subst. constructor; [|auto].
  rewrite dset_keys. intros [C|C]; auto.
Qed.
Lemma dset_in {V} (d : dict V) k v j w : NoDup (map fst d) -> (In (j, w) (dset d k v) <-> (j = k /\ w = v) \/ (j <> k /\ In (j, w) d)).
Proof.
  induction d as [|[i u] r IH]; cbn [dset map fst In]; intros H.
  - split; [intros [E|[]]; left; split; congruence|]. intros [(-> & ->)|(_ & [])]. now left.
  - inversion H; subst. destruct (String.eqb_spec i k) as [->|Q]; cbn [In].
    + split.
      * intros [E|E]; [left; split; congruence|]. right. split; [|auto]. intros ->. apply H2. now apply (in_map fst) in E.
      * intros [(-> & ->)|(Q & [E|E])]; [now left| |now right]. congruence.
    + rewrite (IH H3). split.
      * intros [E|[E|(E1 & E2)]]; [right; split; [congruence|now left]|now left|right; split; auto].
      * intros [E|(E1 & [E2|E2])]; auto.
Qed.
Lemma dset_length {V} (d : dict V) k v : (length (dset d k v) <= Datatypes.S (length d))%nat.
Proof. induction d as [|[i u] r IH]; cbn [dset length]; [lia|]. destruct (String.eqb i k); cbn [length]; lia. Qed.

Lemma F2_length {B C} (P : B -> C -> Prop) l m : Forall2 P l m -> length l = length m.
Proof. induction 1; cbn; congruence. Qed.

Lemma given_spec o : match match snd o with r :: _ => given r | [] => None end with
  | Some r => (length (snd o) <= 1)%nat -> compares o (fst o) r
  | None => ~ referenced o end.
Proof.
  destruct o as [p [|[r|] l]]; cbn [snd fst given].
  - intros (p' & r' & E & _). discriminate.
  - destruct (String.eqb_spec r "") as [->|Q].
    + intros (p' & r' & E & N). injection E as _ <- _. now apply N.
    + cbn [length]. intros H. destruct l; [|cbn in H; lia]. split; auto.
  - intros (p' & r' & E & N). discriminate.
Qed.

Section CalProofs.
  Context {F : Type} {N : Num F} {S D J X : Type} (A : api F S D J X).
  Lemma objectives_ok df s os : forall (acc : dict F) ref d ref', NoDup (map fst acc ++ map fst os) ->
    objectives A df s (acc, ref) os = Ok (d, ref') ->
    exists os' e, d = (acc ++ e)%list /\ keeps referenced os os' /\ errors_are A s df os' e.
  Proof.
    induction os as [|o os IH]; intros acc ref d ref' ND H; cbn [objectives] in H.
    - injection H as <- <-. exists [], []. rewrite app_nil_r. repeat split; constructor.
    - apply bind_ok in H as ((acc1 & ref1) & H1 & H). unfold one_objective in H1. pose proof (given_spec o) as G.
      apply bind_ok in H1 as ([] & L & H1). apply bind_ok in H1 as (sg & Sg & H1). cbn [fst snd] in H1.
      destruct (match snd o with r :: _ => given r | [] => None end) as [r|].
      + apply bind_ok in H1 as (col & Col & H1). apply bind_ok in H1 as (x & X1 & H1). injection H1 as <- <-.
        unfold assertR in L. destruct (Nat.leb_spec (length (snd o)) 1); [|discriminate]. specialize (G H0).
        rewrite dset_fresh in H by (intros C; cbn [map fst] in ND; apply NoDup_remove_2 in ND; apply ND; apply in_or_app; now left).
        apply IH in H; [|rewrite map_app, <- app_assoc; exact ND]. destruct H as (os' & e & -> & K & E).
        exists (o :: os'), ((fst o, x) :: e). split; [now rewrite <- app_assoc|]. split; [apply keeps_in; [now exists (fst o), r|exact K]|].
        constructor; [|exact E]. exists r. cbn [fst snd]. split; [exact G|]. destruct sg as [|l]; [discriminate|]. exists l, col. auto.
      + destruct ref as [rf|]; [|discriminate]. injection H1 as <- <-. apply IH in H; [|cbn [map fst] in ND; now apply NoDup_remove_1 in ND].
        destruct H as (os' & e & -> & K & E). exists os', e. repeat split; auto. now apply keeps_out.
  Qed.
  Lemma objectives_all df s os e : errors_are A s df os e -> forall (acc : dict F) ref, NoDup (map fst acc ++ map fst os) ->
    exists ref', objectives A df s (acc, ref) os = Ok ((acc ++ e)%list, ref').
  Proof.
    induction 1 as [|o [p x] os e (r & Cm & (l & col & Sg & Col & X1)) H IH]; intros acc ref ND; cbn [objectives].
    - exists ref. now rewrite app_nil_r.
    - cbn [fst snd] in *. destruct Cm as (-> & Nr). unfold one_objective. cbn [fst snd length Nat.leb assertR bindR given].
      rewrite Sg. cbn [bindR]. destruct (String.eqb_spec r ""); [contradiction|]. rewrite Col. cbn [bindR signal_error]. rewrite X1. cbn [bindR].
      cbn [map fst] in ND. rewrite dset_fresh by (intros C; apply NoDup_remove_2 in ND; apply ND; apply in_or_app; now left).
      edestruct (IH (acc ++ [(p, x)])%list (Some col)) as (ref' & E); [rewrite map_app, <- app_assoc; exact ND|].
      exists ref'. rewrite E, <- app_assoc. reflexivity.
  Qed.
  Lemma trips_ok os l : NoDup (map fst os) -> forall (acc : dict (dict F)) ref e, NoDup (map fst acc ++ map (fun t => fst (fst t)) l) ->
    trips A os (map (fun t => (fst t, snd (snd t))) l) acc ref = Ok e ->
    exists e', e = (acc ++ e')%list /\ Forall2 (fun t e => exists os', keeps referenced os os' /\ trip_is A os' t e) l e'.
  Proof.
    intros NO. induction l as [|[[k df] [k' s]] l IH]; intros acc ref e ND H; cbn [trips map fst snd] in H.
    - injection H as <-. exists []. rewrite app_nil_r. split; [reflexivity|constructor].
    - apply bind_ok in H as (s' & Hs & H). apply bind_ok in H as ((d & ref') & Ho & H). apply objectives_ok in Ho; [|exact NO].
      destruct Ho as (os' & e1 & -> & K & E1). cbn [app fst snd] in H. cbn [map fst] in ND.
      rewrite dset_fresh in H by (intros C; apply NoDup_remove_2 in ND; apply ND; apply in_or_app; now left).
      apply IH in H; [|rewrite map_app, <- app_assoc; exact ND]. destruct H as (e' & -> & H). exists ((k, e1) :: e'). split; [now rewrite <- app_assoc|].
      constructor; [|exact H]. exists os'. split; [exact K|]. split; [reflexivity|]. exists s'. auto.
  Qed.
  Lemma trips_all os l e : NoDup (map fst os) -> Forall2 (trip_is A os) l e -> forall (acc : dict (dict F)) ref,
    NoDup (map fst acc ++ map (fun t => fst (fst t)) l) ->
    trips A os (map (fun t => (fst t, snd (snd t))) l) acc ref = Ok (acc ++ e)%list.
  Proof.
    intros NO. induction 1 as [|[[k df] [k' s]] [k2 e1] l e (K & s' & Hs & E) H IH]; intros acc ref ND; cbn [trips map fst snd].
    - now rewrite app_nil_r.
    - cbn [fst snd] in *. subst k2. rewrite Hs. cbn [bindR]. destruct (objectives_all _ _ _ _ E [] ref NO) as (ref' & Eo). unfold dict in Eo |- *. rewrite Eo. cbn [bindR fst snd app].
      rewrite dset_fresh by (intros C; apply NoDup_remove_2 in ND; apply ND; apply in_or_app; now left).
      rewrite IH by (rewrite map_app, <- app_assoc; exact ND). now rewrite <- app_assoc.
  Qed.
  Lemma combine_map_r {B C E} (f : C -> E) (l : list B) (m : list C) : combine l (map f m) = map (fun t => (fst t, f (snd t))) (combine l m).
  Proof. revert m. induction l as [|x l IH]; intros [|y m]; cbn; [reflexivity..|]. now rewrite IH. Qed.
  Lemma combine_keys {B C E} (f : B -> E) (l : list B) (m : list C) : map (fun t => f (fst t)) (combine l m) = firstn (length m) (map f l).
  Proof. revert m. induction l as [|x l IH]; intros [|y m]; cbn; [reflexivity..|]. now rewrite IH. Qed.
  Lemma firstn_nodup {B} (l : list B) n : NoDup l -> NoDup (firstn n l).
  Proof.
    intros H. revert n. induction H as [|x l Hx H IH]; intros [|n]; cbn; constructor; auto. intros C. apply Hx.
    rewrite <- (firstn_skipn n l). apply in_or_app. now left.
  Qed.
  Lemma keys_nodup (dfs : dict D) (sims : dict S) : NoDup (map fst dfs) -> NoDup (map (fun t => fst (fst t)) (combine dfs sims)).
  Proof. intros H. rewrite (combine_keys (fun d : string * D => fst d)). now apply firstn_nodup. Qed.

  Lemma keeps_all {B} (P : B -> Prop) l l' : (forall x, In x l -> P x) -> keeps P l l' -> l' = l.
  Proof.
    intros H K. induction K; [reflexivity| |].
    - f_equal. apply IHK. intros; apply H; now right.
    - exfalso. apply H0. apply H. now left.
  Qed.
  Lemma errors_paths s df os (e : list (string * F)) : errors_are A s df os e -> map fst e = map fst os.
  Proof. induction 1 as [|o [p x] os e (r & (-> & _) & _) H IH]; cbn; [reflexivity|]. now rewrite IH. Qed.

  (** ** Counting *)
  Lemma keeps_length {B} (P : B -> Prop) l l' : keeps P l l' -> (length l' <= length l)%nat.
  Proof. induction 1; cbn; lia. Qed.
  Lemma keeps_strict {B} (P : B -> Prop) l l' x : keeps P l l' -> In x l -> ~ P x -> (length l' < length l)%nat.
  Proof.
    induction 1 as [|y l l' Py K IH|y l l' Py K IH]; cbn [In length]; [tauto| |].
    - intros [->|I] Q; [contradiction|]. specialize (IH I Q). lia.
    - intros _ _. apply keeps_length in K. lia.
  Qed.

  (** ** Parameters *)
  Lemma zip_fold (ps : list string) (xs : list X) : last_values ps xs (dict_zip ps xs).
  Proof.
    unfold dict_zip. assert (G : forall l : list (string * X), let d := fold_left (fun d kv => dset d (fst kv) (snd kv)) l [] in
      NoDup (map fst d) /\ forall p x, In (p, x) d <-> exists i, nth_error l i = Some (p, x) /\ forall j y, (i < j)%nat -> nth_error l j <> Some (p, y)).
    { intros l. induction l as [|[q y] l IH] using rev_ind; cbn [fold_left].
      - split; [constructor|]. intros p x. split; [intros []|]. intros ([|i] & E & _); discriminate.
      - rewrite fold_left_app. cbn [fold_left fst snd]. destruct IH as (ND & IH). set (d := fold_left (fun d kv => dset d (fst kv) (snd kv)) l []) in *.
        split; [now apply dset_nodup|]. intros p x. rewrite (dset_in _ _ _ _ _ ND), IH. split.
        + intros [(-> & ->)|(Q & i & Hi & L)].
          * exists (length l). split; [rewrite nth_error_app2 by lia; now rewrite Nat.sub_diag|]. intros j z Hj. replace (nth_error _ j) with (@None (string * X)); [discriminate|].
            symmetry. apply nth_error_None. rewrite app_length. cbn. lia.
          * assert (i < length l)%nat by (apply nth_error_Some; congruence). exists i. split; [now rewrite nth_error_app1|].
            intros j z Hj. destruct (Nat.lt_ge_cases j (length l)); [rewrite nth_error_app1 by assumption; now apply L|].
            rewrite nth_error_app2 by assumption. destruct (j - length l)%nat as [|k]; cbn; [congruence|]. destruct k; discriminate.
        + intros (i & Hi & L). assert (i < length (l ++ [(q, y)]))%nat by (apply nth_error_Some; congruence). rewrite app_length in H. cbn in H.
          destruct (Nat.eq_dec i (length l)) as [->|Q].
          * rewrite nth_error_app2, Nat.sub_diag in Hi by lia. cbn in Hi. injection Hi as -> ->. now left.
          * right. split.
            -- intros ->. apply (L (length l) y); [lia|]. rewrite nth_error_app2, Nat.sub_diag by lia. reflexivity.
            -- exists i. rewrite nth_error_app1 in Hi by lia. split; [exact Hi|]. intros j z Hj C. apply (L j z Hj). rewrite nth_error_app1; [exact C|]. apply nth_error_Some. congruence. }
    assert (C : forall i p x, nth_error (combine ps xs) i = Some (p, x) <-> nth_error ps i = Some p /\ nth_error xs i = Some x).
    { revert xs. induction ps as [|p0 ps IH]; intros [|x0 xs] [|i] p x; cbn; try (split; [discriminate|intros (H1 & H2); discriminate]).
      - split; [intros E; injection E as -> ->; auto|intros (H1 & H2); congruence]. - apply IH. }
    destruct (G (combine ps xs)) as (ND & H). split; [exact ND|]. intros p x. rewrite H. split.
    - intros (i & Hi & L). apply C in Hi as (H1 & H2). exists i. repeat split; auto. intros j (Hj & Hl) E.
      destruct (nth_error xs j) as [y|] eqn:Y; [|apply nth_error_None in Y; lia]. apply (L j y Hj). now apply C.
    - intros (i & H1 & H2 & L). exists i. split; [now apply C|]. intros j y Hj E. apply C in E as (E1 & E2). apply (L j); [|exact E1].
      split; [exact Hj|]. apply nth_error_Some. congruence.
  Qed.
  Lemma zip_distinct (ps : list string) (xs : list X) : NoDup ps -> dict_zip ps xs = combine ps xs.
  Proof.
    intros H. unfold dict_zip. assert (G : forall l (d : dict X), NoDup (map fst d ++ map fst l) -> fold_left (fun d kv => dset d (fst kv) (snd kv)) l d = (d ++ l)%list).
    { induction l as [|[p x] l IH]; intros d ND; cbn [fold_left fst snd map] in *; [now rewrite app_nil_r|].
      rewrite dset_fresh by (intros C; apply NoDup_remove_2 in ND; apply ND; apply in_or_app; now left).
      rewrite IH by (rewrite map_app, <- app_assoc; exact ND). now rewrite <- app_assoc. }
    apply (G (combine ps xs) []). cbn [map app]. pose proof (combine_keys (fun p : string => p) ps xs) as E. rewrite map_id in E.
    replace (map fst (combine ps xs)) with (firstn (length xs) ps) by (rewrite <- E; reflexivity). now apply firstn_nodup.
  Qed.
  Lemma mapR_F2 {B C} (f : B -> Res C) l r : mapR f l = Ok r <-> Forall2 (fun a b => f a = Ok b) l r.
  Proof.
    revert r. induction l as [|a l IH]; intros r; cbn [mapR].
    - split; [intros E; injection E as <-; constructor|inversion 1; reflexivity].
    - split.
      + intros E. apply bind_ok in E as (b & E1 & E). apply bind_ok in E as (bs & E2 & E). injection E as <-. constructor; [exact E1|now apply IH].
      + inversion 1; subst. rewrite H2. cbn [bindR]. apply IH in H4. now rewrite H4.
  Qed.
  Lemma update_ok (m : model_objectives D J) xs sims : update_params A m xs = Ok sims <->
    length xs = length (mo_params m) /\ Forall2 (fun kj ks => fst ks = fst kj /\ model_with A (snd kj) (dict_zip (mo_params m) xs) (snd ks)) (mo_models m) sims.
  Proof.
    unfold update_params. set (d := dict_zip _ _). split.
    - intros H. apply bind_ok in H as ([] & L & H). apply bind_ok in H as (s0 & H1 & H2). unfold assertR in L.
      destruct (Nat.eqb_spec (length xs) (length (mo_params m))) as [El|]; [|discriminate]. split; [exact El|].
      apply mapR_F2 in H1. apply mapR_F2 in H2. clear L. revert sims H2. induction H1 as [|[k j] [k1 s1] l l1 E1 H1 IH]; intros sims H2; inversion H2 as [|? [k2 s2] ? ? E2 H3]; subst; constructor; auto.
      cbn [fst snd] in *. apply bind_ok in E1 as (t & P1 & E1). injection E1 as <- <-. apply bind_ok in E2 as (t1 & P2 & E2). apply bind_ok in E2 as (t2 & P3 & E2). injection E2 as <- <-.
      split; [reflexivity|]. exists t, t1. auto.
    - intros (El & H). rewrite El, Nat.eqb_refl. cbn [assertR bindR].
      assert (G : exists s0, mapR (fun kj => do s <- parse A (snd kj); Ok (fst kj, s)) (mo_models m) = Ok s0 /\
        mapR (fun ks => do s <- assign A (snd ks) d; do s' <- derive A s; Ok (fst ks, s')) s0 = Ok sims).
      { induction H as [|[k j] [k2 s2] l l2 (E & t & t1 & P1 & P2 & P3) H IH]; [exists []; auto|]. cbn [fst snd] in *. subst k2. destruct IH as (s0 & I1 & I2).
        exists ((k, t) :: s0). cbn [mapR fst snd]. rewrite P1. cbn [bindR]. rewrite I1. cbn [bindR mapR fst snd]. rewrite P2. cbn [bindR]. rewrite P3. cbn [bindR]. rewrite I2. auto. }
      destruct G as (s0 & G1 & G2). rewrite G1. exact G2.
  Qed.

  (** ** Results *)
  Lemma aligned os (dfs : dict D) : forall l (e : dict (dict F)), Forall2 (fun t e => fst e = fst t /\ map fst (snd e) = map fst os) (map fst l) e -> dfs = map (@fst _ (string * S)) l ->
    combine (List.concat (map (fun kd => map (fun o : objective => (fst kd, fst o)) os) dfs)) (List.concat (map (fun t => map snd (snd t)) e)) =
    List.concat (map (fun t => map (fun px => ((fst t, fst px), snd px)) (snd t)) e) /\
    length (List.concat (map (fun t => map snd (snd t)) e)) = length (List.concat (map (fun kd => map (fun o : objective => (fst kd, fst o)) os) dfs)).
  Proof.
    intros l e H ->. remember (map fst l) as dl. clear Heqdl l. induction H as [|[k df] [k2 e1] l e (E & P) H IH]; [split; reflexivity|].
    cbn [map List.concat fst snd] in *. subst k2. destruct IH as (I1 & I2).
    assert (Ca : forall (a1 b1 : list (string * string)) (a2 b2 : list F), length a1 = length a2 -> combine (a1 ++ b1) (a2 ++ b2) = (combine a1 a2 ++ combine b1 b2)%list).
    { induction a1 as [|x a1 IHa]; intros b1 [|y a2] b2 L; cbn in *; try discriminate; [reflexivity|]. rewrite IHa by lia. reflexivity. }
    assert (Le : length os = length e1) by (rewrite <- (map_length fst os), <- P; apply map_length).
    rewrite Ca by (rewrite !map_length; exact Le). split; [|rewrite !app_length, I2, (map_length snd e1), map_length; f_equal; symmetry; exact Le].
    rewrite I1. f_equal. replace (map (fun o : objective => (k, fst o)) os) with (map (fun p => (k, p)) (map fst os)) by apply map_map. rewrite <- P, map_map.
    clear. induction e1 as [|[p x] e1 IH]; cbn; [reflexivity|]. now rewrite IH.
  Qed.
End CalProofs.
