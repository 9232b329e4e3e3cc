(** Lemmas about the model of the import of vehicles. *)
From Coq Require Import Ascii Lia.
From Verif Require Import Num Numpy ListFacts CycleModel VehModel SimModel SimState UtilModel PrepModel RustVehModel RustUtilModel RustImportModel.
Local Open Scope R_scope.

(** *** The search for the best *)
(** Marks compared: the name first, then the score. *)
Definition ahead (a b : R * R) : Prop := fst b < fst a \/ (fst a = fst b /\ snd b < snd a).
Lemma ahead_trans a b c : ahead a b -> ahead b c -> ahead a c.
Proof. destruct a as [a a'], b as [b b'], c as [c c']. unfold ahead. cbn. intros [H|[H1 H2]] [K|[K1 K2]]; subst; [left; lra|left; lra|left; lra|right; split; [reflexivity|lra]]. Qed.
Lemma ahead_not a b c : ahead a b -> ~ ahead c b -> ahead a c.
Proof. destruct a as [a a'], b as [b b'], c as [c c']. unfold ahead. cbn. intros H K. destruct (Rlt_le_dec c a); [left; lra|]. right. destruct H as [H|[H1 H2]]; [exfalso; apply K; left; lra|subst].
  assert (c = b) by (destruct (Rlt_le_dec b c); [exfalso; apply K; left; lra|lra]). subst. split; [reflexivity|]. destruct (Rlt_le_dec b' c'); [exfalso; apply K; right; split; [reflexivity|lra]|lra]. Qed.
Lemma best_ok (l : list (R * R * epa_data R)) : forall id sc b i x, best l id sc b = (i, x) ->
  (i = id /\ x = b /\ forall y, In y l -> ~ ahead (fst y) (id, sc)) \/
  (exists pre s post, l = pre ++ (i, s, x) :: post /\ ahead (i, s) (id, sc) /\ (forall y, In y pre -> ahead (i, s) (fst y)) /\ (forall y, In y post -> ~ ahead (fst y) (i, s))).
Proof.
  induction l as [|[[j t] z] l IH]; intros id sc b i x E; cbn [best] in E.
  - left. injection E as <- <-. split; [reflexivity|]. split; [reflexivity|]. intros y [].
  - unR. destruct (Rltb id j || (Reqb j id && Rltb sc t))%bool eqn:C.
    + assert (A : ahead (j, t) (id, sc)).
      { apply Bool.orb_true_iff in C. destruct C as [C|C]; [left; cbn; destruct (Rltb_spec id j); [lra|discriminate]|].
        apply Bool.andb_true_iff in C. destruct C as [C1 C2]. right. cbn. destruct (Reqb_spec j id); [|discriminate]. destruct (Rltb_spec sc t); [|discriminate]. split; lra. }
      right. apply IH in E. destruct E as [(-> & -> & Q)|(pre & s & post & -> & P1 & P2 & P3)].
      * exists [], t, l. split; [reflexivity|]. split; [exact A|]. split; [intros y []|exact Q].
      * exists ((j, t, z) :: pre), s, post. split; [reflexivity|]. split; [eapply ahead_trans; eassumption|]. split; [|exact P3].
        intros y [<-|Y]; [exact P1|auto].
    + assert (A : ~ ahead (j, t) (id, sc)).
      { apply Bool.orb_false_iff in C. destruct C as [C1 C2]. unfold ahead. cbn. intros [H|[H1 H2]].
        - destruct (Rltb_spec id j); [discriminate|lra].
        - destruct (Reqb_spec j id); [|lra]. destruct (Rltb_spec sc t); [discriminate|lra]. }
      apply IH in E. destruct E as [(-> & -> & Q)|(pre & s & post & -> & P1 & P2 & P3)].
      * left. split; [reflexivity|]. split; [reflexivity|]. intros y [<-|Y]; [exact A|auto].
      * right. exists ((j, t, z) :: pre), s, post. split; [reflexivity|]. split; [exact P1|]. split; [|exact P3].
        intros y [<-|Y]; [eapply ahead_not; eassumption|auto].
Qed.
Lemma flat_split {A B} (f : A -> list B) (l : list A) : (forall a, f a = [] \/ exists b, f a = [b]) -> forall pre z post, flat_map f l = pre ++ z :: post ->
  exists l1 a l2, l = l1 ++ a :: l2 /\ f a = [z] /\ flat_map f l1 = pre /\ flat_map f l2 = post.
Proof.
  intros H. induction l as [|a l IH]; intros pre z post E; cbn in E. { destruct pre; discriminate. }
  destruct (H a) as [Q|[b Q]]; rewrite Q in E; cbn in E.
  - destruct (IH _ _ _ E) as (l1 & a' & l2 & -> & P1 & P2 & P3). exists (a :: l1), a', l2. cbn. rewrite Q. repeat split; assumption.
  - destruct pre as [|p pre]; cbn in E; injection E as E1 E2.
    + subst b. exists [], a, l. repeat split; assumption.
    + subst p. destruct (IH _ _ _ E2) as (l1 & a' & l2 & -> & P1 & P2 & P3). exists (a :: l1), a', l2. cbn. rewrite Q, P2. repeat split; assumption.
Qed.

(** *** The marks *)
Lemma word_match_pos (a b : string) : 0 <= word_match a b.
Proof.
  unfold word_match. unR. match goal with |- 0 <= ?x * ?x / (?y * ?z) => set (c := x); set (d := y); set (e := z) end.
  assert (0 <= d) by (unfold d; apply IZR_le; lia). assert (0 <= e) by (unfold e; apply IZR_le; lia).
  assert (DE : 0 <= d * e) by (apply Rmult_le_pos; assumption). clearbody c d e. destruct DE as [Q|Q].
  - apply Rmult_le_pos; [nra|left; now apply Rinv_0_lt_compat].
  - rewrite <- Q. unfold Rdiv. rewrite Rinv_0. lra.
Qed.
Lemma name_match_pos (fe : fe_data R) x : 0 <= name_match fe x.
Proof. unfold name_match. destruct (_ || _)%bool; [unR; lra|apply word_match_pos]. Qed.
Definition fits (fe : fe_data R) (x : epa_data R) : bool :=
  (Z.eqb (epa_year x) (fe_year fe) && same_text (epa_make x) (fe_make fe) && negb (has_sub "Cold CO" (epa_fuel x)) && negb (Reqb (name_match fe x) 0))%bool.
Lemma cand_eq fe g t x : (if (Z.eqb (epa_year x) (fe_year fe) && same_text (epa_make x) (fe_make fe))%bool then
        if has_sub "Cold CO" (epa_fuel x) then [] else if Reqb (name_match fe x) 0 then [] else [(name_match fe x, match_score fe g t x, x)] else []) =
   if fits fe x then [(name_match fe x, match_score fe g t x, x)] else [].
Proof. unfold fits. destruct (Z.eqb _ _ && _)%bool; cbn [andb]; [|reflexivity]. destruct (has_sub _ _); [reflexivity|]. cbn [negb andb]. destruct (Reqb _ _); reflexivity. Qed.
Lemma candidates_eq fe g t tests : candidates fe g t tests = flat_map (fun x => if fits fe x then [(name_match fe x, match_score fe g t x, x)] else []) tests.
Proof. unfold candidates. unR. apply flat_map_ext. intros x. apply cand_eq. Qed.
Lemma in_cand fe g t tests x : In x tests -> fits fe x = true -> In (name_match fe x, match_score fe g t x, x) (candidates fe g t tests).
Proof. intros I E. rewrite candidates_eq. apply in_flat_map. exists x. split; [exact I|]. rewrite E. now left. Qed.
Local Opaque name_match match_score.
Lemma match_ok fe tests r : match_test fe tests = Ok r -> exists g t, transmission_specs (fe_trans fe) = Ok (g, t) /\
  match r with
  | None => forall x, In x tests -> fits fe x = false
  | Some x => exists pre post, tests = pre ++ x :: post /\ fits fe x = true /\
      (forall y, In y pre -> fits fe y = true -> ahead (name_match fe x, match_score fe g t x) (name_match fe y, match_score fe g t y)) /\
      (forall y, In y post -> fits fe y = true -> ~ ahead (name_match fe y, match_score fe g t y) (name_match fe x, match_score fe g t x))
  end.
Proof.
  unfold match_test. destruct (transmission_specs (fe_trans fe)) as [[g t]|]; [|discriminate]. cbn [bindR fst snd]. intros E. exists g, t. split; [reflexivity|].
  destruct (candidates fe g t tests) as [|[[i0 s0] x0] l] eqn:EC.
  - injection E as <-. intros x I. destruct (fits fe x) eqn:EF; [|reflexivity]. apply (in_cand fe g t tests x I) in EF. rewrite EC in EF. destruct EF.
  - cbn zeta in E. destruct (best ((i0, s0, x0) :: l) n0 n0 x0) as [i x] eqn:EB. cbn [fst snd] in E. unR. rewrite <- EC in EB. apply best_ok in EB.
    assert (POS : 0 < i0).
    { assert (I : In (i0, s0, x0) (candidates fe g t tests)) by (rewrite EC; now left). rewrite candidates_eq in I. apply in_flat_map in I. destruct I as (y & _ & I).
      destruct (fits fe y) eqn:EF; [|destruct I]. destruct I as [I|[]]. injection I as <- _ _. unfold fits in EF. apply Bool.andb_true_iff in EF. destruct EF as [_ EF].
      destruct (Reqb_spec (name_match fe y) 0); [discriminate|]. pose proof (name_match_pos fe y). lra. }
    destruct EB as [(-> & -> & Q)|(pre & s & post & EL & P1 & P2 & P3)].
    + exfalso. apply (Q (i0, s0, x0)); [rewrite EC; now left|]. left. exact POS.
    + assert (0 < i). { destruct pre as [|p pre]; rewrite EC in EL; cbn in EL; injection EL as E1 E2; [subst; exact POS|].
        specialize (P2 p ltac:(now left)). subst p. unfold ahead in P2. cbn in P2. lra. }
      destruct (Reqb_spec i 0); [lra|]. injection E as <-. rewrite candidates_eq in EL. apply flat_split in EL.
      2: { intros a. destruct (fits fe a); [right; eexists; reflexivity|now left]. }
      destruct EL as (l1 & a & l2 & -> & F1 & F2 & F3). destruct (fits fe a) eqn:EF; [|discriminate]. injection F1 as F4 F5 F6. subst a. exists l1, l2.
      split; [reflexivity|]. split; [exact EF|]. rewrite F4, F5. split.
      * intros y I EY. apply (P2 (name_match fe y, match_score fe g t y, y)). rewrite <- F2. apply in_flat_map. exists y. split; [exact I|]. rewrite EY. now left.
      * intros y I EY. apply (P3 (name_match fe y, match_score fe g t y, y)). rewrite <- F3. apply in_flat_map. exists y. split; [exact I|]. rewrite EY. now left.
Qed.
Local Transparent name_match match_score.

(** *** Text *)
Definition lacks (c : ascii) (s : string) : Prop := forall l r, s <> (l ++ String c r)%string.
Lemma lacks_cons c d s : lacks c (String d s) -> d <> c /\ lacks c s.
Proof. intros H. split; [intros ->; exact (H ""%string s eq_refl)|]. intros l r ->. exact (H (String d l) r eq_refl). Qed.
Lemma lacks_app c a b : lacks c a -> lacks c b -> lacks c (a ++ b).
Proof.
  intros A B. induction a as [|d a IH]; [exact B|]. apply lacks_cons in A. destruct A as [D A]. specialize (IH A). intros [|e l] r E; cbn in E; injection E as -> E; [congruence|]. exact (IH l r E).
Qed.
Lemma prefix_self p r : String.prefix p (p ++ r) = true.
Proof. induction p as [|c p IH]; [now destruct r|]. cbn. destruct (ascii_dec c c); [exact IH|congruence]. Qed.
Lemma index_step p c q s d : p = String c q -> d <> c -> index 0 p (String d s) = match index 0 p s with Some n => Some (S n) | None => None end.
Proof. intros -> D. cbn [index String.prefix]. destruct (ascii_dec c d); [congruence|reflexivity]. Qed.
Lemma index_first c q pre r : lacks c pre -> index 0 (String c q) (pre ++ String c q ++ r) = Some (String.length pre).
Proof.
  induction pre as [|d pre IH]; intros L.
  - cbn [append String.length index]. change (String c (q ++ r))%string with (String c q ++ r)%string. rewrite prefix_self. reflexivity.
  - apply lacks_cons in L. destruct L as [D L]. change (index 0 (String c q) (String d (pre ++ String c q ++ r)) = Some (S (String.length pre))).
    rewrite (index_step (String c q) c q _ d eq_refl D). now rewrite (IH L).
Qed.
Lemma len_app_s a b : String.length (a ++ b) = (String.length a + String.length b)%nat.
Proof. induction a; cbn; congruence. Qed.
Lemma sub_front d r : substring 0 (String.length d) (d ++ r) = d.
Proof. induction d as [|c d IH]; cbn; [now destruct r|]. now rewrite IH. Qed.
Lemma sub_mid pre d r : substring (String.length pre) (String.length d) (pre ++ d ++ r) = d.
Proof. induction pre as [|c pre IH]; cbn; [apply sub_front|exact IH]. Qed.
Lemma slice_mid pre d r : slice (String.length pre) (String.length pre + String.length d) (pre ++ d ++ r) = Ok d.
Proof.
  unfold slice. rewrite !len_app_s. rewrite (proj2 (Nat.leb_le _ _)) by lia. rewrite (proj2 (Nat.leb_le _ _)) by lia. cbn [andb].
  replace (String.length pre + String.length d - String.length pre)%nat with (String.length d) by lia. now rewrite sub_mid.
Qed.
Lemma u32_app a b : forall acc, u32_digits acc (a ++ b) = match u32_digits acc a with Some m => u32_digits m b | None => None end.
Proof. induction a as [|c a IH]; intros acc; cbn; [reflexivity|]. destruct (is_digit c); [|reflexivity]. destruct (_ <? _)%Z; [apply IH|reflexivity]. Qed.
Lemma app_assoc_u (a b c : string) : ((a ++ b) ++ c)%string = (a ++ (b ++ c))%string. Proof. induction a; cbn; congruence. Qed.
