(** Proofs about the pre-processing of vehicle data: names of files. *)
From Coq Require Import Ascii Permutation.
From Verif Require Import Num FrameProofs VehDictModel PrepModel PrepSpec PrepProofs.
Local Open Scope string_scope.
Local Open Scope Z_scope.

Lemma digit_spec c n : digit c = Some n <-> In (c, n) digits.
Proof.
  split.
  - destruct c as [[] [] [] [] [] [] [] []]; cbv; intros H; try discriminate; assert (E : n = n) by reflexivity; injection H as <-; tauto.
  - unfold digits. cbn [In]. intros H. repeat (destruct H as [H|H]; [injection H as <- <-; reflexivity|]). destruct H.
Qed.
Lemma digit_none c : digit c = None <-> ~ In c (map fst digits).
Proof.
  split.
  - intros H C. apply in_map_iff in C as ((d & n) & E & I). cbn in E. subst d. apply digit_spec in I. congruence.
  - intros H. destruct (digit c) as [n|] eqn:E; [|reflexivity]. exfalso. apply H. apply digit_spec in E. now apply (in_map fst) in E.
Qed.
Lemma digit_range c n : In (c, n) digits -> 0 <= n <= 9.
Proof. unfold digits. cbn [In]. intros H. repeat (destruct H as [H|H]; [injection H as <- <-; lia|]). destruct H. Qed.
Lemma two_digits_range s n : two_digits s n -> 0 <= n <= 99.
Proof. intros (a & b & c & r & x & y & _ & H1 & H2 & _ & ->). apply digit_range in H1. apply digit_range in H2. lia. Qed.
Lemma epa_year_spec s y : epa_year s = Some y <-> 1971 <= y <= 2070 /\ two_digits s (y mod 100).
Proof.
  split.
  - destruct s as [|a [|b [|c r]]]; cbn [epa_year]; try discriminate.
    destruct (digit a) as [x|] eqn:A; [|discriminate]. destruct (digit b) as [z|] eqn:B; [|discriminate]. destruct (digit c) eqn:C; [discriminate|].
    apply digit_spec in A. apply digit_spec in B. apply digit_none in C. pose proof (digit_range _ _ A). pose proof (digit_range _ _ B).
    intros E. assert (Y : y = if 70 <? 10 * x + z then 10 * x + z + 1900 else 10 * x + z + 2000) by congruence.
    assert (M : y mod 100 = 10 * x + z).
    { subst y. destruct (70 <? 10 * x + z); [replace (10 * x + z + 1900) with (10 * x + z + 19 * 100) by lia|replace (10 * x + z + 2000) with (10 * x + z + 20 * 100) by lia];
      rewrite Z.mod_add by lia; apply Z.mod_small; lia. }
    split; [|exists a, b, c, r, x, z; repeat split; auto]. subst y. destruct (Z.ltb_spec 70 (10 * x + z)); lia.
  - intros (Rg & (a & b & c & r & x & z & -> & A & B & C & E)). cbn [epa_year]. pose proof (digit_range _ _ A). pose proof (digit_range _ _ B).
    apply digit_spec in A. apply digit_spec in B. apply digit_none in C. rewrite A, B, C. f_equal.
    pose proof (Z.div_mod y 100 ltac:(lia)) as DM. assert (19 <= y / 100 <= 20).
    { split; [apply Z.div_le_lower_bound; lia|apply Z.lt_succ_r, Z.div_lt_upper_bound; lia]. }
    destruct (Z.ltb_spec 70 (10 * x + z)); lia.
Qed.

(** The last file with a given result wins. *)
Lemma epa_last {C} (of_xlsx : C -> C) (files : list (string * string * C)) :
  NoDup (map fst (process_epa of_xlsx files)) /\
  forall y c, zget (process_epa of_xlsx files) y = Some c <->
   exists pre stem suffix c0 post, files = (pre ++ (stem, suffix, c0) :: post)%list /\ epa_year stem = Some y /\
     ((suffix = ".csv"%string /\ c = c0) \/ (suffix = ".xlsx"%string /\ c = of_xlsx c0)) /\
     forall st su d, In (st, su, d) post -> epa_year st = Some y -> su <> ".csv"%string /\ su <> ".xlsx"%string.
Proof.
  unfold process_epa. induction files as [|f fs IH] using rev_ind; cbn [fold_left map].
  - split; [constructor|]. intros y c. cbn. split; [discriminate|]. intros ([|] & ? & ? & ? & ? & E & _); discriminate.
  - rewrite fold_left_app. cbn [fold_left]. destruct IH as (ND & IH). set (d := fold_left (epa_file of_xlsx) fs []) in *. destruct f as [[st su] c1]. cbn [epa_file].
    assert (Snoc : forall y c, (exists pre stem suffix c0 post, (fs ++ [(st, su, c1)] = pre ++ (stem, suffix, c0) :: post)%list /\ epa_year stem = Some y /\
        ((suffix = ".csv"%string /\ c = c0) \/ (suffix = ".xlsx"%string /\ c = of_xlsx c0)) /\
        forall s2 u2 d2, In (s2, u2, d2) post -> epa_year s2 = Some y -> u2 <> ".csv"%string /\ u2 <> ".xlsx"%string) <->
        (epa_year st = Some y /\ ((su = ".csv"%string /\ c = c1) \/ (su = ".xlsx"%string /\ c = of_xlsx c1))) \/
        ((epa_year st = Some y -> su <> ".csv"%string /\ su <> ".xlsx"%string) /\ zget d y = Some c)).
    { intros y c. rewrite IH. split.
      - intros (pre & stem & suffix & c0 & post & E & Y & W & L). destruct (@exists_last _ ((stem, suffix, c0) :: post) ltac:(discriminate)) as (p2 & z & Ez).
        rewrite Ez, app_assoc in E. apply app_inj_tail in E as (E & Z). subst z. destruct p2 as [|q p2].
        + cbn in Ez. inversion Ez; subst. left. auto.
        + cbn in Ez. inversion Ez; subst. right. split.
          * intros Q. apply (L st su c1); [apply in_or_app; cbn; auto|exact Q].
          * exists pre, stem, suffix, c0, p2. repeat split; auto; eapply L; eauto; apply in_or_app; eauto.
      - intros [(Y & W)|(Q & pre & stem & suffix & c0 & post & E & Y & W & L)].
        + exists fs, st, su, c1, []. split; [reflexivity|]. split; [exact Y|]. split; [exact W|]. intros ? ? ? [].
        + exists pre, stem, suffix, c0, (post ++ [(st, su, c1)])%list. split; [rewrite E, <- app_assoc; reflexivity|]. split; [exact Y|]. split; [exact W|].
          intros s2 u2 d2 I Y2. apply in_app_or in I as [I|[I|[]]]; [now apply (L s2 u2 d2)|]. injection I as <- <- <-. now apply Q. }
    assert (Stay : (forall y, epa_year st = Some y -> su <> ".csv"%string /\ su <> ".xlsx"%string) ->
      NoDup (map fst d) /\ forall y c, zget d y = Some c <-> (epa_year st = Some y /\ ((su = ".csv"%string /\ c = c1) \/ (su = ".xlsx"%string /\ c = of_xlsx c1))) \/
        ((epa_year st = Some y -> su <> ".csv"%string /\ su <> ".xlsx"%string) /\ zget d y = Some c)).
    { intros Q. split; [exact ND|]. intros y c. split; [intros E; right; split; [apply Q|exact E]|]. intros [(Y & W)|(_ & E)]; [|exact E].
      exfalso. destruct (Q _ Y). destruct W as [(W & _)|(W & _)]; contradiction. }
    assert (Put : forall y x, epa_year st = Some y -> (su = ".csv"%string /\ x = c1) \/ (su = ".xlsx"%string /\ x = of_xlsx c1) ->
      NoDup (map fst (zset d y x)) /\ forall z c, zget (zset d y x) z = Some c <-> (epa_year st = Some z /\ ((su = ".csv"%string /\ c = c1) \/ (su = ".xlsx"%string /\ c = of_xlsx c1))) \/
        ((epa_year st = Some z -> su <> ".csv"%string /\ su <> ".xlsx"%string) /\ zget d z = Some c)).
    { intros y x Y W. split; [now apply zset_nodup|]. intros z c. rewrite zget_zset. destruct (Z.eqb_spec y z) as [->|Q].
      - split.
        + intros E. left. split; [exact Y|]. assert (c = x) by congruence. subst c. exact W.
        + intros [(_ & W2)|(Q & _)].
          * f_equal. destruct W as [(W & ->)|(W & ->)], W2 as [(W2 & ->)|(W2 & ->)]; try reflexivity; congruence.
          * exfalso. destruct (Q Y). destruct W as [(W & _)|(W & _)]; contradiction.
      - split.
        + intros E. right. split; [congruence|exact E].
        + intros [(Y2 & _)|(_ & E)]; [congruence|exact E]. }
    destruct (epa_year st) as [y|] eqn:Y.
    + destruct (String.eqb_spec su ".csv") as [->|N1]; [|destruct (String.eqb_spec su ".xlsx") as [->|N2]].
      * destruct (Put y c1 eq_refl ltac:(auto)) as (P1 & P2). split; [exact P1|]. intros z c. rewrite P2. symmetry. apply Snoc.
      * destruct (Put y (of_xlsx c1) eq_refl ltac:(auto)) as (P1 & P2). split; [exact P1|]. intros z c. rewrite P2. symmetry. apply Snoc.
      * destruct Stay as (P1 & P2); [auto|]. split; [exact P1|]. intros z c. rewrite P2. symmetry. apply Snoc.
    + destruct Stay as (P1 & P2); [discriminate|]. split; [exact P1|]. intros z c. rewrite P2. symmetry. apply Snoc.
Qed.

(** Names of archived files. *)
Lemma prefix_spec p s : String.prefix p s = true <-> exists q, s = (p ++ q)%string.
Proof.
  revert s. induction p as [|a p IH]; intros s; cbn [String.append].
  - split; [eauto|intros _; destruct s; reflexivity].
  - destruct s as [|b s]; [split; [discriminate|intros (q & E); discriminate]|]. cbn [String.prefix]. destruct (ascii_dec a b) as [->|Q].
    + rewrite IH. split; intros (q & E); exists q; [now rewrite E|congruence].
    + split; [discriminate|]. intros (q & E). congruence.
Qed.
Lemma has_sub_spec p s : has_sub p s = true <-> exists l r, s = (l ++ p ++ r)%string.
Proof.
  induction s as [|c s IH]; cbn [has_sub]; rewrite orb_true_iff, prefix_spec.
  - split; [intros [(q & ->)|]; [now exists "", q|discriminate]|]. intros (l & r & E). left. destruct l; [eauto|discriminate].
  - rewrite IH. split.
    + intros [(q & E)|(l & r & ->)]; [exists "", q; exact E|exists (String c l), r; reflexivity].
    + intros ([|a l] & r & E); [left; eauto|right; exists l, r; cbn in E; congruence].
Qed.
Lemma zip_year_spec s y : zip_year s = Some y <-> year_csv s y.
Proof.
  split.
  - destruct s as [|a [|b [|c [|d [|e r]]]]]; cbn [zip_year]; try discriminate. destruct (Ascii.eqb_spec e "-") as [->|]; [|discriminate]. cbn [andb].
    destruct (has_sub ".csv" r) eqn:H; [|discriminate]. apply has_sub_spec in H as (p & q & ->). cbn [leading_year].
    destruct (digit a) eqn:A; [|discriminate]. destruct (digit b) eqn:B; [|discriminate]. destruct (digit c) eqn:C; [|discriminate]. destruct (digit d) eqn:D; [|discriminate].
    intros E. apply digit_spec in A, B, C, D. exists a, b, c, d, z, z0, z1, z2, p, q. repeat split; auto. congruence.
  - intros (a & b & c & d & x & y' & z & w & p & q & -> & A & B & C & D & ->). cbn [zip_year]. rewrite (proj2 (has_sub_spec ".csv" _)) by eauto.
    apply digit_spec in A, B, C, D. cbn [Ascii.eqb Bool.eqb andb leading_year]. rewrite A, B, C, D. reflexivity.
Qed.
Lemma zip_fold names : forall done d, dense d -> (forall y, keeps (fun n => year_csv n y) done (zlist d y)) ->
  let d' := fold_left (fun d n => match zip_year n with Some y => zappend d y n | None => d end) names d in
  dense d' /\ forall y, keeps (fun n => year_csv n y) (done ++ names) (zlist d' y).
Proof.
  induction names as [|n names IH]; intros done d D K; cbn [fold_left].
  - rewrite app_nil_r. auto.
  - change (n :: names) with ([n] ++ names)%list. rewrite app_assoc. apply IH.
    + destruct (zip_year n); [now apply dense_append|exact D].
    + intros y. destruct (zip_year n) as [z|] eqn:E.
      * rewrite zlist_append. destruct (Z.eqb_spec z y) as [->|Q].
        -- apply keeps_app; [apply K|]. apply keeps_in; [now apply zip_year_spec|constructor].
        -- rewrite <- (app_nil_r (zlist d y)). apply keeps_app; [apply K|]. apply keeps_out; [|constructor]. intros C. apply zip_year_spec in C. congruence.
      * rewrite <- (app_nil_r (zlist d y)). apply keeps_app; [apply K|]. apply keeps_out; [|constructor]. intros C. apply zip_year_spec in C. congruence.
Qed.
