(** Facts about lists and the numpy helpers that are independent of FASTSim. *)
From Verif Require Import Num Numpy.

Lemma last_nth {A} (l : list A) d : last l d = nth (length l - 1) l d.
Proof.
  induction l as [|a l IH]; [reflexivity|].
  destruct l as [|b l]; [reflexivity|].
  change (last (a :: b :: l) d) with (last (b :: l) d). rewrite IH.
  cbn [length]. replace (S (S (length l)) - 1)%nat with (S (S (length l) - 1)) by lia.
  reflexivity.
Qed.
Lemma pyget_nonneg {A} (l : list A) (i : nat) (a : A) :
  nth_error l i = Some a -> pyget l (Z.of_nat i) = Ok a.
Proof.
  intros Hn. unfold pyget.
  assert (Hl : (i < length l)%nat) by (apply nth_error_Some; congruence).
  destruct (Z.ltb_spec (Z.of_nat i) 0); [lia|].
  destruct (Z.leb_spec 0 (Z.of_nat i)); [|lia].
  destruct (Z.ltb_spec (Z.of_nat i) (Z.of_nat (length l))); [|lia].
  cbn [andb]. rewrite Nat2Z.id, Hn. reflexivity.
Qed.
Lemma pyget_nth {A} (l : list A) (i : nat) (d : A) :
  (i < length l)%nat -> pyget l (Z.of_nat i) = Ok (nth i l d).
Proof. intros H. apply pyget_nonneg. now apply nth_error_nth'. Qed.
Lemma pyget_pred {A} (l : list A) (i : nat) (d : A) :
  (1 <= i)%nat -> (i <= length l)%nat -> pyget l (Z.of_nat i - 1) = Ok (nth (i - 1) l d).
Proof.
  intros H1 H2. replace (Z.of_nat i - 1)%Z with (Z.of_nat (i - 1)) by lia.
  apply pyget_nth. lia.
Qed.
Lemma pyget_0 {A} (a : A) (l : list A) : pyget (a :: l) 0 = Ok a.
Proof. exact (pyget_nonneg (a :: l) 0 a eq_refl). Qed.
Lemma pyget_last {A} (a : A) (l : list A) : pyget (a :: l) (-1) = Ok (last (a :: l) a).
Proof.
  unfold pyget.
  destruct (Z.ltb_spec (-1) 0); [|lia].
  set (n := length (a :: l)).
  assert (Hn : (0 < n)%nat) by (unfold n; cbn; lia).
  destruct (Z.leb_spec 0 (-1 + Z.of_nat n)); [|lia].
  destruct (Z.ltb_spec (-1 + Z.of_nat n) (Z.of_nat n)); [|lia].
  cbn [andb]. replace (Z.to_nat (-1 + Z.of_nat n)) with (n - 1)%nat by lia.
  rewrite (nth_error_nth' (a :: l) a) by (fold n; lia).
  f_equal. unfold n. now rewrite last_nth.
Qed.
Lemma pyget_nil {A} (z : Z) : pyget (@nil A) z = Err IndexError.
Proof.
  unfold pyget; cbn [length Z.of_nat].
  destruct (Z.ltb_spec z 0); cbn.
  - destruct (Z.leb_spec 0 (z + 0)); [lia|]. reflexivity.
  - destruct (Z.leb_spec 0 z); [|lia]. destruct (Z.ltb_spec z 0); [lia|]. reflexivity.
Qed.

Lemma last_app_ne {A} (l : list A) x r d : last (l ++ x :: r) d = last (x :: r) d.
Proof.
  induction l as [|a l IH]; [reflexivity|].
  cbn [app]. destruct (l ++ x :: r) eqn:E; [destruct l; discriminate|].
  cbn [last] in *. exact IH.
Qed.
Lemma last_snoc {A} (l : list A) x d : last (l ++ [x]) d = x.
Proof. apply last_app_ne. Qed.
Lemma last_default {A} (a : A) l d d' : last (a :: l) d = last (a :: l) d'.
Proof.
  revert a; induction l as [|b l IH]; intros a; [reflexivity|].
  change (last (b :: l) d = last (b :: l) d'). apply IH.
Qed.
Lemma last_map {A B} (f : A -> B) a l d : last (map f (a :: l)) (f d) = f (last (a :: l) d).
Proof.
  revert a; induction l as [|b l IH]; intros a; [reflexivity|].
  change (last (map f (b :: l)) (f d) = f (last (b :: l) d)). apply IH.
Qed.
Lemma last_In {A} (l : list A) d : l <> [] -> In (last l d) l.
Proof.
  induction l as [|a l IH]; [congruence|intros _].
  destruct l as [|b l]; [now left|]. right. apply IH. discriminate.
Qed.

Lemma zipw_length {A B C} (f : A -> B -> C) l1 l2 :
  length (zipw f l1 l2) = Nat.min (length l1) (length l2).
Proof. revert l2; induction l1 as [|a l1 IH]; intros [|b l2]; cbn; auto. Qed.
Lemma zipw_nth {A B C} (f : A -> B -> C) l1 l2 i da db dc :
  (i < length l1)%nat -> (i < length l2)%nat ->
  nth i (zipw f l1 l2) dc = f (nth i l1 da) (nth i l2 db).
Proof.
  revert l2 i; induction l1 as [|a l1 IH]; intros [|b l2] i; cbn; try lia.
  destruct i; [reflexivity|]. intros. apply IH; lia.
Qed.
Lemma tl_length {A} (l : list A) : length (tl l) = (length l - 1)%nat.
Proof. destruct l; cbn; lia. Qed.
Lemma nth_tl {A} (l : list A) i d : nth i (tl l) d = nth (S i) l d.
Proof. destruct l; cbn; [destruct i; reflexivity|reflexivity]. Qed.

Lemma set_nth_length {A} (l : list A) i v : length (set_nth l i v) = length l.
Proof. revert i; induction l as [|a l IH]; intros [|i]; cbn; auto. Qed.
Lemma set_nth_same {A} (l : list A) i v :
  (i < length l)%nat -> nth_error (set_nth l i v) i = Some v.
Proof. revert i; induction l as [|a l IH]; intros [|i]; cbn; try lia; auto. intros; apply IH; lia. Qed.
Lemma set_nth_other {A} (l : list A) i j v :
  i <> j -> nth_error (set_nth l i v) j = nth_error l j.
Proof.
  revert i j; induction l as [|a l IH]; intros [|i] [|j] H; cbn; auto; try congruence.
Qed.

Lemma nth_error_firstn {A} (l : list A) n i :
  (i < n)%nat -> nth_error (firstn n l) i = nth_error l i.
Proof.
  revert l i; induction n as [|n IH]; intros [|a l] [|i] H; cbn; auto; try lia.
  apply IH; lia.
Qed.
Lemma nth_firstn {A} (l : list A) n i d :
  (i < n)%nat -> nth i (firstn n l) d = nth i l d.
Proof.
  revert l i; induction n as [|n IH]; intros [|a l] [|i] H; cbn; auto; try lia.
  apply IH; lia.
Qed.
Lemma nth_skipn {A} (l : list A) n i d : nth i (skipn n l) d = nth (n + i) l d.
Proof.
  revert l; induction n as [|n IH]; intros l; [reflexivity|].
  destruct l as [|a l]; cbn; [destruct i; reflexivity|apply IH].
Qed.


(** ** argmax *)
Lemma first_true_Some l i :
  first_true l = Some i <->
  (nth_error l i = Some true /\ forall j, (j < i)%nat -> nth_error l j = Some false).
Proof.
  revert i; induction l as [|b l IH]; intros i; cbn [first_true].
  - split; [discriminate|]. intros [H _]. destruct i; discriminate.
  - destruct b; cbn [option_map].
    + split.
      * intros [= <-]. split; [reflexivity|]. intros; lia.
      * intros [H1 H2]. destruct i as [|i]; [reflexivity|].
        specialize (H2 O ltac:(lia)). discriminate.
    + destruct (first_true l) as [k|] eqn:E; cbn.
      * split.
        -- intros [= <-]. destruct (proj1 (IH k) eq_refl) as [H1 H2].
           split; [exact H1|]. intros [|j] Hj; [reflexivity|]. apply H2; lia.
        -- intros [H1 H2]. destruct i as [|i]; [discriminate|].
           f_equal. cut (Some k = Some i); [congruence|].
           apply IH. split; [exact H1|]. intros j Hj. exact (H2 (S j) ltac:(lia)).
      * split; [discriminate|]. intros [H1 H2]. destruct i as [|i]; [discriminate|].
        cut (@None nat = Some i); [discriminate|].
        apply IH. split; [exact H1|]. intros j Hj. exact (H2 (S j) ltac:(lia)).
Qed.
Lemma first_true_None l : first_true l = None <-> forall i, nth_error l i <> Some true.
Proof.
  induction l as [|b l IH]; cbn [first_true].
  - split; [|reflexivity]. intros _ [|i]; discriminate.
  - destruct b.
    + split; [discriminate|]. intros H. exfalso. exact (H O eq_refl).
    + destruct (first_true l) as [k|]; cbn.
      * split; [discriminate|]. intros H. exfalso.
        assert (Hn : Some k = None) by (apply IH; intros i; exact (H (S i))).
        discriminate.
      * split; [|reflexivity]. intros _ [|i]; [discriminate|]. apply IH. reflexivity.
Qed.

(** ** sums over the reals *)
Definition Rsum (l : list R) : R := fold_right Rplus 0%R l.
Lemma Rsum_app l1 l2 : Rsum (l1 ++ l2) = (Rsum l1 + Rsum l2)%R.
Proof. induction l1 as [|a l1 IH]; cbn [app Rsum fold_right]; [unfold Rsum; cbn; lra|]. unfold Rsum in *; cbn; rewrite IH; lra. Qed.
Lemma Rsum_cons a l : Rsum (a :: l) = (a + Rsum l)%R.
Proof. reflexivity. Qed.
Lemma nsum_Rsum l : @nsum R RNum l = Rsum l.
Proof. apply nsum_R. Qed.
Lemma cumsum_from_length {F} {N : Num F} (acc : F) l : length (cumsum_from acc l) = length l.
Proof. revert acc; induction l as [|x l IH]; intros acc; cbn; auto. Qed.
Lemma cumsum_from_nth (acc : R) l i d :
  (i < length l)%nat -> nth i (cumsum_from acc l) d = (acc + Rsum (firstn (S i) l))%R.
Proof.
  revert acc i; induction l as [|x l IH]; intros acc i; cbn [length]; [lia|].
  intros H. cbn [cumsum_from]; unR. destruct i as [|i].
  - cbn. unfold Rsum; cbn; lra.
  - cbn [nth]. rewrite IH by lia. cbn [firstn]. rewrite Rsum_cons. cbn [firstn]. lra.
Qed.
Lemma cumsum_nth (l : list R) i d :
  (i < length l)%nat -> nth i (cumsum l) d = Rsum (firstn (S i) l).
Proof. intros H. unfold cumsum. rewrite cumsum_from_nth by assumption. unR. lra. Qed.
Lemma diff_prepend_length {F} {N : Num F} (p : F) l : length (diff_prepend p l) = length l.
Proof. revert p; induction l as [|x l IH]; intros p; cbn; auto. Qed.
Lemma diff_prepend_nth (p : R) l i d :
  (i < length l)%nat ->
  nth i (diff_prepend p l) d = (nth i l 0 - match i with O => p | S j => nth j l 0 end)%R.
Proof.
  revert p i; induction l as [|x l IH]; intros p i; cbn [length]; [lia|].
  intros H. cbn [diff_prepend]; unR. destruct i as [|i]; [reflexivity|].
  cbn [nth]. rewrite IH by lia. destruct i; reflexivity.
Qed.
Lemma diff_length {F} {N : Num F} (l : list F) : length (diff l) = (length l - 1)%nat.
Proof. destruct l; cbn; [reflexivity|]. rewrite diff_prepend_length. lia. Qed.
Lemma diff_nth (l : list R) i d :
  (S i < length l)%nat -> nth i (diff l) d = (nth (S i) l 0 - nth i l 0)%R.
Proof.
  destruct l as [|x l]; cbn [length]; [lia|]. intros H. cbn [diff].
  rewrite diff_prepend_nth by lia. destruct i; reflexivity.
Qed.
Lemma Rsum_diff_prepend p l : Rsum (diff_prepend p l) = (last l p - p)%R.
Proof.
  revert p; induction l as [|x l IH]; intros p; cbn [diff_prepend]; unR.
  - unfold Rsum; cbn; lra.
  - rewrite Rsum_cons, IH. destruct l as [|y l]; [cbn; lra|].
    rewrite (last_default y l x p). change (last (x :: y :: l) p) with (last (y :: l) p). lra.
Qed.
