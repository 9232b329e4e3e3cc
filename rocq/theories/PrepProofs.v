(** Proofs about the pre-processing of vehicle data. *)
From Coq Require Import Ascii Permutation.
From Verif Require Import Num FrameProofs VehDictModel PrepModel PrepSpec.
Local Open Scope Z_scope.

Lemma keeps_app {A} (P : A -> Prop) l1 l1' l2 l2' : keeps P l1 l1' -> keeps P l2 l2' -> keeps P (l1 ++ l2) (l1' ++ l2').
Proof. induction 1; cbn; auto; intros; [apply keeps_in|apply keeps_out]; auto. Qed.
Lemma keeps_ext {A} (P Q : A -> Prop) l l' : (forall x, In x l -> P x <-> Q x) -> keeps P l l' -> keeps Q l l'.
Proof.
  intros H K. induction K; [constructor| |]; [apply keeps_in|apply keeps_out].
  - apply H; cbn; auto. - apply IHK. intros; apply H; cbn; auto.
  - intros q. apply H0. apply H; cbn; auto. - apply IHK. intros; apply H; cbn; auto.
Qed.
Lemma keeps_in_iff {A} (P : A -> Prop) l l' : keeps P l l' -> forall x, In x l' <-> In x l /\ P x.
Proof.
  induction 1; intros y; cbn.
  - tauto.
  - rewrite IHkeeps. split; [intros [<-|[]]; auto|intros [[<-|Q] Hy]; auto].
  - rewrite IHkeeps. split; [intros []; auto|intros [[<-|Q] Hy]; [contradiction|auto]].
Qed.

(** ** Dicts *)
Section Zdict.
  Context {V : Type}.
  Lemma zget_zset (d : zdict V) k v j : zget (zset d k v) j = if Z.eqb k j then Some v else zget d j.
  Proof.
    induction d as [|[i w] r IH]; cbn [zset zget]; [reflexivity|]. destruct (Z.eqb_spec i k) as [->|Q]; cbn [zget].
    - destruct (Z.eqb k j); reflexivity.
    - rewrite IH. destruct (Z.eqb_spec i j) as [->|Q']; [|reflexivity]. destruct (Z.eqb_spec k j) as [->|]; [congruence|reflexivity].
  Qed.
  Lemma zset_keys (d : zdict V) k v j : In j (map fst (zset d k v)) <-> j = k \/ In j (map fst d).
  Proof.
    induction d as [|[i w] r IH]; cbn [zset map fst In]; [intuition|]. destruct (Z.eqb_spec i k) as [->|Q]; cbn [map fst In].
    - intuition. - rewrite IH. intuition.
  Qed.
  Lemma zset_nodup (d : zdict V) k v : NoDup (map fst d) -> NoDup (map fst (zset d k v)).
  Proof.
    induction d as [|[i w] r IH]; cbn [zset map fst]; intros H; [constructor; [auto|constructor]|].
    destruct (Z.eqb_spec i k) as [->|Q]; cbn [map fst]; [exact H|]. inversion H; subst. constructor; [|auto].
    rewrite zset_keys. intros [C|C]; auto.
  Qed.
  Lemma zget_in (d : zdict V) k v : NoDup (map fst d) -> (In (k, v) d <-> zget d k = Some v).
  Proof.
    induction d as [|[i w] r IH]; cbn [zget map fst In]; intros H; [intuition discriminate|]. inversion H; subst.
    destruct (Z.eqb_spec i k) as [->|Q].
    - split; [intros [E|E]; [congruence|]|intros E; left; congruence]. exfalso. apply H2. now apply (in_map fst) in E.
    - rewrite <- IH by assumption. split; [intros [E|E]; [congruence|auto]|auto].
  Qed.
  Lemma zget_none (d : zdict V) k : zget d k = None <-> ~ In k (map fst d).
  Proof.
    induction d as [|[i w] r IH]; cbn [zget map fst In]; [tauto|]. destruct (Z.eqb_spec i k) as [->|Q].
    - split; [discriminate|]. intros C. exfalso. auto.
    - rewrite IH. intuition.
  Qed.
End Zdict.
(** Entries of dicts of lists. *)
Definition zlist {A} (d : zdict (list A)) (y : Z) : list A := match zget d y with Some l => l | None => [] end.
Lemma zlist_append {A} (d : zdict (list A)) k x y : zlist (zappend d k x) y = if Z.eqb k y then zlist d y ++ [x] else zlist d y.
Proof. unfold zlist, zappend. rewrite zget_zset. destruct (Z.eqb_spec k y) as [->|]; reflexivity. Qed.
(** No key without entries. *)
Definition dense {A} (d : zdict (list A)) : Prop := NoDup (map fst d) /\ forall y l, zget d y = Some l -> l <> [].
Lemma dense_append {A} (d : zdict (list A)) k x : dense d -> dense (zappend d k x).
Proof.
  intros (ND & H). split; [now apply zset_nodup|]. intros y l. unfold zappend. rewrite zget_zset. destruct (Z.eqb k y); [|apply H].
  intros E. injection E as <-. intros C. now apply app_eq_nil in C as (_ & C).
Qed.
Lemma dense_nil {A} : dense (@nil (Z * list A)).
Proof. split; [constructor|discriminate]. Qed.
Lemma dense_keys {A} (d : zdict (list A)) y : dense d -> (In y (map fst d) <-> zlist d y <> []).
Proof.
  intros (ND & H). unfold zlist. pose proof (zget_none d y) as Q. destruct (zget d y) as [l|] eqn:E.
  - split; [intros _; now apply (H y)|]. intros _. destruct (in_dec Z.eq_dec y (map fst d)) as [|C]; auto. apply Q in C. discriminate.
  - split; [|congruence]. intros C. exfalso. now apply Q.
Qed.
Lemma dense_in {A} (d : zdict (list A)) y l : dense d -> In (y, l) d -> l = zlist d y.
Proof. intros (ND & _) H. apply zget_in in H; [|exact ND]. unfold zlist. now rewrite H. Qed.
Lemma append_perm {A} (d : zdict (list A)) k x : NoDup (map fst d) -> Permutation (concat (map snd (zappend d k x))) (x :: concat (map snd d)).
Proof.
  unfold zappend. induction d as [|[i w] r IH]; cbn [zget map fst]; intros ND; cbn [zset map concat snd].
  - reflexivity.
  - inversion ND; subst. destruct (Z.eqb_spec i k) as [->|Q]; cbn [map concat snd].
    + rewrite <- app_assoc. cbn [app]. symmetry. apply Permutation_middle.
    + rewrite (IH H2). symmetry. apply Permutation_middle.
Qed.

(** ** Cells *)
Lemma find_snoc {A} (f : A -> bool) l x : find f (l ++ [x]) = match find f l with Some y => Some y | None => if f x then Some x else None end.
Proof. induction l as [|y l IH]; cbn; [reflexivity|]. destruct (f y); auto. Qed.
Lemma in_combine_nth {A B} (l : list A) (m : list B) a b : In (a, b) (combine l m) <-> exists i, nth_error l i = Some a /\ nth_error m i = Some b.
Proof.
  revert m. induction l as [|x l IH]; intros [|y m]; cbn [combine In].
  - split; [tauto|]. intros ([|i] & H & _); discriminate.
  - split; [tauto|]. intros ([|i] & H & _); discriminate.
  - split; [tauto|]. intros ([|i] & _ & H); discriminate.
  - rewrite IH. split.
    + intros [E|(i & H)]; [exists 0%nat; cbn; split; congruence|now exists (S i)].
    + intros ([|i] & H1 & H2); cbn in *; [left; congruence|right; eauto].
Qed.
Lemma cell_spec header row k t : cell header row k = Ok t <-> in_column header row k t.
Proof.
  revert row. unfold cell. induction header as [|h hs IH]; intros row.
  - cbn. split; [discriminate|]. intros (i & E & _). destruct i; discriminate.
  - destruct row as [|c cs].
    + cbn. split; [discriminate|]. intros (i & _ & E & _). destruct i; discriminate.
    + cbn [combine rev]. rewrite find_snoc. specialize (IH cs).
      destruct (find _ (rev (combine hs cs))) as [[a b]|] eqn:E.
      * apply find_some in E as (E1 & E2). apply String.eqb_eq in E2. cbn [fst] in E2. subst a.
        rewrite <- in_rev in E1. apply in_combine_nth in E1 as (n & E1 & E2).
        rewrite IH. split.
        -- intros (i & I1 & I2 & I3). exists (S i). split; [exact I1|]. split; [exact I2|]. intros [|j] J; [lia|]. cbn [nth_error]. apply I3. cbn [length] in J. lia.
        -- intros ([|i] & I1 & I2 & I3).
           ++ exfalso. assert (n < length cs)%nat by (apply nth_error_Some; congruence). apply (I3 (S n)); [cbn [length]; lia|exact E1].
           ++ exists i. split; [exact I1|]. split; [exact I2|]. intros j J. apply (I3 (S j)). cbn [length]. lia.
      * assert (No : forall j, (j < length cs)%nat -> nth_error hs j <> Some k).
        { intros j J C. destruct (nth_error cs j) as [x|] eqn:X; [|apply nth_error_None in X; lia].
          apply find_none with (x := (k, x)) in E; [cbn in E; rewrite String.eqb_refl in E; discriminate|].
          rewrite <- in_rev. apply in_combine_nth. eauto. }
        cbn [fst]. destruct (String.eqb_spec h k) as [->|Q].
        -- split.
           ++ intros Q. exists 0%nat. split; [reflexivity|]. split; [cbn; congruence|]. intros [|j] J; [lia|]. cbn [nth_error]. apply No. cbn [length] in J. lia.
           ++ intros ([|i] & I1 & I2 & I3); cbn in *; [congruence|]. exfalso. apply (No i); [|exact I1]. apply nth_error_Some. congruence.
        -- split; [discriminate|]. intros ([|i] & I1 & I2 & I3); cbn in *; [congruence|]. exfalso. apply (No i); [|exact I1]. apply nth_error_Some. congruence.
Qed.
Section Rows.
  Context (int_of : string -> option Z).
  Lemma int_cell_spec header row k n : int_cell int_of header row k = Ok n <-> number_in int_of header row k n.
  Proof.
    unfold int_cell, number_in. split.
    - intros H. apply bind_ok in H as (t & H1 & H2). exists t. split; [now apply cell_spec|]. destruct (int_of t); [congruence|discriminate].
    - intros (t & H1 & H2). apply cell_spec in H1. rewrite H1. cbn. now rewrite H2.
  Qed.
  Lemma number_fun header row k n m : number_in int_of header row k n -> number_in int_of header row k m -> n = m.
  Proof. rewrite <- !int_cell_spec. congruence. Qed.
  Lemma number_dec header row k : (exists n, number_in int_of header row k n) \/ ~ (exists n, number_in int_of header row k n).
  Proof.
    destruct (int_cell int_of header row k) eqn:E; [left; eexists; apply int_cell_spec; eauto|right].
    intros (n & H). apply int_cell_spec in H. congruence.
  Qed.

  (** ** Vehicles *)
  Context (vh : list string).
  Local Notation year r y := (number_in int_of vh r "year" y).
  Local Notation ident r i := (number_in int_of vh r "id" i).
  Definition inv_st (rows : list csv_row) (st : zdict (list csv_row) * zdict (list Z)) : Prop :=
    dense (fst st) /\ dense (snd st) /\
    (forall y, keeps (fun r => year r y) rows (zlist (fst st) y)) /\
    (forall y i, In i (zlist (snd st) y) <-> exists r, In r rows /\ year r y /\ ident r i) /\
    Permutation (concat (map snd (fst st))) rows.
  Lemma vehicle_inv rows st r st' : inv_st rows st -> process_vehicle int_of vh st r = Ok st' -> inv_st (rows ++ [r]) st'.
  Proof.
    intros (D1 & D2 & K & I & P) H. apply bind_ok in H as (y & Hy & H). apply bind_ok in H as (i & Hi & H). injection H as <-. cbn [fst snd].
    apply int_cell_spec in Hy. apply int_cell_spec in Hi. unfold inv_st; cbn [fst snd].
    split; [now apply dense_append|]. split; [now apply dense_append|]. split; [|split].
    - intros z. rewrite zlist_append. destruct (Z.eqb_spec y z) as [->|Q].
      + apply keeps_app; [apply K|]. apply keeps_in; [exact Hy|constructor].
      + rewrite <- (app_nil_r (zlist _ z)). apply keeps_app; [apply K|]. apply keeps_out; [|constructor]. intros C. apply Q. eapply number_fun; eauto.
    - intros z j. rewrite zlist_append. destruct (Z.eqb_spec y z) as [->|Q].
      + rewrite in_app_iff, I. cbn [In]. split.
        * intros [(q & q1 & q2)|[<-|[]]]; [exists q; rewrite in_app_iff; tauto|exists r; rewrite in_app_iff; cbn; tauto].
        * intros (q & q1 & q2 & q3). rewrite in_app_iff in q1. destruct q1 as [q1|[<-|[]]]; [left; eauto|right; left]. eapply number_fun; eauto.
      + rewrite I. split.
        * intros (q & q1 & q2). exists q; rewrite in_app_iff; tauto.
        * intros (q & q1 & q2 & q3). rewrite in_app_iff in q1. destruct q1 as [q1|[<-|[]]]; [eauto|]. exfalso. apply Q. eapply number_fun; eauto.
    - rewrite append_perm by apply D1. rewrite P. apply Permutation_cons_append.
  Qed.
  Lemma vehicles_inv l : forall rows st st', inv_st rows st -> process_vehicles int_of vh st l = Ok st' -> inv_st (rows ++ l) st'.
  Proof.
    induction l as [|r l IH]; intros rows st st' H E; cbn in E.
    - rewrite app_nil_r. congruence.
    - apply bind_ok in E as (s1 & E1 & E). change (r :: l) with ([r] ++ l). rewrite app_assoc. eapply IH; [|exact E]. eapply vehicle_inv; eauto.
  Qed.
  Lemma inv_nil : inv_st [] ([], []).
  Proof.
    split; [apply dense_nil|]. split; [apply dense_nil|]. split; [intros; constructor|]. split; [|constructor].
    intros y i. cbn. split; [tauto|]. intros (r & [] & _).
  Qed.
  Lemma vehicles_total l : forall st, (exists st', process_vehicles int_of vh st l = Ok st') <->
    forall r, In r l -> (exists y, year r y) /\ (exists i, ident r i).
  Proof.
    induction l as [|r l IH]; intros st; cbn [process_vehicles].
    - split; [intros _ r []|eauto].
    - split.
      + intros (st' & E). apply bind_ok in E as (s1 & E1 & E). intros q [<-|Q]; [|eapply (proj1 (IH s1)); eauto].
        apply bind_ok in E1 as (y & Hy & E1). apply bind_ok in E1 as (i & Hi & E1). split; eexists; apply int_cell_spec; eauto.
      + intros H. destruct (H r (or_introl eq_refl)) as ((y & Hy) & (i & Hi)). apply int_cell_spec in Hy. apply int_cell_spec in Hi.
        unfold process_vehicle. rewrite Hy. cbn [bindR]. rewrite Hi. cbn [bindR]. apply IH. intros; apply H; cbn; auto.
  Qed.

  (** ** Emissions *)
  Context (eh : list string).
  Lemma emission_fold id row (ids : zdict (list Z)) : NoDup (map fst ids) -> forall st : zdict (list csv_row), dense st ->
    let st' := fold_left (fun st yi => if existsb (Z.eqb id) (snd yi) then zappend st (fst yi) row else st) ids st in
    dense st' /\ forall y, (In id (zlist ids y) -> zlist st' y = zlist st y ++ [row]) /\ (~ In id (zlist ids y) -> zlist st' y = zlist st y).
  Proof.
    induction ids as [|[z js] ids IH]; intros ND st D; cbn [fold_left fst snd].
    - split; [exact D|]. intros y. cbn. tauto.
    - inversion ND; subst. assert (Ex : existsb (Z.eqb id) js = true <-> In id js).
      { rewrite existsb_exists. split; [intros (x & x1 & x2); apply Z.eqb_eq in x2; now subst|]. intros; exists id. split; [assumption|apply Z.eqb_refl]. }
      assert (Nz : zlist ids z = []). { unfold zlist. replace (zget ids z) with (@None (list Z)); [reflexivity|]. symmetry. now apply zget_none. }
      assert (Zl : forall y, zlist ((z, js) :: ids) y = if Z.eqb z y then js else zlist ids y).
      { intros y. unfold zlist. cbn [zget]. destruct (Z.eqb z y); reflexivity. }
      destruct (existsb (Z.eqb id) js).
      + destruct (IH H2 (zappend st z row)) as (D' & K); [now apply dense_append|]. split; [exact D'|]. intros y. rewrite Zl. destruct (K y) as (K1 & K2).
        rewrite zlist_append in K1, K2. destruct (Z.eqb_spec z y) as [Q|Q]; [subst y|auto].
        rewrite Nz in K2. split; [intros _; apply K2; intros []|]. intros C. exfalso. apply C. now apply Ex.
      + destruct (IH H2 st D) as (D' & K). split; [exact D'|]. intros y. rewrite Zl. destruct (K y) as (K1 & K2). destruct (Z.eqb_spec z y) as [Q|Q]; [subst y|auto].
        rewrite Nz in K2. split; [intros C; apply Ex in C; discriminate|]. intros _. apply K2. intros [].
  Qed.
  Definition inv_em (ids : zdict (list Z)) (rows : list csv_row) (st : zdict (list csv_row)) : Prop :=
    dense st /\ forall y, keeps (fun r => exists i, number_in int_of eh r "id" i /\ In i (zlist ids y)) rows (zlist st y).
  Lemma emissions_inv ids l : dense ids -> forall rows st st', inv_em ids rows st -> process_emissions int_of eh ids st l = Ok st' -> inv_em ids (rows ++ l) st'.
  Proof.
    intros DI. induction l as [|r l IH]; intros rows st st' H E; cbn in E.
    - rewrite app_nil_r. congruence.
    - apply bind_ok in E as (s1 & E1 & E). change (r :: l) with ([r] ++ l). rewrite app_assoc. eapply IH; [|exact E].
      apply bind_ok in E1 as (i & Hi & E1). apply int_cell_spec in Hi. injection E1 as <-. destruct H as (D & K).
      destruct (emission_fold i r ids (proj1 DI) st D) as (D' & K'). split; [exact D'|]. intros y. destruct (K' y) as (K1 & K2).
      destruct (in_dec Z.eq_dec i (zlist ids y)) as [Q|Q].
      + rewrite (K1 Q). apply keeps_app; [apply K|]. apply keeps_in; [eauto|constructor].
      + rewrite (K2 Q), <- (app_nil_r (zlist st y)). apply keeps_app; [apply K|]. apply keeps_out; [|constructor].
        intros (j & J1 & J2). apply Q. now rewrite (number_fun _ _ _ _ _ Hi J1).
  Qed.
  Lemma emissions_total ids l : forall st, (exists st', process_emissions int_of eh ids st l = Ok st') <->
    forall r, In r l -> exists i, number_in int_of eh r "id" i.
  Proof.
    induction l as [|r l IH]; intros st; cbn [process_emissions].
    - split; [intros _ r []|eauto].
    - split.
      + intros (st' & E). apply bind_ok in E as (s1 & E1 & E). intros q [<-|Q]; [|eapply (proj1 (IH s1)); eauto].
        apply bind_ok in E1 as (i & Hi & E1). eexists; apply int_cell_spec; eauto.
      + intros H. destruct (H r (or_introl eq_refl)) as (i & Hi). apply int_cell_spec in Hi.
        unfold process_emission. rewrite Hi. cbn [bindR]. apply IH. intros; apply H; cbn; auto.
  Qed.
End Rows.
