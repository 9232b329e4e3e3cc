(** Proofs about table cells and rows (C80, C81). *)
From Coq Require Import Lia Ascii.
From Verif Require Import Num Numpy ListFacts VehModel VehSpec VehDictModel VehTableModel DictSpec DictProofs4 DictProofs5.

Lemma starts_nil s : starts "" s = true. Proof. now destruct s. Qed.
Definition lower_word (word : list (ascii * ascii)) : string := string_of_list_ascii (map fst word).
Definition proper (word : list (ascii * ascii)) : Prop := Forall (fun p => forall c, Ascii.eqb (fst p) (lower c) = true <-> c = fst p \/ c = snd p) word.
Lemma starts_spec word : proper word -> forall s, starts (lower_word word) s = true <-> exists m b, s = (m ++ b)%string /\ spells word m.
Proof.
  unfold spells. induction 1 as [|[a a'] word P PW IH]; intros s.
  - change (lower_word []) with ""%string. rewrite starts_nil. split; [|auto]. intros _. exists ""%string, s. split; [reflexivity|constructor].
  - change (lower_word ((a, a') :: word)) with (String a (lower_word word)). destruct s as [|c s]; cbn [starts].
    + split; [discriminate|]. intros (m & b & E & S). destruct m; [inversion S|discriminate].
    + rewrite Bool.andb_true_iff, (P c), IH. cbn [fst snd]. split.
      * intros (C & m & b & -> & S). exists (String c m), b. split; [reflexivity|]. cbn [list_ascii_of_string]. constructor; auto.
      * intros (m & b & E & S). destruct m as [|c' m]; [inversion S|]. cbn in E. injection E as <- ->. cbn [list_ascii_of_string] in S. inversion S; subst. cbn in *. split; eauto.
Qed.
Lemma contains_spec word s : proper word -> contains (lower_word word) s = true <-> mentions word s.
Proof.
  intros P. unfold mentions. induction s as [|c s IH].
  - cbn [contains]. rewrite Bool.orb_false_r, (starts_spec word P). split.
    + intros (m & b & E & S). now exists ""%string, m, b.
    + intros (a & m & b & E & S). destruct a; [|discriminate]. now exists m, b.
  - cbn [contains]. rewrite Bool.orb_true_iff, (starts_spec word P), IH. split.
    + intros [(m & b & E & S)|(a & m & b & E & S)]; [now exists ""%string, m, b|]. exists (String c a), m, b. rewrite E. auto.
    + intros (a & m & b & E & S). destruct a as [|c' a]; [left; now exists m, b|]. right. cbn in E. injection E as <- E. now exists a, m, b.
Qed.
Lemma letter (a b : ascii) : (forall c, Ascii.eqb a (lower c) = (Ascii.eqb c a || Ascii.eqb c b)%bool) -> forall c, Ascii.eqb a (lower c) = true <-> c = a \/ c = b.
Proof. intros H c. rewrite H, Bool.orb_true_iff, !Ascii.eqb_eq. tauto. Qed.
Ltac letters := repeat (apply Forall_cons; [apply letter; intros [[] [] [] [] [] [] [] []]; reflexivity|]); apply Forall_nil.
Lemma true_proper : proper word_true. Proof. unfold proper, word_true. letters. Qed.
Lemma false_proper : proper word_false. Proof. unfold proper, word_false. letters. Qed.
Lemma percent_proper : proper [("%", "%")]%char. Proof. unfold proper. letters. Qed.
Lemma las_app a b : list_ascii_of_string (a ++ b) = list_ascii_of_string a ++ list_ascii_of_string b.
Proof. induction a; cbn; congruence. Qed.
Lemma F2h {A B} {P : A -> B -> Prop} {a b l l'} : Forall2 P (a :: l) (b :: l') -> P a b /\ Forall2 P l l'.
Proof. intros H. inversion H; auto. Qed.
Lemma percent_spec s : contains "%" s = true <-> has_percent s.
Proof.
  change "%"%string with (lower_word [("%", "%")]%char). rewrite (contains_spec _ _ percent_proper). unfold mentions, spells, has_percent. split.
  - intros (a & m & b & -> & S). rewrite !las_app. apply in_or_app. right. apply in_or_app. left. destruct (list_ascii_of_string m) as [|c l]; [inversion S|]. left. assert (C := proj1 (F2h S)). destruct C; cbn in *; congruence.
  - intros I. apply in_split in I as (l1 & l2 & E). exists (string_of_list_ascii l1), "%"%string, (string_of_list_ascii l2). split.
    + transitivity (string_of_list_ascii (l1 ++ "%"%char :: l2)); [now rewrite <- E, string_of_list_ascii_of_string|]. clear. induction l1 as [|c l1 IH]; [reflexivity|]. cbn [string_of_list_ascii app append]. now rewrite IH.
    + cbn. constructor; [now left|constructor].
Qed.
Lemma without_spec s : no_percent s (without "%" s).
Proof.
  unfold no_percent. induction s as [|c s IH]; [reflexivity|]. cbn [without list_ascii_of_string filter]. rewrite (Ascii.eqb_sym c).
  destruct (Ascii.eqb "%" c); cbn [negb list_ascii_of_string]; congruence.
Qed.
Lemma no_percent_fun s t : no_percent s t -> t = without "%" s.
Proof. unfold no_percent. intros H. rewrite <- (string_of_list_ascii_of_string t), H, <- (without_spec s). apply string_of_list_ascii_of_string. Qed.

Section Rows.
  Context {F : Type} {N : Num F} (T : texts F).
  Lemma row_get (row : pydict F) k w : last_column column_key row k w -> pget (row_dict T row) k = Some (clean_data T w).
  Proof.
    intros (pre & c & post & -> & K & NP). unfold row_dict. rewrite fold_left_app. cbn [fold_left fst snd]. rewrite K. revert NP.
    set (d0 := pset _ k _). assert (G : pget d0 k = Some (clean_data T w)) by (unfold d0; apply pget_same). clearbody d0. revert d0 G.
    induction post as [|e post IH]; intros d0 G NP; [exact G|]. cbn [fold_left]. apply IH; [|intros e' I; apply NP; now right].
    rewrite pget_other; [exact G|]. apply NP. now left.
  Qed.
  Lemma row_none (row : pydict F) k : (forall e, In e row -> column_key (fst e) <> k) -> pget (row_dict T row) k = None.
  Proof.
    unfold row_dict. assert (G : pget (F := F) [] k = None) by reflexivity. revert G. generalize (@nil (string * pyval F)).
    induction row as [|e row IH]; intros d0 G NP; [exact G|]. cbn [fold_left]. apply IH; [|intros e' I; apply NP; now right].
    rewrite pget_other; [exact G|]. apply NP. now left.
  Qed.
  Lemma new_key new old : In (new, old) new_to_old -> forall c, underscored c = new \/ underscored c = old -> column_key c = new /\ accepted c = true.
  Proof.
    assert (Q : forallb (fun e => match find (fun e' => String.eqb (snd e') (snd e)) new_to_old with Some e' => String.eqb (fst e') (fst e) | None => false end
        && match find (fun e' => String.eqb (snd e') (fst e)) new_to_old with Some e' => String.eqb (fst e') (fst e) | None => true end)%bool new_to_old = true) by (vm_compute; reflexivity).
    rewrite forallb_forall in Q. intros I c E. assert (I' := I). apply Q in I. clear Q. cbn [fst snd] in I. apply Bool.andb_true_iff in I as [I1 I2].
    assert (M : accepted c = true).
    { unfold accepted. apply (in_map fst) in I' as J1. apply (in_map snd) in I' as J2. cbn [fst snd] in J1, J2.
      destruct E as [->| ->]; [apply mem_in in J1; rewrite J1, Bool.orb_true_r|apply mem_in in J2; rewrite J2]; reflexivity. }
    split; [|exact M]. unfold column_key. destruct E as [->| ->].
    - clear I1. destruct (find _ new_to_old) as [[a b]|]; [|reflexivity]. now apply String.eqb_eq in I2.
    - clear I2. destruct (find _ new_to_old) as [[a b]|]; [|discriminate]. now apply String.eqb_eq in I1.
  Qed.
  Lemma same_rows (row row' : pydict F) : Forall2 (fun e e' => same_column (fst e) (fst e') /\ snd e = snd e') row row' ->
    from_row T row = from_row T row'.
  Proof.
    intros H. assert (A : row_dict T row = row_dict T row' /\ forallb (fun e => accepted (fst e)) row = true /\ forallb (fun e => accepted (fst e)) row' = true).
    { unfold row_dict. generalize (@nil (string * pyval F)). induction H as [|e e' row row' (C & V) H IH]; intros d0; [auto|]. cbn [fold_left forallb].
      destruct C as (new & old & I & C1 & C2). destruct (new_key new old I _ C1) as (-> & ->). destruct (new_key new old I _ C2) as (-> & ->). rewrite V. apply IH. }
    destruct A as (A1 & A2 & A3). unfold from_row. now rewrite A1, A2, A3.
  Qed.
End Rows.
