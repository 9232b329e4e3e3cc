(** Proofs about repeated loads from one table (C106). *)
From Coq Require Import Lia Ascii.
From Verif Require Import Num Numpy ListFacts CycleModel CycleSpec VehModel SimModel SimState FrameProofs VehDictModel VehTableModel VehLibModel
  DictSpec DictProofs DictProofs2 DictProofs3 DictProofs4 DictProofs5 DictProofs6 DictProofs7 DictProofs8 LibSpec.
Local Open Scope R_scope.

Lemma plain_clean (T : texts R) s : plain s -> clean_text T s = match to_float T s with Some x => VNum x | None => VStr s end.
Proof.
  intros (P & M & M'). unfold clean_text. destruct (contains "%" s) eqn:Q; [apply percent_spec in Q; tauto|].
  destruct (contains "true" s) eqn:Q1; [change "true"%string with (lower_word word_true) in Q1; apply (contains_spec _ _ true_proper) in Q1; tauto|].
  destruct (contains "false" s) eqn:Q2; [change "false"%string with (lower_word word_false) in Q2; apply (contains_spec _ _ false_proper) in Q2; tauto|]. reflexivity.
Qed.
Lemma prints_clean (T : texts R) v x : (forall s, v <> VStr s) -> prints_as T v x -> clean_data T v = VNum x.
Proof. intros NS (P & E). unfold clean_data. replace (as_text T v) with (show T v) by (destruct v; try reflexivity; now destruct (NS s)). rewrite (plain_clean T _ P), E. reflexivity. Qed.
Lemma clean_twice (T : texts R) w : show T (VBool true) = "True"%string -> show T (VBool false) = "False"%string ->
  (forall x, cell_number T w x -> prints_as T (VNum x) x) -> clean_data T (clean_data T w) = clean_data T w.
Proof.
  intros BT BF H. assert (K : forall x, clean_data T w = VNum x -> cell_number T w x).
  { intros x. unfold clean_data, clean_text, cell_number. cbn zeta. change (match w with VStr s => s | _ => show T w end) with (as_text T w).
    set (s := as_text T w). destruct (contains "%" s) eqn:P.
    - destruct (to_float T (without "%" s)) as [y|] eqn:E; intros Q; [|discriminate]. injection Q as <-. right. exists (without "%" s), y. split; [now apply percent_spec|]. split; [|now split].
      apply without_spec.
    - destruct (contains "true" s); [discriminate|]. destruct (contains "false" s); [discriminate|]. destruct (to_float T s) eqn:E; intros Q; [|discriminate]. injection Q as <-. now left. }
  destruct (clean_data T w) as [|b|k|x|s|l|l|p r a] eqn:E; try (exfalso; revert E; unfold clean_data, clean_text; repeat match goal with |- context [if ?b then _ else _] => destruct b | |- context [match ?o with Some _ => _ | None => _ end] => destruct o end; discriminate).
  - unfold clean_data. cbn [as_text]. destruct b; [rewrite BT|rewrite BF]; reflexivity.
  - apply prints_clean; [discriminate|]. apply H, K. reflexivity.
  - (* a text that stays *) revert E. unfold clean_data at 2. cbn [as_text]. unfold clean_data. generalize (as_text T w). intros u E.
    assert (u = s). { revert E. unfold clean_text. repeat match goal with |- context [if ?b then _ else _] => destruct b | |- context [match ?o with Some _ => _ | None => _ end] => destruct o end; congruence. }
    now subst.
Qed.

(** ** Look-up in rows *)
Section Rows.
  Context {F : Type} {N : Num F}.
  Lemma row_get_at (cols : list string) (cells : list (pyval F)) h j w : NoDup cols -> nth_error cols j = Some h -> nth_error cells j = Some w ->
    pget (row_of cols cells) h = Some w.
  Proof.
    unfold row_of. revert cells j. induction cols as [|c cols IH]; intros cells j ND A B; [destruct j; discriminate|].
    inversion ND as [|? ? NI ND']. subst. destruct cells as [|x cells]; [destruct j; discriminate|]. cbn [combine pget].
    destruct j as [|j]; cbn [nth_error] in A, B.
    - injection A as ->. injection B as ->. now rewrite String.eqb_refl.
    - destruct (String.eqb_spec c h) as [->|]; [exfalso; apply NI; eapply nth_error_In; eauto|]. eapply IH; eauto.
  Qed.
  Lemma row_map (f : pyval F -> pyval F) (cols : list string) (cells : list (pyval F)) :
    row_of cols (map f cells) = map (fun e => (fst e, f (snd e))) (row_of cols cells).
  Proof. unfold row_of. revert cells. induction cols; intros [|x cells]; cbn; congruence. Qed.
  Lemma keyed_clean (T : texts F) (row : pydict F) : keyed (map (fun e => (fst e, clean_data T (snd e))) row) = row_dict T row.
  Proof. unfold keyed, row_dict. generalize (@nil (string * pyval F)). induction row as [|e row IH]; intros d; [reflexivity|]. cbn [map fold_left fst snd]. apply IH. Qed.
  Lemma heads_of (cols : list string) (cells : list (pyval F)) : length cells = length cols -> map fst (row_of cols cells) = cols.
  Proof. unfold row_of. revert cells. induction cols as [|c cols IH]; intros [|x cells]; cbn; try discriminate; [reflexivity|]. intros L. rewrite IH; [reflexivity|lia]. Qed.
End Rows.

Section Loads.
  Variables (T : texts R) (t : table R).
  Hypotheses (VT : vehicle_table t) (RT : round_trip T t).

  Lemma label_at cells w : In cells (t_rows t) -> cell_at t cells "selection" w -> label (t_cols t) cells = w /\ label (t_cols t) (map (clean_data T) cells) = clean_data T w.
  Proof.
    intros I (j & A & B). unfold label. split.
    - now rewrite (row_get_at _ _ _ j w (vt_heads t VT) A B).
    - rewrite (row_get_at _ _ _ j (clean_data T w) (vt_heads t VT) A); [reflexivity|]. rewrite nth_error_map, B. reflexivity.
  Qed.
  Lemma chosen_number cells n : In cells (t_rows t) -> (chosen (t_cols t) n cells = true <-> number t cells n) /\
    chosen (t_cols t) n (map (clean_data T) cells) = chosen (t_cols t) n cells.
  Proof.
    intros I. destruct (vt_num t VT cells I) as (k & K). unfold chosen.
    assert (U : number t cells n <-> n = k).
    { split; [|intros ->; exact K]. intros Q. unfold number in *.
      assert (L1 : label (t_cols t) cells = VInt n \/ label (t_cols t) cells = VNum (IZR n)) by (destruct Q as [Q|Q]; apply (label_at cells _ I) in Q; tauto).
      assert (L2 : label (t_cols t) cells = VInt k \/ label (t_cols t) cells = VNum (IZR k)) by (destruct K as [Q'|Q']; apply (label_at cells _ I) in Q'; tauto).
      destruct L1 as [L1|L1], L2 as [L2|L2]; rewrite L1 in L2; try discriminate L2; injection L2; [auto|]. intros E. now apply eq_IZR. }
    rewrite U. destruct K as [K|K]; destruct (label_at cells _ I K) as (-> & ->).
    - rewrite (prints_clean T (VInt k) (IZR k)); [|discriminate|eapply rt_whole; eauto]. cbn [label_is]. unR. split; [rewrite Z.eqb_eq; intuition|].
      destruct (Reqb_spec (IZR k) (IZR n)) as [E|E], (Z.eqb_spec k n) as [E'|E']; auto; [apply eq_IZR in E; contradiction|subst; contradiction].
    - unR. change (@nofZ R RNum k) with (IZR k) in *. rewrite (prints_clean T (VNum (IZR k)) (IZR k)); [|discriminate|eapply rt_float; eauto]. cbn [label_is]. unR.
      split; [|reflexivity]. destruct (Reqb_spec (IZR k) (IZR n)) as [E|E]; [apply eq_IZR in E; intuition|]. split; [discriminate|intros ->; contradiction].
  Qed.
  Lemma clean_cells cells : In cells (t_rows t) -> map (clean_data T) (map (clean_data T) cells) = map (clean_data T) cells.
  Proof.
    intros I. rewrite map_map. apply map_ext_in. intros w W. apply clean_twice; [apply (rt_true T t RT)|apply (rt_false T t RT)|]. intros x X. exact (rt_cells T t RT cells w x I W X).
  Qed.
  (** The table after loads: the rows of some numbers are cleaned. *)
  Definition cleaned (ns : list Z) : table R :=
    mktable (t_cols t) (map (fun cells => if existsb (fun n => chosen (t_cols t) n cells) ns then map (clean_data T) cells else cells) (t_rows t)).
  Lemma cleaned_step ns n : clean_row T (cleaned ns) n = cleaned (ns ++ [n]).
  Proof.
    unfold clean_row, cleaned. cbn [t_cols t_rows]. f_equal. rewrite map_map. apply map_ext_in. intros cells I.
    destruct (chosen_number cells n I) as (_ & C). rewrite existsb_app. cbn [existsb]. rewrite Bool.orb_false_r.
    destruct (existsb _ ns); cbn [orb].
    - rewrite C. destruct (chosen (t_cols t) n cells); [now apply clean_cells|reflexivity].
    - reflexivity.
  Qed.
  Lemma find_cleaned ns n : option_map (map (clean_data T)) (find (chosen (t_cols t) n) (t_rows (cleaned ns))) = option_map (map (clean_data T)) (find (chosen (t_cols t) n) (t_rows t)).
  Proof.
    unfold cleaned. cbn [t_rows]. assert (H : forall l, incl l (t_rows t) ->
      option_map (map (clean_data T)) (find (chosen (t_cols t) n) (map (fun cells => if existsb (fun n => chosen (t_cols t) n cells) ns then map (clean_data T) cells else cells) l))
      = option_map (map (clean_data T)) (find (chosen (t_cols t) n) l)).
    { induction l as [|cells l IH]; intros I; [reflexivity|]. cbn [map find]. assert (J : In cells (t_rows t)) by (apply I; now left).
      destruct (chosen_number cells n J) as (_ & C). destruct (existsb _ ns).
      - rewrite C. destruct (chosen (t_cols t) n cells); [cbn [option_map]; now rewrite clean_cells|]. apply IH. intros y Y. apply I. now right.
      - destruct (chosen (t_cols t) n cells); [reflexivity|]. apply IH. intros y Y. apply I. now right. }
    apply H. intros y Y. exact Y.
  Qed.
  Lemma load_cleaned ns n : fst (load T (cleaned ns) n) = fst (load T t n) /\
    snd (load T (cleaned ns) n) = if (mem "selection" (t_cols t) && forallb accepted (t_cols t))%bool then cleaned (ns ++ [n]) else cleaned ns.
  Proof.
    pose proof (find_cleaned ns n) as Q. unfold load. change (t_cols (cleaned ns)) with (t_cols t).
    destruct (mem "selection" (t_cols t)); cbn [negb andb]; [|auto]. destruct (forallb accepted (t_cols t)); cbn [negb]; [|auto].
    destruct (find _ (t_rows (cleaned ns))) as [a|] eqn:A, (find _ (t_rows t)) as [b|] eqn:B; cbn [option_map] in Q; try discriminate.
    - cbn [fst snd]. split; [congruence|]. apply cleaned_step.
    - cbn [fst snd]. split; [reflexivity|]. unfold cleaned. f_equal. apply map_ext_in. intros cells I. rewrite existsb_app. cbn [existsb]. rewrite Bool.orb_false_r.
      rewrite (find_none _ _ B cells I). now rewrite Bool.orb_false_r.
  Qed.
  Lemma cleaned_nil : cleaned [] = t.
  Proof. unfold cleaned. cbn [existsb]. rewrite map_id. now destruct t. Qed.
  Lemma after_cleaned ns : after_loads T t ns = if (mem "selection" (t_cols t) && forallb accepted (t_cols t))%bool then cleaned ns else t.
  Proof.
    unfold after_loads. assert (H : forall ns p, fold_left (fun t n => snd (load T t n)) ns (cleaned p) =
      if (mem "selection" (t_cols t) && forallb accepted (t_cols t))%bool then cleaned (p ++ ns) else cleaned p).
    { induction ns0 as [|n ns0 IH]; intros p; cbn [fold_left].
      - rewrite app_nil_r. now destruct (_ && _)%bool.
      - rewrite (proj2 (load_cleaned p n)). destruct (_ && _)%bool eqn:E; [|rewrite IH; reflexivity]. rewrite IH, <- app_assoc. reflexivity. }
    rewrite <- cleaned_nil at 1. rewrite H, cleaned_nil. reflexivity.
  Qed.
  Lemma loads_repeat ns n : fst (load T (after_loads T t ns) n) = fst (load T t n).
  Proof. rewrite after_cleaned. destruct (_ && _)%bool; [apply load_cleaned|reflexivity]. Qed.
  Lemma load_is_row cells n : In cells (t_rows t) -> number t cells n -> (forall other, In other (t_rows t) -> number t other n -> other = cells) ->
    fst (load T t n) = from_row T (row_of (t_cols t) cells).
  Proof.
    intros I K U. unfold load, from_row.
    assert (S : mem "selection" (t_cols t) = true). { apply mem_in. destruct K as [(j & A & _)|(j & A & _)]; exact (nth_error_In _ _ A). }
    rewrite S. cbn [negb].
    assert (A : forallb (fun e : string * pyval R => accepted (fst e)) (row_of (t_cols t) cells) = forallb accepted (t_cols t)).
    { rewrite <- (heads_of (t_cols t) cells (vt_rect t VT cells I)) at 2. clear. induction (row_of (t_cols t) cells); cbn; congruence. }
    rewrite A. destruct (forallb accepted (t_cols t)); cbn [negb assertR bindR fst]; [|reflexivity].
    destruct (find (chosen (t_cols t) n) (t_rows t)) as [c|] eqn:E.
    - cbn [fst]. apply find_some in E as (J & E). apply (chosen_number c n J) in E. rewrite (U c J E), row_map, keyed_clean. reflexivity.
    - exfalso. apply (chosen_number cells n I) in K. rewrite (find_none _ _ E cells I) in K. discriminate.
  Qed.
  Lemma load_missing n : (forall cells, In cells (t_rows t) -> ~ number t cells n) -> In "selection"%string (t_cols t) -> forallb accepted (t_cols t) = true ->
    load T t n = (Err KeyError, t).
  Proof.
    intros H S A. unfold load. apply mem_in in S. rewrite S, A. cbn [negb]. destruct (find _ (t_rows t)) eqn:E; [|reflexivity].
    exfalso. apply find_some in E as (I & E). apply (chosen_number _ _ I) in E. exact (H _ I E).
  Qed.
End Loads.
