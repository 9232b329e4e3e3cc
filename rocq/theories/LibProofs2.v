(** The order of the entries of a vehicle dict does not matter, and the vehicle number is only stored (C107). *)
From Coq Require Import Lia Ascii Permutation.
From Verif Require Import Num Numpy ListFacts CycleModel CycleSpec VehModel SimModel SimState FrameProofs VehDictModel VehTableModel VehLibModel
  DictSpec DictProofs DictProofs2 DictProofs3 DictProofs4 DictProofs5 LibSpec.

Section Order.
  Context {F : Type} {N : Num F} (T : texts F).
  (** The same entries but for 'selection', which both have. *)
  Definition deq (d e : pydict F) : Prop :=
    (forall k, k <> "selection"%string -> pget d k = pget e k) /\ NoDup (map fst d) /\ NoDup (map fst e).
  Lemma pset_keys (d : pydict F) k v x : In x (map fst (pset d k v)) <-> x = k \/ In x (map fst d).
  Proof.
    induction d as [|[a w] r IH]; cbn [pset map fst In]; [intuition|]. destruct (String.eqb_spec a k) as [->|]; cbn [map fst In]; [intuition|]. rewrite IH. intuition.
  Qed.
  Lemma pset_nodup (d : pydict F) k v : NoDup (map fst d) -> NoDup (map fst (pset d k v)).
  Proof.
    induction d as [|[a w] r IH]; cbn [pset map fst]; intros H; [repeat constructor; auto|]. inversion H as [|? ? NI ND]. subst.
    destruct (String.eqb_spec a k) as [->|Q]; cbn [map fst]; constructor; auto. rewrite pset_keys. intros [->|I]; auto.
  Qed.
  Lemma deq_pset d e k v : deq d e -> deq (pset d k v) (pset e k v).
  Proof. intros (A & B & C). split; [|split; now apply pset_nodup]. intros j J. rewrite !pget_pset. destruct (String.eqb k j); auto. Qed.
  Lemma deq_get d e k : deq d e -> String.eqb k "selection" = false -> pget d k = pget e k.
  Proof. intros (A & _) K. apply A. intros ->. discriminate. Qed.
  (** Outcomes that correspond. *)
  Definition deqR (a b : Res (pydict F)) : Prop := match a, b with Ok d, Ok e => deq d e | Err x, Err y => x = y | _, _ => False end.
  Lemma deqR_bind a b f g : deqR a b -> (forall d e, deq d e -> deqR (f d) (g e)) -> deqR (bindR a f) (bindR b g).
  Proof. destruct a, b; cbn; auto; try contradiction. Qed.
  Lemma deqR_same {A} (r r' : Res A) f g : r = r' -> (forall x, deqR (f x) (g x)) -> deqR (bindR r f) (bindR r' g).
  Proof. intros ->. destruct r'; cbn; auto. Qed.
  Ltac key := match goal with H : deq ?d ?e |- _ => apply (deq_get d e _ H); reflexivity end.
  Lemma pitem_deq d e k : deq d e -> String.eqb k "selection" = false -> pitem d k = pitem e k.
  Proof. intros H K. unfold pitem. now rewrite (deq_get d e k H K). Qed.

  Lemma fill_maps_deq d e : deq d e -> deqR (fill_maps T d) (fill_maps T e).
  Proof.
    intros H. unfold fill_maps. apply deqR_same; [now apply pitem_deq|]. intros t. cbn zeta.
    pose proof (deq_pset d e "fc_eff_type" (VStr (as_text T t)) H) as H1. clear H. apply deqR_bind.
    { rewrite (deq_get _ _ "fc_eff_map" H1 eq_refl). destruct (read_literal T _); [now apply deq_pset|]. apply deqR_same; [now apply pitem_deq|]. intros _.
      apply deqR_same; [reflexivity|]. intros m. now apply deq_pset. }
    clear. intros d e H. cbn zeta. rewrite (deq_get d e "fc_pwr_out_perc" H eq_refl). set (u := match read_literal T _ with Some _ => _ | None => _ end).
    pose proof (deq_pset d e "fc_pwr_out_perc" u H) as H1. clear H. apply deqR_same; [now apply pitem_deq|]. intros m. apply deqR_same; [reflexivity|]. intros n.
    apply deqR_same; [now apply pitem_deq|]. intros p. apply deqR_same; [reflexivity|]. intros q. apply deqR_same; [reflexivity|]. intros _.
    rewrite (deq_get _ _ "mc_pwr_out_perc" H1 eq_refl). set (w := match read_literal T _ with Some _ => _ | None => _ end).
    pose proof (deq_pset _ _ "mc_pwr_out_perc" w H1) as H2. clear H1. apply deqR_same; [now apply pitem_deq|]. intros p'. apply deqR_same; [reflexivity|]. intros q'. apply deqR_same; [reflexivity|]. intros _.
    rewrite (deq_get _ _ "mc_eff_map" H2 eq_refl). now apply deq_pset.
  Qed.
  Lemma clean_override_deq d e k : String.eqb k "selection" = false -> deq d e -> deq (clean_override T d k) (clean_override T e k).
  Proof. intros K H. unfold clean_override. rewrite (deq_get d e k H K). destruct (pget e k); [now apply deq_pset|exact H]. Qed.
  Lemma fill_rest_deq d e : deq d e -> deqR (fill_rest T d) (fill_rest T e).
  Proof.
    intros H. unfold fill_rest. apply deqR_bind.
    { rewrite (deq_get d e "stop_start" H eq_refl). destruct (pget e "stop_start"); [|exact H]. apply deqR_same; [reflexivity|]. intros []; [now apply deq_pset|exact H]. }
    clear. intros d e H. apply deqR_bind.
    { rewrite (deq_get d e "veh_override_kg" H eq_refl). destruct (pget e "veh_override_kg") as [[]|]; try (now apply deq_pset); apply deqR_same; try reflexivity; intros []; try exact H; now apply deq_pset. }
    clear. intros d e H. apply deqR_same; [now rewrite (deq_get d e "veh_year" H eq_refl)|]. intros ms. apply deqR_bind.
    { destruct ms; [|exact H]. apply deqR_same; [now apply pitem_deq|]. intros s. now apply deq_pset. }
    clear. intros d e H. apply deqR_same; [now apply pitem_deq|]. intros y. apply deqR_same; [reflexivity|]. intros z. cbn zeta.
    pose proof (deq_pset d e "veh_year" (VInt z) H) as H1. clear H. apply deqR_same; [now apply pitem_deq|]. intros p. apply deqR_same; [reflexivity|]. intros _.
    apply clean_override_deq; [reflexivity|]. now apply clean_override_deq.
  Qed.
  (** Conversion, entry by entry. *)
  Lemma convert_keys (d d' : pydict F) : convert_all T d = Ok d' -> map fst d' = map fst d.
  Proof.
    revert d'. induction d as [|[k v] r IH]; intros d' H; [injection H as <-; reflexivity|]. cbn [convert_all] in H.
    apply bind_ok in H as (v' & _ & H). apply bind_ok in H as (r' & E & H). injection H as <-. cbn [map fst]. now rewrite (IH r' E).
  Qed.
  Lemma convert_all_ok (d : pydict F) : (forall k v, In (k, v) d -> exists v', conv1 T k v = Ok v') -> exists d', convert_all T d = Ok d'.
  Proof.
    induction d as [|[k v] r IH]; intros H; [now exists []|]. destruct (H k v (or_introl eq_refl)) as (v' & E). destruct IH as (r' & ER); [intros; apply H; now right|].
    cbn [convert_all]. fold (conv1 T k v). rewrite E. cbn [bindR]. rewrite ER. cbn [bindR]. eauto.
  Qed.
  Lemma nodup_get (d : pydict F) k v : NoDup (map fst d) -> In (k, v) d -> pget d k = Some v.
  Proof.
    induction d as [|[a w] r IH]; [intros _ []|]. cbn [map fst pget In]. intros H I. inversion H as [|? ? NI ND]. subst. destruct I as [I|I].
    - injection I as -> ->. now rewrite String.eqb_refl.
    - destruct (String.eqb_spec a k) as [->|]; [exfalso; apply NI; exact (in_map fst _ _ I)|]. now apply IH.
  Qed.
  Lemma convert_deq d e d' n b : deq d e -> convert_all T d = Ok d' -> pget e "selection" = Some b -> to_Z T b = Ok n ->
    exists e', convert_all T e = Ok e' /\ deq d' e' /\ pget e' "selection" = Some (VInt n).
  Proof.
    intros H C B Z. assert (S : conv1 T "selection" b = Ok (VInt n)). { unfold conv1. cbn -[to_Z]. rewrite Z. reflexivity. }
    destruct (convert_all_ok e) as (e' & E').
    { intros k v I. destruct (String.eqb_spec k "selection") as [->|K].
      - rewrite (nodup_get e _ _ (proj2 (proj2 H)) I) in B. injection B as ->. eauto.
      - pose proof (nodup_get e k v (proj2 (proj2 H)) I) as G. rewrite <- (proj1 H k K) in G. pose proof (convert_all_get T d d' C k) as Q. rewrite G in Q. destruct Q as (v' & _ & Q). eauto. }
    exists e'. split; [exact E'|]. split.
    - split; [|split; rewrite ?(convert_keys d d' C), ?(convert_keys e e' E'); apply H]. intros k K. pose proof (convert_all_get T d d' C k) as Q. pose proof (convert_all_get T e e' E' k) as Q'.
      rewrite (proj1 H k K) in Q. destruct (pget e k); [|congruence]. destruct Q as (v1 & -> & Q), Q' as (v2 & -> & Q'). congruence.
    - pose proof (convert_all_get T e e' E' "selection"%string) as Q'. rewrite B in Q'. destruct Q' as (v' & -> & Q'). congruence.
  Qed.
  Lemma gFs_deq d e ks : deq d e -> forallb (fun k => negb (String.eqb k "selection")) ks = true -> gFs d ks = gFs e ks.
  Proof.
    intros H. induction ks as [|k ks IH]; [reflexivity|]. cbn [forallb gFs]. intros Q. apply andb_prop in Q as (Q1 & Q2). unfold gF. rewrite (deq_get d e k H) by (now apply Bool.negb_true_iff).
    rewrite (IH Q2). reflexivity.
  Qed.
  Lemma removed_deq (d e : pydict F) : deq d e -> existsb (fun x => mem (fst x) keys_to_remove) d = false -> existsb (fun x => mem (fst x) keys_to_remove) e = false.
  Proof.
    intros H Q. destruct (existsb _ e) eqn:E; [|reflexivity]. apply existsb_exists in E as ((k & v) & I & E). cbn [fst] in E.
    assert (K : k <> "selection"%string) by (intros ->; discriminate). pose proof (nodup_get e k v (proj2 (proj2 H)) I) as G. rewrite <- (proj1 H k K) in G.
    apply pget_in in G. rewrite <- Q. symmetry. apply existsb_exists. exists (k, v). auto.
  Qed.
  Lemma construct_deq d e u n : deq d e -> construct d = Ok u -> pget e "selection" = Some (VInt n) ->
    construct e = Ok (mkpv (pv_core u) (pv_scenario u) n (pv_year u) (pv_type u) (pv_wheels u) (pv_vals u) (pv_rho u) (pv_afr u)).
  Proof.
    intros H C S. unfold construct in C |- *. apply bind_ok in C as ([] & R0 & C).
    destruct (existsb (fun x => mem (fst x) keys_to_remove) d) eqn:Q; [discriminate|]. rewrite (removed_deq d e H Q). cbn [bindR].
    assert (K : forall k, String.eqb k "selection" = false -> gS e k = gS d k /\ gZ e k = gZ d k /\ gF e k = gF d k /\ gA e k = gA d k /\ gB e k = gB d k /\ gOF e k = gOF d k /\ gOA e k = gOA d k /\
      (forall x, gD e k x = gD d k x)).
    { intros k K. unfold gD, gS, gZ, gF, gA, gB, gOF, gOA. rewrite (deq_get d e k H K). repeat split. }
    assert (KP : gP e = gP d) by (unfold gP; now rewrite (deq_get d e "props" H eq_refl)). rewrite KP, <- (gFs_deq d e val_keys H eq_refl).
    assert (KS : gZ e "selection" = Ok n) by (unfold gZ; now rewrite S). rewrite KS.
    repeat match goal with
    | |- context [gS e ?k] => rewrite (proj1 (K k eq_refl))
    | |- context [gF e ?k] => rewrite (proj1 (proj2 (proj2 (K k eq_refl))))
    | |- context [gA e ?k] => rewrite (proj1 (proj2 (proj2 (proj2 (K k eq_refl)))))
    | |- context [gB e ?k] => rewrite (proj1 (proj2 (proj2 (proj2 (proj2 (K k eq_refl))))))
    | |- context [gOF e ?k] => rewrite (proj1 (proj2 (proj2 (proj2 (proj2 (proj2 (K k eq_refl)))))))
    | |- context [gOA e ?k] => rewrite (proj1 (proj2 (proj2 (proj2 (proj2 (proj2 (proj2 (K k eq_refl))))))))
    | |- context [gD e ?k] => rewrite (proj2 (proj2 (proj2 (proj2 (proj2 (proj2 (proj2 (K k eq_refl))))))))
    | |- context [gZ e ?k] => rewrite (proj1 (proj2 (K k eq_refl)))
    end.
    apply bind_ok in C as (nm & G & C). rewrite G. cbn [bindR]. clear G. apply bind_ok in C as (sl & _ & C). cbn [bindR].
    repeat (let x := fresh "x" in let G := fresh "G" in apply bind_ok in C as (x & G & C); rewrite G; cbn [bindR]; clear G).
    injection C as <-. reflexivity.
  Qed.
  Lemma from_dict_deq d e d' v b n : deq d e -> from_dict T d = Ok (d', v) -> pget e "selection" = Some b -> to_Z T b = Ok n ->
    exists e', from_dict T e = Ok (e', mkpv (pv_core v) (pv_scenario v) n (pv_year v) (pv_type v) (pv_wheels v) (pv_vals v) (pv_rho v) (pv_afr v)).
  Proof.
    intros H D B Z. destruct (from_dict_open T d d' v D) as (d1 & d2 & u & c & E1 & E2 & E3 & E4 & E5 & ->).
    pose proof (fill_maps_deq d e H) as Q1. rewrite E1 in Q1. destruct (fill_maps T e) as [e1|] eqn:M1; [|contradiction].
    pose proof (fill_rest_deq d1 e1 Q1) as Q2. rewrite E2 in Q2. destruct (fill_rest T e1) as [e2|] eqn:M2; [|contradiction].
    assert (B2 : pget e2 "selection" = Some b).
    { destruct (fill_maps_spec T e e1 M1) as (t0 & m0 & m & _ & _ & _ & _ & _ & _ & _ & _ & _ & M). destruct (fill_rest_spec T e1 e2 M2) as (M' & _).
      rewrite M', M; [exact B|..]; intros I; apply mem_in in I; discriminate. }
    destruct (convert_deq d2 e2 d' n b Q2 E3 B2 Z) as (e' & E' & Q3 & B3).
    exists e'. unfold from_dict. rewrite M1. cbn [bindR]. rewrite M2. cbn [bindR]. rewrite E'. cbn [bindR]. rewrite (construct_deq d' e' u n Q3 E4 B3). cbn [bindR].
    unfold py_set_derived. cbn [pv_core]. rewrite E5. reflexivity.
  Qed.
End Order.

(** ** Rows *)
Section RowOrder.
  Context {F : Type} {N : Num F} (T : texts F).
  Definition keys_of (row : pydict F) : list string := map (fun e => column_key (fst e)) row.
  Lemma keyed_nodup (row : pydict F) : NoDup (map fst (row_dict T row)).
  Proof.
    unfold row_dict. assert (H : forall d : pydict F, NoDup (map fst d) -> NoDup (map fst (fold_left (fun d e => pset d (column_key (fst e)) (clean_data T (snd e))) row d))).
    { induction row as [|e row IH]; intros d D; [exact D|]. cbn [fold_left]. apply IH. now apply pset_nodup. }
    apply H. constructor.
  Qed.
  Lemma row_fold_other (row d : pydict F) k : ~ In k (keys_of row) -> pget (fold_left (fun d e => pset d (column_key (fst e)) (clean_data T (snd e))) row d) k = pget d k.
  Proof.
    revert d. induction row as [|e row IH]; intros d H; [reflexivity|]. cbn [fold_left]. cbn [keys_of map In] in H. rewrite IH by tauto. apply pget_other. tauto.
  Qed.
  Lemma row_absent (row : pydict F) k : ~ In k (keys_of row) -> pget (row_dict T row) k = None.
  Proof. intros H. unfold row_dict. now rewrite row_fold_other. Qed.
  Lemma row_present (row : pydict F) e : NoDup (keys_of row) -> In e row -> pget (row_dict T row) (column_key (fst e)) = Some (clean_data T (snd e)).
  Proof.
    unfold row_dict. generalize (@nil (string * pyval F)). induction row as [|a row IH]; intros d ND I; [destruct I|]. cbn [keys_of map] in ND. inversion ND as [|? ? NI ND']. subst.
    cbn [fold_left]. destruct I as [->|I]; [|now apply IH]. rewrite row_fold_other by exact NI. apply pget_same.
  Qed.
  Lemma rows_deq (row row' : pydict F) : NoDup (keys_of row) -> NoDup (keys_of row') ->
    (forall e, column_key (fst e) <> "selection"%string -> In e row <-> In e row') -> deq (row_dict T row) (row_dict T row').
  Proof.
    intros A B H. split; [|split; apply keyed_nodup]. intros k K.
    destruct (in_dec String.string_dec k (keys_of row)) as [I|I].
    - unfold keys_of in I. apply in_map_iff in I as (e & <- & I). rewrite (row_present row e A I). symmetry. apply row_present; [exact B|]. now apply H.
    - rewrite (row_absent row k I). symmetry. apply row_absent. intros J. apply I. unfold keys_of in J |- *. apply in_map_iff in J as (e & <- & J). apply (in_map (fun e => column_key (fst e))). now apply H.
  Qed.
  Lemma from_row_deq (row row' : pydict F) d v b n : NoDup (keys_of row) -> NoDup (keys_of row') ->
    (forall e, column_key (fst e) <> "selection"%string -> In e row <-> In e row') -> forallb (fun e => accepted (fst e)) row' = true ->
    (exists c, In (c, b) row' /\ column_key c = "selection"%string) -> to_Z T (clean_data T b) = Ok n -> from_row T row = Ok (d, v) ->
    exists d', from_row T row' = Ok (d', mkpv (pv_core v) (pv_scenario v) n (pv_year v) (pv_type v) (pv_wheels v) (pv_vals v) (pv_rho v) (pv_afr v)).
  Proof.
    intros A B H Q (c & I & C) Z R. unfold from_row in R |- *. apply bind_ok in R as (_ & _ & R). rewrite Q. cbn [assertR bindR].
    apply (from_dict_deq T (row_dict T row) (row_dict T row') d v (clean_data T b) n); auto; [now apply rows_deq|].
    rewrite <- C. exact (row_present row' (c, b) B I).
  Qed.
End RowOrder.
Section Own.
  Context {F : Type} {N : Num F} (T : texts F).
  Lemma selection_read (d d' : pydict F) v : from_dict T d = Ok (d', v) -> exists b, pget d "selection" = Some b /\ to_Z T b = Ok (pv_selection v).
  Proof.
    intros D. destruct (from_dict_open T d d' v D) as (d1 & d2 & u & c & E1 & E2 & E3 & E4 & E5 & ->).
    destruct (fill_maps_spec T d d1 E1) as (t0 & m0 & m & _ & _ & _ & _ & _ & _ & _ & _ & _ & M). destruct (fill_rest_spec T d1 d2 E2) as (M' & _).
    assert (S : pget d' "selection" = Some (VInt (pv_selection u))).
    { unfold construct in E4. apply bind_ok in E4 as (? & _ & E4). apply bind_ok in E4 as (? & _ & E4). apply bind_ok in E4 as (z & G & E4).
      assert (z = pv_selection u). { clear G. repeat (apply bind_ok in E4 as (? & _ & E4)). injection E4 as <-. reflexivity. }
      subst z. unfold gZ in G. destruct (pget d' "selection") as [[]|]; congruence. }
    assert (G : pget d2 "selection" = pget d "selection") by (rewrite M', M; [reflexivity|..]; intros I; apply mem_in in I; discriminate).
    pose proof (convert_all_get T d2 d' E3 "selection"%string) as Q. rewrite G in Q. destruct (pget d "selection") as [b|]; [|congruence].
    destruct Q as (b' & Q1 & Q2). exists b. split; [reflexivity|]. rewrite S in Q1. injection Q1 as <-. unfold conv1 in Q2. cbn -[to_Z] in Q2.
    apply bind_ok in Q2 as (z & Q2 & Q3). cbn [with_core pv_selection]. congruence.
  Qed.
  Lemma renumber_self (v : pyveh F) : mkpv (pv_core v) (pv_scenario v) (pv_selection v) (pv_year v) (pv_type v) (pv_wheels v) (pv_vals v) (pv_rho v) (pv_afr v) = v.
  Proof. now destruct v. Qed.
  Lemma row_order (row row' : pydict F) d v : Permutation row row' -> NoDup (keys_of row) -> from_row T row = Ok (d, v) -> exists d', from_row T row' = Ok (d', v).
  Proof.
    intros P ND R. assert (R' := R). unfold from_row in R'. apply bind_ok in R' as (u & A & D). destruct (forallb _ row) eqn:Q; [|discriminate A].
    assert (ND' : NoDup (keys_of row')) by (unfold keys_of in *; eapply Permutation_NoDup; [apply Permutation_map; exact P|exact ND]).
    destruct (selection_read _ _ _ D) as (b & B & Z).
    destruct (in_dec String.string_dec "selection"%string (keys_of row)) as [I|I]; [|rewrite (row_absent T row _ I) in B; discriminate].
    unfold keys_of in I. apply in_map_iff in I as ((c & w) & C & I). cbn [fst] in C. pose proof (row_present T row _ ND I) as W. cbn [fst snd] in W. rewrite C, B in W. injection W as ->.
    destruct (from_row_deq T row row' d v w (pv_selection v) ND ND') as (d' & E); auto.
    - intros e _. split; apply Permutation_in; [exact P|now apply Permutation_sym].
    - rewrite forallb_forall in Q |- *. intros e E. apply Q. eapply Permutation_in; [apply Permutation_sym; exact P|exact E].
    - exists c. split; [eapply Permutation_in; eauto|exact C].
    - exists d'. now rewrite renumber_self in E.
  Qed.
  Lemma dict_order (d e d' : pydict F) v : Permutation d e -> NoDup (map fst d) -> from_dict T d = Ok (d', v) -> exists e', from_dict T e = Ok (e', v).
  Proof.
    intros P ND D. assert (ND' : NoDup (map fst e)) by (eapply Permutation_NoDup; [apply Permutation_map; exact P|exact ND]).
    assert (EQ : forall k, pget d k = pget e k).
    { intros k. destruct (pget d k) as [w|] eqn:G.
      - symmetry. apply nodup_get; [exact ND'|]. apply pget_in in G. eapply Permutation_in; eauto.
      - destruct (pget e k) as [w|] eqn:G'; [|reflexivity]. apply pget_in in G'. assert (J : In (k, w) d) by (eapply Permutation_in; [apply Permutation_sym; exact P|exact G']).
        rewrite (nodup_get d k w ND J) in G. discriminate. }
    destruct (selection_read d d' v D) as (b & B & Z). rewrite EQ in B. destruct (from_dict_deq T d e d' v b _ ltac:(split; [intros k _; apply EQ|auto]) D B Z) as (e' & E).
    exists e'. now rewrite renumber_self in E.
  Qed.
End Own.
