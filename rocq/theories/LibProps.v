(** Properties C106-C108: the vehicle library (python/fastsim/vehicle.py: from_vehdb, from_file, from_df, LegacyVehicle). *)
From Coq Require Import Floats Lia Ascii Permutation.
From Verif Require Import Num FloatNum Numpy ListFacts CycleModel CycleSpec VehModel SimModel SimState FrameProofs SimDemo VehSpec VehProofs VehProofs2 VehProofs3 VehProps
  VehDictModel VehTableModel VehLibModel DictSpec DictProofs DictProofs2 DictProofs3 DictProofs4 DictProofs5 DictProofs6 DictProofs7 DictProofs8 DictProps LibSpec LibProofs LibProofs2.
Local Open Scope R_scope.
Local Set Warnings "-inexact-float".

(** *** C106: loading from one table again and again *)
(** Whatever was loaded before from the table, a load gives what it gives with the table as it was at first. *)
Theorem C106_repeatable : forall (T : texts R) (t : table R) (before : list Z) (n : Z), vehicle_table t -> round_trip T t ->
  fst (load T (after_loads T t before) n) = fst (load T t n).
Proof. intros T t ns n V R. now apply loads_repeat. Qed.
(** That is what the row of that number says (C81). *)
Theorem C106_row : forall (T : texts R) (t : table R) (before : list Z) (n : Z) (cells : list (pyval R)), vehicle_table t -> round_trip T t ->
  In cells (t_rows t) -> number t cells n -> (forall other, In other (t_rows t) -> number t other n -> other = cells) ->
  fst (load T (after_loads T t before) n) = from_row T (combine (t_cols t) cells).
Proof. intros T t ns n cells V R I K U. rewrite loads_repeat by assumption. now apply load_is_row. Qed.
(** Whatever the table: a load yields what a row with that number says, and only that. *)
Theorem C106_only : forall (T : texts R) (t : table R) (n : Z) (d : pydict R) (v : pyveh R), fst (load T t n) = Ok (d, v) ->
  exists cells, In cells (t_rows t) /\ number t cells n /\ from_row T (combine (t_cols t) cells) = Ok (d, v).
Proof.
  intros T t n d v H. unfold load in H. destruct (mem "selection" (t_cols t)); [|discriminate]. cbn [negb] in H.
  destruct (forallb accepted (t_cols t)) eqn:A; [|discriminate]. cbn [negb] in H.
  destruct (find (chosen (t_cols t) n) (t_rows t)) as [cells|] eqn:E; [|discriminate]. cbn [fst] in H. apply find_some in E as (I & E).
  exists cells. split; [exact I|]. split.
  - unfold chosen, label, row_of in E. destruct (pget (combine (t_cols t) cells) "selection") as [w|] eqn:Q; [|discriminate]. apply pget_in in Q.
    assert (C : cell_at t cells "selection" w).
    { apply In_nth_error in Q as (j & Q). exists j. revert Q. generalize (t_cols t) j. clear. induction cells as [|x l IH]; intros [|h c] [|j]; cbn; try discriminate.
      - intros Q. injection Q as -> ->. auto.
      - apply IH. }
    unfold label_is in E. destruct w; try discriminate.
    + left. apply Z.eqb_eq in E. subst. exact C.
    + right. revert E. unR. match goal with |- context [Reqb ?a ?b] => destruct (Reqb_spec a b) end; [|discriminate]. intros _. subst. exact C.
  - unfold from_row. rewrite row_map, keyed_clean in H.
    assert (A' : forallb (fun e : string * pyval R => accepted (fst e)) (combine (t_cols t) cells) = true).
    { apply forallb_forall. intros (h & w) J. apply in_combine_l in J. rewrite forallb_forall in A. exact (A _ J). }
    rewrite A'. exact H.
Qed.
(** A number that is not in the table: KeyError, at any time, and the table stays as it is. *)
Theorem C106_missing : forall (T : texts R) (t : table R) (before : list Z) (n : Z), vehicle_table t -> round_trip T t ->
  In "selection"%string (t_cols t) -> (forall c, In c (t_cols t) -> accepted c = true) ->
  (forall cells, In cells (t_rows t) -> ~ number t cells n) ->
  load T (after_loads T t before) n = (Err KeyError, after_loads T t before).
Proof.
  intros T t ns n V R S A H. assert (A' : forallb accepted (t_cols t) = true) by (now apply forallb_forall).
  rewrite after_cleaned by assumption. rewrite (proj2 (mem_in _ _) S), A'. cbn [andb]. destruct (load_cleaned T t V R ns n) as (E1 & E2).
  rewrite (load_missing T t V R n H S A') in E1. cbn [fst] in E1. rewrite (surjective_pairing (load T (cleaned T t ns) n)), E1. f_equal.
  rewrite E2, (proj2 (mem_in _ _) S), A'. cbn [andb]. unfold cleaned. f_equal. apply map_ext_in. intros cells I. rewrite existsb_app. cbn [existsb]. rewrite Bool.orb_false_r.
  destruct (chosen (t_cols t) n cells) eqn:Q; [exfalso; apply (chosen_number T t V R cells n I) in Q; exact (H _ I Q)|]. now rewrite Bool.orb_false_r.
Qed.
(** Afterwards the rows that were loaded hold the values read (numbers for texts), the others are untouched. *)
Theorem C106_table : forall (T : texts R) (t : table R) (loaded : list Z), vehicle_table t -> round_trip T t ->
  In "selection"%string (t_cols t) -> (forall c, In c (t_cols t) -> accepted c = true) ->
  t_cols (after_loads T t loaded) = t_cols t /\
  Forall2 (fun old new => ((exists n, In n loaded /\ number t old n) -> new = map (clean_data T) old) /\
                          (~ (exists n, In n loaded /\ number t old n) -> new = old)) (t_rows t) (t_rows (after_loads T t loaded)).
Proof.
  intros T t ns V R S A. assert (A' : forallb accepted (t_cols t) = true) by (now apply forallb_forall).
  rewrite after_cleaned by assumption. rewrite (proj2 (mem_in _ _) S), A'. cbn [andb]. split; [reflexivity|]. unfold cleaned. cbn [t_rows].
  assert (K : forall l, incl l (t_rows t) -> Forall2 (fun old new => ((exists n, In n ns /\ number t old n) -> new = map (clean_data T) old) /\ (~ (exists n, In n ns /\ number t old n) -> new = old)) l
    (map (fun cells => if existsb (fun n => chosen (t_cols t) n cells) ns then map (clean_data T) cells else cells) l)).
  { induction l as [|cells l IH]; intros I; [constructor|]. cbn [map]. assert (J : In cells (t_rows t)) by (apply I; now left). constructor; [|apply IH; intros y Y; apply I; now right].
    destruct (existsb _ ns) eqn:E.
    - split; [reflexivity|]. intros Q. exfalso. apply Q. apply existsb_exists in E as (n & N1 & N2). exists n. split; [exact N1|]. now apply (chosen_number T t V R cells n J).
    - split; [|reflexivity]. intros (n & N1 & N2). exfalso. apply (chosen_number T t V R cells n J) in N2. assert (X : existsb (fun n => chosen (t_cols t) n cells) ns = true) by (apply existsb_exists; eauto). congruence. }
  apply K. intros y Y. exact Y.
Qed.
(** The table that was passed in is changed by a load: the text "30%" becomes the number 0.3. *)
Definition demo_lib : texts float := mktexts
  (fun s => if String.eqb s "n" then Some 0.9%float else if String.eqb s "30" then Some 30%float else if String.eqb s "0.3" then Some 0.3%float
            else if String.eqb s "1" then Some 1%float else if String.eqb s "2" then Some 2%float else None)
  (fun _ => None) (to_literal demo_texts)
  (fun v => match v with
            | VNum x => if PrimFloat.eqb x 0.3 then "0.3" else if PrimFloat.eqb x 1 then "1" else if PrimFloat.eqb x 2 then "2" else "n"
            | VInt 1 => "1" | VInt 2 => "2" | VInt _ => "n" | VBool true => "True" | VBool false => "False" | VStr s => s | _ => "other" end)%string.
Definition demo_cells : pydict float :=
  filter (fun e => negb (mem (fst e) ["props"; "veh_override_kg"; "fc_peak_eff_override"; "mc_peak_eff_override"; "selection"; "drag_coef"; "stop_start"]))%string demo_dict.
Definition demo_table : table float := mktable (["selection"; "drag_coef"; "stop_start"]%string ++ map fst demo_cells)
  [[VInt 1; VStr "30%"; VStr "FALSE"] ++ map snd demo_cells; [VInt 2; VStr "n"; VStr "no"] ++ map snd demo_cells].
Theorem C106_untouched_refuted : exists (T : texts float) (t : table float) (n : Z) (d : pydict float) (v : pyveh float),
  fst (load T t n) = Ok (d, v) /\ nth_error (hd [] (t_rows t)) 1 = Some (VStr "30%") /\
  nth_error (hd [] (t_rows (snd (load T t n)))) 1 = Some (VNum 0.3%float) /\ drag_coef (pv_core v) = 0.3%float.
Proof.
  exists demo_lib, demo_table, 1%Z. assert (Q : bindR (fst (load demo_lib demo_table 1)) (fun r => Ok (drag_coef (pv_core (snd r)))) = Ok 0.3%float) by (vm_compute; reflexivity).
  apply bind_ok in Q as ((d & v) & A & Q). exists d, v. split; [exact A|]. split; [reflexivity|]. split; [vm_compute; reflexivity|]. cbn [snd] in Q. congruence.
Qed.
(** Also when no vehicle comes of it (here: 'no' is no truth value). *)
Theorem C106_failed_untouched_refuted : exists (T : texts float) (t : table float) (n : Z) (e : exn),
  fst (load T t n) = Err e /\ nth_error (nth 1 (t_rows t) []) 1 = Some (VStr "n") /\
  nth_error (nth 1 (t_rows (snd (load T t n))) []) 1 = Some (VNum 0.9%float).
Proof. exists demo_lib, demo_table, 2%Z, TypeError. repeat split; vm_compute; reflexivity. Qed.
Example C106_run :
  let show r := match r with Ok (_, v) => Some (drag_coef (pv_core v), pv_scenario v, pv_selection v) | Err _ => None end in
  map (fun n => show (fst (load demo_lib (after_loads demo_lib demo_table [1; 2; 1; 3]%Z) n))) [1; 3]%Z = [Some (0.3%float, "2016 demo hybrid"%string, 1%Z); None].
Proof. vm_compute. reflexivity. Qed.
(** A table and texts that meet the conditions. *)
Definition small_table : table R := mktable ["selection"; "Scenario name"; "drag_coef"; "stop_start"]%string
  [[VInt 1; VStr "2012 Ford"; VStr "30%"; VStr "TRUE"]; [VNum 2; VStr "2016 VW"; VNum 0.5; VStr "no"]]%string.
Definition small_texts : texts R := mktexts
  (fun s => if String.eqb s "30" then Some 30 else if String.eqb s "0.3" then Some (30 / 100) else if String.eqb s "1" then Some 1
            else if String.eqb s "2" then Some 2 else if String.eqb s "0.5" then Some 0.5 else None)
  (fun _ => None) (fun _ => NotLiteral)
  (fun v => match v with
            | VNum x => if Reqb x 2 then "2" else if Reqb x 1 then "1" else if Reqb x 0.5 then "0.5" else "0.3"
            | VInt _ => "1" | VBool true => "True" | _ => "False" end)%string.
Lemma plain_digit s : match s with String c EmptyString => (Ascii.eqb c "1" || Ascii.eqb c "2")%bool | _ => (String.eqb s "0.5" || String.eqb s "0.3")%bool end = true -> plain s.
Proof.
  intros H. assert (Q : s = "1"%string \/ s = "2"%string \/ s = "0.5"%string \/ s = "0.3"%string).
  { destruct s as [|c [|c' r]]; [discriminate| |].
    - apply orb_prop in H as [H|H]; apply Ascii.eqb_eq in H; subst; tauto.
    - apply orb_prop in H as [H|H]; apply String.eqb_eq in H; rewrite H; tauto. }
  assert (NM : forall w s, proper w -> contains (lower_word w) s = false -> ~ mentions w s) by (intros w u P C M; apply (contains_spec _ _ P) in M; congruence).
  split; [|split].
  - intros P. apply percent_spec in P. destruct Q as [->|[->|[->| ->]]]; discriminate.
  - apply NM; [exact true_proper|]. destruct Q as [->|[->|[->| ->]]]; reflexivity.
  - apply NM; [exact false_proper|]. destruct Q as [->|[->|[->| ->]]]; reflexivity.
Qed.
Example C106_case : vehicle_table small_table /\ round_trip small_texts small_table.
Proof.
  assert (L : forall x : R, Reqb x x = true) by (intros; apply Reqb_same).
  assert (P : forall x, x = 2 \/ x = 1 \/ x = 0.5 \/ x = 30 / 100 -> prints_as small_texts (VNum x) x).
  { intros x H. unfold prints_as. cbn [show small_texts to_float]. destruct (Reqb_spec x 2) as [->|N1]; [split; [apply plain_digit; reflexivity|reflexivity]|].
    destruct (Reqb_spec x 1) as [->|N2]; [split; [apply plain_digit; reflexivity|reflexivity]|]. destruct (Reqb_spec x 0.5) as [->|N3]; [split; [apply plain_digit; reflexivity|reflexivity]|].
    destruct H as [H|[H|[H| ->]]]; [contradiction| contradiction| contradiction|]. split; [apply plain_digit; reflexivity|reflexivity]. }
  split.
  - split.
    + cbn. repeat constructor; cbn; intuition discriminate.
    + intros cells [<-|[<-|[]]]; reflexivity.
    + intros cells [<-|[<-|[]]]; [exists 1%Z; left; exists 0%nat; auto|exists 2%Z; right; exists 0%nat; auto].
  - assert (S : forall cells w, In cells (t_rows small_table) -> cell_at small_table cells "selection" w -> w = VInt 1 \/ w = VNum 2).
    { intros cells w I (j & A & B). cbn in A. destruct j as [|[|[|[|[|j]]]]]; try discriminate. cbn in I, B. destruct I as [<-|[<-|[]]]; cbn in B; injection B as <-; auto. }
    split; try reflexivity.
    + intros cells w x I J K. apply P.
      assert (K' : let s := match w with VStr s => s | _ => show small_texts w end in
        to_float small_texts s = Some x \/ contains "%" s = true /\ exists y, to_float small_texts (without "%" s) = Some y /\ x = y / 100).
      { unfold cell_number in K. cbn zeta in K |- *. destruct K as [K|(u & y & HP & NP & K & E)]; [left; exact K|right]. apply no_percent_fun in NP. subst u. split; [now apply percent_spec|]. eauto. }
      clear K. assert (S5 : show small_texts (VNum 0.5) = "0.5"%string). { cbn. destruct (Reqb_spec 0.5 2); [lra|]. destruct (Reqb_spec 0.5 1); [lra|]. now rewrite L. }
      assert (S2 : show small_texts (VNum 2) = "2"%string) by (cbn; now rewrite L).
      cbn [In small_table t_rows] in I, J. destruct I as [<-|[<-|[]]]; cbn [In] in J; repeat (destruct J as [<-|J]); try contradiction; cbn zeta iota in K'; rewrite ?S5, ?S2 in K';
        destruct K' as [K|(H & y & K & E)]; try discriminate; cbn in K; injection K as <-; rewrite ?E; tauto.
    + intros cells k I A. destruct (S cells _ I A) as [E|E]; [|discriminate]. injection E as ->. split; [apply plain_digit; reflexivity|reflexivity].
    + intros cells k I A. destruct (S cells _ I A) as [E|E]; [discriminate|]. injection E as E. rewrite E. apply P. tauto.
Qed.

(** *** C107: the order of columns and entries, and vehicle files *)
(** Columns in another order give the same vehicle (unless two of them are for the same parameter, see C81_values). *)
Theorem C107_columns : forall (F : Type) (N : Num F) (T : texts F) (row row' d : pydict F) (v : pyveh F), Permutation row row' ->
  NoDup (map (fun e => column_key (fst e)) row) -> from_row T row = Ok (d, v) -> exists d', from_row T row' = Ok (d', v).
Proof. intros F N T. exact (row_order T). Qed.
(** So do the entries of a dict. *)
Theorem C107_entries : forall (F : Type) (N : Num F) (T : texts F) (d e d' : pydict F) (v : pyveh F), Permutation d e ->
  NoDup (map fst d) -> from_dict T d = Ok (d', v) -> exists e', from_dict T e = Ok (e', v).
Proof. intros F N T. exact (dict_order T). Qed.
(** The number of a vehicle is stored and nothing else depends on it. *)
Theorem C107_number : forall (F : Type) (N : Num F) (T : texts F) (d d' : pydict F) (v : pyveh F) (n : Z), NoDup (map fst d) ->
  from_dict T d = Ok (d', v) -> exists d'' w, from_dict T (pset d "selection" (VInt n)) = Ok (d'', w) /\ renumbered v w n.
Proof.
  intros F N T d d' v n ND D. destruct (from_dict_deq T d (pset d "selection" (VInt n)) d' v (VInt n) n) as (e & E); auto.
  - split; [|split; [exact ND|now apply pset_nodup]]. intros k K. now rewrite pget_other by congruence.
  - apply pget_same.
  - eexists. eexists. split; [exact E|reflexivity].
Qed.
(** A file with the parameters of one vehicle gives the vehicle that a database row with the same cells gives, with number 0. *)
Theorem C107_file : forall (T : texts R) (lines : pydict R) (b : pyval R) (d : pydict R) (v : pyveh R),
  NoDup (map (fun e => column_key (fst e)) (("selection"%string, b) :: lines)) -> prints_as T (VNum 0) 0 ->
  from_row T (("selection"%string, b) :: lines) = Ok (d, v) -> exists d' w, from_file T lines = Ok (d', w) /\ renumbered v w 0.
Proof.
  intros T lines b d v ND P0 HR. assert (NS : pget lines "selection" = None).
  { destruct (pget lines "selection") as [w|] eqn:E; [|reflexivity]. apply pget_in in E. exfalso. cbn [map fst] in ND. inversion ND as [|? ? NI _]. apply NI.
    exact (in_map (fun e => column_key (fst e)) _ _ E). }
  assert (SR : single_row lines = lines ++ [("selection"%string, VNum 0)]).
  { unfold single_row. change (@n0 R RNum) with 0. clear - NS. induction lines as [|[k w] r IH]; [reflexivity|]. cbn [pget pset app] in *. destruct (String.eqb k "selection"); [discriminate|]. now rewrite IH. }
  assert (C0 : clean_data T (VNum 0) = VNum 0) by (apply prints_clean; [discriminate|exact P0]).
  assert (AC : forallb (fun e : string * pyval R => accepted (fst e)) (("selection"%string, b) :: lines) = true).
  { unfold from_row in HR. destruct (forallb _ _); [reflexivity|discriminate]. }
  assert (ACC : forallb (fun e : string * pyval R => accepted (fst e)) (single_row lines) = true).
  { rewrite SR, forallb_app. cbn [forallb fst] in AC |- *. rewrite (proj2 (andb_prop _ _ AC)). reflexivity. }
  destruct (from_row_deq T (("selection"%string, b) :: lines) (single_row lines) d v (VNum 0) 0%Z) as (d' & E); auto.
  - rewrite SR. unfold keys_of. rewrite map_app. eapply Permutation_NoDup; [|exact ND]. cbn [map fst]. apply Permutation_cons_append.
  - intros e E. rewrite SR. rewrite in_app_iff. cbn [In]. split.
    + intros [<-|I]; [now destruct E|auto].
    + intros [I|[<-|[]]]; [auto|now destruct E].
  - exists "selection"%string. split; [rewrite SR; apply in_or_app; right; now left|reflexivity].
  - rewrite C0. cbn [to_Z]. unfold is_nan, trunc. unR. rewrite Reqb_same. cbn [negb]. destruct (Rltb_spec 0 0); [lra|]. f_equal. apply (nfloor_R_unique 0 0). lra.
  - exists d'. eexists. split; [|reflexivity]. rewrite <- E. unfold from_file, load. cbn [t_cols t_rows].
    assert (MS : mem "selection" (map fst (single_row lines)) = true) by (apply mem_in; rewrite SR, map_app; apply in_or_app; right; now left).
    rewrite MS. cbn [negb].
    assert (AA : forallb accepted (map fst (single_row lines)) = true) by (rewrite forallb_forall in ACC |- *; intros c I; apply in_map_iff in I as (e & <- & I); now apply ACC).
    rewrite AA. cbn [negb]. unfold from_row. rewrite ACC. cbn [assertR bindR].
    assert (RO : row_of (map fst (single_row lines)) (map snd (single_row lines)) = single_row lines) by (clear; unfold row_of; induction (single_row lines) as [|[k w] r IH]; cbn; congruence).
    assert (CH : chosen (map fst (single_row lines)) 0 (map snd (single_row lines)) = true).
    { unfold chosen, label. rewrite RO. unfold single_row. rewrite pget_same. cbn [label_is]. unR. apply Reqb_same. }
    cbn [find]. rewrite CH. cbn [fst]. rewrite row_map, RO, keyed_clean. reflexivity.
Qed.
Example C107_run :
  let seen r := match r with Ok (_, v) => Some (drag_coef (pv_core v), pv_scenario v, pv_selection v) | Err _ => None end in
  let lines := ("drag coef", VStr "30%") :: ("stopStart", VStr "false") :: demo_cells in
  let T := mktexts (fun s => if String.eqb s "0" then Some 0%float else to_float demo_lib s) (to_int demo_lib) (to_literal demo_lib)
    (fun v => match v with VNum x => if PrimFloat.eqb x 0 then "0" else show demo_lib v | _ => show demo_lib v end)%string in
  seen (from_file T lines) = Some (0.3%float, "2016 demo hybrid"%string, 0%Z) /\
  seen (from_row T (lines ++ [("Selection"%string, VInt 2)])) = Some (0.3%float, "2016 demo hybrid"%string, 2%Z) /\
  seen (from_row T (("Selection"%string, VInt 2) :: rev lines)) = Some (0.3%float, "2016 demo hybrid"%string, 2%Z).
Proof. vm_compute. repeat split. Qed.
Example C107_case : forall T : texts R, exists d' v, from_dict T (demo_dict (F := R)) = Ok (d', v) /\ NoDup (map fst (demo_dict (F := R))).
Proof.
  intros T. destruct (C79_case T) as (d' & v & A & _). exists d', v. split; [exact A|].
  assert (Q : forall l, (fix nd (l : list string) := match l with [] => true | x :: r => (negb (mem x r) && nd r)%bool end) l = true -> NoDup l).
  { induction l as [|x l IH]; [constructor|]. intros H. apply andb_prop in H as (H1 & H2). constructor; [|now apply IH]. intros I. apply mem_in in I. rewrite I in H1. discriminate. }
  apply Q. vm_compute. reflexivity.
Qed.

(** *** C108: vehicles with the old attribute names *)
(** The names: no two attributes share an old name, and no old name belongs to another attribute as its new name. *)
Theorem C108_names : NoDup (map fst new_to_old) /\ NoDup (map snd new_to_old) /\
  (forall new old new', In (new, old) new_to_old -> In (old, new') new_to_old -> new = old).
Proof.
  assert (Q : forall l, (fix nd (l : list string) := match l with [] => true | x :: r => (negb (mem x r) && nd r)%bool end) l = true -> NoDup l).
  { induction l as [|x l IH]; [constructor|]. intros H. apply andb_prop in H as (H1 & H2). constructor; [|now apply IH]. intros I. apply mem_in in I. rewrite I in H1. discriminate. }
  split; [apply Q; vm_compute; reflexivity|]. split; [apply Q; vm_compute; reflexivity|]. intros new old new' A B.
  assert (C : forallb (fun e => (String.eqb (fst e) (snd e) || negb (mem (snd e) (map fst new_to_old)))%bool) new_to_old = true) by (vm_compute; reflexivity).
  rewrite forallb_forall in C. specialize (C _ A). cbn [fst snd] in C. apply orb_prop in C as [C|C]; [now apply String.eqb_eq|].
  apply (in_map fst) in B. cbn [fst] in B. apply mem_in in B. rewrite B in C. discriminate.
Qed.
(** The object with the old names: one attribute for each of the names, with the value of the vehicle. *)
Lemma legacy_loop_ok {F} (attrs acc : pydict F) names : (forall new old, In (new, old) names -> pget attrs new <> None) -> NoDup (map snd names) ->
  exists l, legacy_loop attrs acc names = Ok l /\ (forall new old, In (new, old) names -> pget l old = pget attrs new) /\
    (forall k, ~ In k (map snd names) -> pget l k = pget acc k) /\ (forall k, In k (map fst l) <-> In k (map fst acc) \/ In k (map snd names)) /\
    (NoDup (map fst acc) -> NoDup (map fst l)).
Proof.
  revert acc. induction names as [|[new old] r IH]; intros acc H ND.
  - exists acc. cbn. split; [reflexivity|]. split; [intros ? ? []|]. split; [reflexivity|]. split; [intuition|auto].
  - cbn [legacy_loop]. destruct (pget attrs new) as [w|] eqn:W; [|exfalso; apply (H new old); [now left|exact W]].
    cbn [map snd] in ND. inversion ND as [|? ? NI ND']. subst.
    destruct (IH (pset acc old w)) as (l & L1 & L2 & L3 & L4 & L5); [intros n o I; apply (H n o); now right|exact ND'|].
    exists l. split; [exact L1|]. split; [|split; [|split]].
    + intros n o [I|I]; [|now apply L2]. injection I as <- <-. rewrite (L3 old NI), pget_same. congruence.
    + intros k K. cbn [map snd In] in K. rewrite L3 by tauto. apply pget_other. intros E. apply K. now left.
    + intros k. rewrite L4, pset_keys. cbn [map snd In]. intuition.
    + intros A. apply L5. now apply pset_nodup.
Qed.
Theorem C108_attributes : forall (F : Type) (N : Num F) (v : pyveh F), length (pv_vals v) = 18%nat ->
  exists l, LegacyVehicle (object_attrs v) = Ok l /\ NoDup (map fst l) /\ (forall k, In k (map fst l) <-> In k (map snd new_to_old)) /\
    forall new old, In (new, old) new_to_old -> exists w, pget (object_attrs v) new = Some w /\ pget l old = Some w.
Proof.
  intros F N v L. assert (H : forall new old, In (new, old) new_to_old -> pget (object_attrs v) new <> None).
  { intros new old I E. assert (K : In new (map fst (object_attrs v))).
    { destruct v as [c sc se ye te wh vals rho afr]. cbn [pv_vals] in L.
      destruct (explode18 _ L) as (x1 & x2 & x3 & x4 & x5 & x6 & x7 & x8 & x9 & x10 & x11 & x12 & x13 & x14 & x15 & x16 & x17 & x18 & ->).
      apply (in_map fst) in I. cbn [fst] in I. apply mem_in.
      match goal with |- mem _ ?ks = true => assert (Q : forallb (fun k => mem k ks) (map fst new_to_old) = true) by (vm_compute; reflexivity) end.
      rewrite forallb_forall in Q. exact (Q _ I). }
    clear - K E. induction (object_attrs v) as [|[k w] r IH]; [destruct K|]. cbn [pget map fst In] in *. destruct (String.eqb_spec k new); [discriminate|]. destruct K; [contradiction|]. now apply IH. }
  destruct (legacy_loop_ok (object_attrs v) [] new_to_old H (proj1 (proj2 C108_names))) as (l & L1 & L2 & _ & L4 & L5).
  exists l. split; [exact L1|]. split; [apply L5; constructor|]. split; [intros k; rewrite L4; split; [intros [[]|K]; exact K|auto]|].
  intros new old I. specialize (L2 new old I). specialize (H new old I). destruct (pget (object_attrs v) new) as [w|]; [eauto|contradiction].
Qed.
(** It has everything a vehicle has. *)
Theorem C108_complete : forall (F : Type) (N : Num F) (v : pyveh F) (k : string) (w : pyval F), pget (object_attrs v) k = Some w -> exists old, In (k, old) new_to_old.
Proof.
  intros F N v k w H. apply pget_in in H. apply (in_map fst) in H. cbn [fst] in H. assert (M : mem k (map fst new_to_old) = true).
  { unfold object_attrs in H. rewrite map_app, map_map in H. cbn [fst] in H. apply in_app_or in H as [H|H].
    - unfold copy_dict in H. rewrite !map_app in H. apply in_app_or in H as [H|H]; [|apply in_app_or in H as [H|H]].
      + cbn [map fst In] in H. repeat (destruct H as [<-|H]; [reflexivity|]). destruct H.
      + rewrite map_map in H. cbn [fst] in H. apply in_map_iff in H as ((a & b) & <- & H). apply in_combine_l in H. cbn [fst].
        cbn [val_keys In] in H. repeat (destruct H as [<-|H]; [reflexivity|]). destruct H.
      + cbn [map fst In] in H. repeat (destruct H as [<-|H]; [reflexivity|]). destruct H.
    - cbn [map fst In] in H. repeat (destruct H as [<-|H]; [reflexivity|]). destruct H. }
  apply mem_in in M. apply in_map_iff in M as ((a & b) & <- & M). eauto.
Qed.
(** The attributes that are the same for all vehicles. *)
Theorem C108_constants : forall v : pyveh R, length (pv_vals v) = 18%nat ->
  pget (object_attrs v) "small_motor_power_kw" = Some (VNum (75/10)) /\ pget (object_attrs v) "large_motor_power_kw" = Some (VNum 75) /\
  pget (object_attrs v) "modern_max" = Some (VNum (95/100)) /\ pget (object_attrs v) "max_roadway_chg_kw" = Some (VArr [0; 0; 0; 0; 0; 0]) /\
  pget (object_attrs v) "small_baseline_eff" = Some (VArr (map (fun k => IZR k / 1000) [120; 160; 210; 290; 350; 420; 750; 920; 930; 930; 920]%Z)) /\
  pget (object_attrs v) "large_baseline_eff" = Some (VArr (map (fun k => IZR k / 1000) [830; 850; 870; 890; 900; 910; 930; 940; 940; 930; 920]%Z)).
Proof.
  intros v L. destruct v as [c sc se ye te wh vals rho afr]. cbn [pv_vals] in L.
  destruct (explode18 _ L) as (x1 & x2 & x3 & x4 & x5 & x6 & x7 & x8 & x9 & x10 & x11 & x12 & x13 & x14 & x15 & x16 & x17 & x18 & ->).
  repeat split; cbn -[lit percents modern_max large_baseline_eff small_baseline_eff]; unfold modern_max, large_baseline_eff, small_baseline_eff, percents; cbn [map]; rewrite ?lit_R; unR; reflexivity.
Qed.
(** copy_vehicle(veh, 'legacy') never gives one, and copy_vehicle of one fails. *)
Theorem C108_copy_to : forall (F : Type) (N : Num F) (v : pyveh F), copy_legacy v = Err AttributeError.
Proof. reflexivity. Qed.
Theorem C108_copy_of : forall (F : Type) (N : Num F) (v : pyveh F) (l : pydict F), LegacyVehicle (object_attrs v) = Ok l ->
  copy_reads l (map fst keys_and_types) = Err AttributeError.
Proof.
  intros F N v l H. assert (K : pget l "scenario_name" = None).
  { destruct (pget l "scenario_name") as [w|] eqn:E; [|reflexivity]. exfalso. apply pget_in, (in_map fst) in E. cbn [fst] in E.
    assert (Q : forall names acc, legacy_loop (object_attrs v) acc names = Ok l -> In "scenario_name"%string (map fst l) -> In "scenario_name"%string (map fst acc) \/ In "scenario_name"%string (map snd names)).
    { clear. induction names as [|[n o] r IH]; intros acc H I; cbn [legacy_loop] in H; [left; congruence|]. destruct (pget (object_attrs v) n); [|discriminate].
      destruct (IH _ H I) as [J|J]; [rewrite pset_keys in J; cbn [map snd In]; intuition|cbn [map snd In]; auto]. }
    destruct (Q _ _ H E) as [[]|J]. apply mem_in in J. discriminate. }
  assert (E : map fst keys_and_types = "scenario_name"%string :: tl (map fst keys_and_types)) by reflexivity. rewrite E. generalize (tl (map fst keys_and_types)). intros r.
  cbn [copy_reads]. change (mem "scenario_name" keys_to_remove) with false. cbn iota. now rewrite K.
Qed.
Example C108_run : match LegacyVehicle (object_attrs (F := float) demo_pv) with
  | Ok l => (pget l "dragCoef", pget l "Scenario_name", pget l "drag_coef", length l) = (Some (VNum (drag_coef (pv_core (demo_pv (F := float))))), Some (VStr "2016 demo hybrid"), None, 110%nat)
  | Err _ => False
  end.
Proof. vm_compute. reflexivity. Qed.
Example C108_case : length (pv_vals (demo_pv (F := R))) = 18%nat. Proof. reflexivity. Qed.
