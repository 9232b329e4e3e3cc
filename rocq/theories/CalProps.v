(** Calibration: errors of models against test data (C96), parameters and the table of results (C97). *)
From Coq Require Import Lia Permutation PrimFloat.
From Verif Require Import Num FloatNum Numpy ListFacts CycleModel FrameProofs UtilModel UtilSpec UtilProofs2 PrepSpec PrepProofs CalModel CalSpec CalProofs.
Local Open Scope R_scope.
Local Set Warnings "-inexact-float".

(** ** Models for the examples *)
(** A model is one number, the slope of its output over 0, 1, 2 s; it has the output only after it has run. *)
Section Demo.
  Context {F : Type} {N : Num F}.
  Local Open Scope num_scope.
  Definition demo_api : api F (F * option (list F)) (dict (list F)) F F := mkapi
    (fun s => Ok (fst s, Some [n0; fst s; n2 * fst s])) (fun _ => [n0; n1; n2])
    (fun s p => if String.eqb p "out" then match snd s with Some l => Ok (Array l) | None => Err AttributeError end
                else if String.eqb p "slope" then Ok (Scalar (fst s)) else Err AttributeError)
    (fun df k => match find (fun kv => String.eqb (fst kv) k) df with Some (_, l) => Ok l | None => Err KeyError end)
    (fun j => Ok (j, None))
    (fun s d => match find (fun kv => String.eqb (fst kv) "slope") d with Some (_, x) => Ok (x, None) | None => Ok s end)
    (fun s => Ok s).
  (** Two trips, on which slopes of 1 and 2 were measured. *)
  Definition demo_dfs : dict (dict (list F)) := [("a", [("meas", [n0; n1; n2])]); ("b", [("meas", [n0; n2; n2 + n2])])]%string.
  Definition demo_mo (os : list objective) : model_objectives (dict (list F)) F := mkmo [("a", n1); ("b", n1)]%string demo_dfs os ["slope"%string].
End Demo.
Definition demo_obj : objective := ("out", [Some "meas"])%string.

Lemma one_path : NoDup (map fst (mo_objs (demo_mo (F := R) [demo_obj]))).
Proof. constructor; [intros []|constructor]. Qed.
Lemma two_keys : NoDup (map fst (demo_dfs (F := R))).
Proof. constructor; [intros [C|[]]; discriminate|constructor; [intros []|constructor]]. Qed.
Lemma demo_referenced : referenced demo_obj.
Proof. exists "out"%string, "meas"%string. split; [reflexivity|discriminate]. Qed.
Lemma demo_error (a a' b b' z z' : R) : z = 0 -> a' = 2 * a -> z' = 0 -> b' = 2 * b ->
  error_is demo_api (a, Some [z; a; a']) [("meas"%string, [z'; b; b'])] "out" "meas" (Rabs (a - b)).
Proof.
  intros -> -> -> ->. exists [0; a; 2 * a], [0; b; 2 * b]. split; [reflexivity|]. split; [reflexivity|].
  change (times demo_api (a, Some [0; a; 2 * a])) with [0; 1; 2]. rewrite error_value by (reflexivity || discriminate). f_equal.
  cbn [area gaps map combine fst snd last hd]. replace (2 * a - 2 * b) with (2 * (a - b)) by lra. replace (0 - 0) with 0 by lra. rewrite Rabs_R0, Rabs_mult, (Rabs_pos_eq 2) by lra. field.
Qed.

(** ** C96: errors *)
(** If all objectives name a column, the result has, trip by trip in the order of the tables, under the table's key and the
    objectives' paths, the errors of the simulation in the same place, run anew, against the table's columns; and the call
    succeeds exactly if all of these can be had. *)
Theorem C96_errors : forall F (N : Num F) S D J X (A : api F S D J X) (m : model_objectives D J) (sims : dict S) e,
  NoDup (map fst (mo_objs m)) -> NoDup (map fst (mo_dfs m)) -> (forall o, In o (mo_objs m) -> referenced o) ->
  (get_errors A m sims = Ok e <-> Forall2 (trip_is A (mo_objs m)) (combine (mo_dfs m) sims) e).
Proof.
  intros F N S D J X A m sims e NO ND All. unfold get_errors. rewrite combine_map_r. split.
  - intros H. apply trips_ok in H; [|exact NO|apply (keys_nodup (mo_dfs m) sims ND)]. destruct H as (e' & -> & H). cbn [app].
    clear - H All. induction H as [|t x l e' (os' & K & T) H IH]; constructor; [|exact IH]. now rewrite (keeps_all _ _ _ All K) in T.
  - intros H. apply (trips_all A _ _ _ NO H [] None). apply (keys_nodup (mo_dfs m) sims ND).
Qed.
(** In general an objective that names no column leaves no entry. *)
Theorem C96_recorded : forall F (N : Num F) S D J X (A : api F S D J X) (m : model_objectives D J) (sims : dict S) e,
  NoDup (map fst (mo_objs m)) -> NoDup (map fst (mo_dfs m)) -> get_errors A m sims = Ok e ->
  Forall2 (fun t x => exists os', keeps referenced (mo_objs m) os' /\ trip_is A os' t x) (combine (mo_dfs m) sims) e.
Proof.
  intros F N S D J X A m sims e NO ND H. unfold get_errors in H. rewrite combine_map_r in H.
  apply trips_ok in H; [|exact NO|apply (keys_nodup (mo_dfs m) sims ND)]. destruct H as (e' & -> & H). exact H.
Qed.
(** And if it is the first, nothing can be computed at all, though such objectives are documented. *)
Theorem C96_first_unreferenced : forall F (N : Num F) S D J X (A : api F S D J X) (m : model_objectives D J) (sims : dict S) o os kd dfs ks s' v,
  mo_objs m = o :: os -> (length (snd o) <= 1)%nat -> ~ referenced o -> mo_dfs m = kd :: dfs -> hd_error sims = Some ks ->
  simulate A (snd ks) = Ok s' -> signal A s' (fst o) = Ok v -> get_errors A m sims = Err UnboundLocalError.
Proof.
  intros F N S D J X A m sims o os [k df] dfs ks s' v Ho L No Hd Hs Hr Hv. destruct sims as [|ks' sims]; [discriminate|]. injection Hs as ->.
  unfold get_errors. rewrite Hd, Ho. cbn [map combine trips]. rewrite Hr. cbn [bindR objectives]. unfold one_objective.
  apply Nat.leb_le in L. rewrite L. cbn [assertR bindR]. rewrite Hv. cbn [bindR]. pose proof (given_spec o) as G.
  destruct (match snd o with r :: _ => given r | [] => None end) as [r|]; [|reflexivity]. exfalso. apply No. apply Nat.leb_le in L. exists (fst o), r. auto.
Qed.
(** Objectives with more than one column are refused, before their values are read. *)
Theorem C96_too_long : forall F (N : Num F) S D J X (A : api F S D J X) (m : model_objectives D J) (sims : dict S) e o,
  mo_dfs m <> [] -> sims <> [] -> In o (mo_objs m) -> (1 < length (snd o))%nat -> get_errors A m sims <> Ok e.
Proof.
  intros F N S D J X A m sims e o Hd Hs I L H. unfold get_errors in H. destruct (mo_dfs m) as [|[k df] dfs]; [congruence|]. destruct sims as [|ks sims]; [congruence|].
  cbn [map combine trips] in H. apply bind_ok in H as (s' & _ & H). apply bind_ok in H as (st & H & _). clear - I L H.
  revert H. generalize ((@nil (string * F), @None (list F)) : dict F * option (list F)). induction (mo_objs m) as [|o' os IH]; [destruct I|].
  intros acc H. cbn [objectives] in H. apply bind_ok in H as (acc' & H1 & H). destruct I as [->|I]; [|eapply IH; eauto].
  unfold one_objective in H1. apply bind_ok in H1 as (u & H1 & _). unfold assertR in H1. destruct (Nat.leb_spec (length (snd o)) 1); [lia|discriminate].
Qed.
(** If tables and simulations come in the same order of keys, each table is compared with the simulation of its key. *)
Theorem C96_paired : forall F (N : Num F) S D J X (A : api F S D J X) (m : model_objectives D J) (sims : dict S) e k df s,
  NoDup (map fst (mo_objs m)) -> NoDup (map fst (mo_dfs m)) -> (forall o, In o (mo_objs m) -> referenced o) ->
  map fst (mo_dfs m) = map fst sims -> get_errors A m sims = Ok e -> In (k, df) (mo_dfs m) -> In (k, s) sims ->
  map fst e = map fst (mo_dfs m) /\ exists s' ek, In (k, ek) e /\ simulate A s = Ok s' /\ errors_are A s' df (mo_objs m) ek.
Proof.
  intros F N S D J X A m sims e k df s NO ND All Ks H Hd Hs. apply C96_errors in H; auto. clear NO All.
  revert Ks ND Hd Hs H. generalize (mo_dfs m) as dfs. intros dfs. revert sims e. induction dfs as [|[k1 d1] dfs IH]; intros [|[k2 s2] sims] e Ks ND Hd Hs H; try discriminate; [destruct Hd|].
  cbn [map fst combine] in *. injection Ks as <- Ks. inversion ND as [|? ? Nk ND']; subst. inversion H as [|? [k3 e3] ? e' (E & s' & R1 & R2) H' E1 E2]; subst. cbn [fst snd] in *. subst k3.
  assert (G : forall dfs sims (e : dict (dict F)), map fst dfs = map fst sims -> Forall2 (trip_is A (mo_objs m)) (combine dfs sims) e -> map fst e = map fst dfs).
  { clear. induction dfs as [|[k d] dfs IH]; intros [|[k2 s2] sims] e Ks H; cbn [map fst combine] in *; try discriminate; inversion H as [|? [k3 e3] ? e' (E & _) H']; subst; [reflexivity|].
    cbn [map fst] in *. f_equal; [exact E|]. eapply IH; eauto. congruence. }
  split; [cbn [map fst]; f_equal; eapply G; eauto|].
  destruct Hd as [Hd|Hd].
  - injection Hd as <- <-. destruct Hs as [Hs|Hs].
    + injection Hs as <-. exists s', e3. split; [now left|]. auto.
    + exfalso. apply Nk. rewrite Ks. now apply (in_map fst) in Hs.
  - destruct Hs as [Hs|Hs].
    + injection Hs as <- _. exfalso. apply Nk. now apply (in_map fst) in Hd.
    + destruct (IH sims e' Ks ND' Hd Hs H') as (_ & s3 & ek & I & Q). exists s3, ek. split; [now right|exact Q].
Qed.
(** It is false without the condition on the order: keys are not looked at, and models that are exactly right get errors. *)
Theorem C96_pairing_refuted : exists (m : model_objectives (dict (list R)) R) (sims : dict (R * option (list R))) e k df s ek x,
  NoDup (map fst (mo_dfs m)) /\ Permutation (map fst (mo_dfs m)) (map fst sims) /\ get_errors demo_api m sims = Ok e /\
  In (k, df) (mo_dfs m) /\ In (k, s) sims /\ In (k, ek) e /\ In ("out"%string, x) ek /\
  (exists s', simulate demo_api s = Ok s' /\ error_is demo_api s' df "out" "meas" 0) /\ x <> 0.
Proof.
  set (sims := [("b"%string, (2, None)); ("a"%string, (1, @None (list R)))]).
  assert (E : get_errors demo_api (demo_mo [demo_obj]) sims = Ok [("a"%string, [("out"%string, Rabs (2 - 1))]); ("b"%string, [("out"%string, Rabs (1 - 2))])]).
  { apply C96_errors; [apply one_path|apply two_keys|intros o [<-|[]]; apply demo_referenced|].
    repeat constructor; cbn [fst snd]; eexists; (split; [reflexivity|]); (constructor; [|constructor]); exists "meas"%string;
      (split; [split; [reflexivity|discriminate]|]); cbn [fst snd]; apply demo_error; change (@n2 R RNum) with 2; unR; lra. }
  exists (demo_mo [demo_obj]), sims, [("a"%string, [("out"%string, Rabs (2 - 1))]); ("b"%string, [("out"%string, Rabs (1 - 2))])],
    "a"%string, [("meas"%string, [0; 1; 2])], (1, None), [("out"%string, Rabs (2 - 1))], (Rabs (2 - 1)).
  split; [apply two_keys|]. split; [apply perm_swap|]. split; [exact E|]. split; [now left|]. split; [right; now left|]. split; [now left|]. split; [now left|]. split.
  - eexists. split; [reflexivity|]. match goal with |- error_is ?A ?s ?d ?p ?r _ => assert (Z : error_is A s d p r (Rabs (1 - 1))) end.
    { cbn [fst]. apply demo_error; change (@n2 R RNum) with 2; unR; lra. }
    replace (Rabs (1 - 1)) with 0 in Z by (replace (1 - 1) with 0 by lra; symmetry; apply Rabs_R0). exact Z.
  - rewrite Rabs_pos_eq by lra. lra.
Qed.
(** The hypotheses of C96_errors and C96_paired can be met. *)
Example C96_case : exists e, get_errors demo_api (demo_mo [demo_obj]) [("a"%string, (1, None)); ("b"%string, (3, None))] = Ok e /\
  e = [("a"%string, [("out"%string, Rabs (1 - 1))]); ("b"%string, [("out"%string, Rabs (3 - 2))])].
Proof.
  eexists. split; [|reflexivity]. apply C96_errors; [apply one_path|apply two_keys|intros o [<-|[]]; apply demo_referenced|].
  repeat constructor; cbn [fst snd]; eexists; (split; [reflexivity|]); (constructor; [|constructor]); exists "meas"%string;
    (split; [split; [reflexivity|discriminate]|]); cbn [fst snd]; apply demo_error; change (@n2 R RNum) with 2; unR; lra.
Qed.
Example C96_run : let sims := [("a", (1, None)); ("b", (3, None))]%string%float in
  get_errors demo_api (demo_mo [demo_obj]) sims = Ok [("a", [("out", 0)]); ("b", [("out", 1)])]%string%float /\
  get_errors demo_api (demo_mo [demo_obj; ("slope", [])]) sims = Ok [("a", [("out", 0)]); ("b", [("out", 1)])]%string%float /\
  get_errors demo_api (demo_mo [("slope", []); demo_obj])%string sims = Err UnboundLocalError /\
  get_errors demo_api (demo_mo [("slope", [Some "meas"])])%string sims = Err TypeError /\
  get_errors demo_api (demo_mo [("out", [Some "other"])])%string sims = Err KeyError /\
  get_errors demo_api (demo_mo [("out", [Some "meas"; Some "meas"])])%string sims = Err AssertionError.
Proof. vm_compute. repeat split. Qed.

(** ** C97: parameters and results *)
(** Every model is read anew, gets the parameter values (the last one if a parameter is listed twice) and its derived values,
    and keeps its key; this succeeds exactly if there are as many values as parameters and each step succeeds. *)
Theorem C97_parameters : forall F S D J X (A : api F S D J X) (m : model_objectives D J) (xs : list X), exists d,
  last_values (mo_params m) xs d /\ (NoDup (mo_params m) -> d = combine (mo_params m) xs) /\
  forall sims, update_params A m xs = Ok sims <->
    length xs = length (mo_params m) /\
    Forall2 (fun kj ks => fst ks = fst kj /\ model_with A (snd kj) d (snd ks)) (mo_models m) sims.
Proof.
  intros F S D J X A m xs. exists (dict_zip (mo_params m) xs). split; [apply zip_fold|]. split; [apply zip_distinct|]. apply update_ok.
Qed.
(** A wrong number of values or bounds is an AssertionError. *)
Theorem C97_counts : forall F S D J X (A : api F S D J X) (m : model_objectives D J),
  (forall xs : list X, length xs <> length (mo_params m) -> update_params A m xs = Err AssertionError) /\
  (forall bounds : list (F * F), length bounds <> length (mo_params m) -> problem_init m bounds = Err AssertionError) /\
  (forall bounds : list (F * F), length bounds = length (mo_params m) -> problem_init m bounds = Ok (map fst bounds, map snd bounds)) /\
  (length (mo_dfs m) <> length (mo_models m) -> post_init m = Err AssertionError).
Proof.
  intros F S D J X A m. unfold update_params, problem_init, post_init.
  split; [|split; [|split]]; intros; try (destruct (Nat.eqb_spec (length xs) (length (mo_params m)))); try (destruct (Nat.eqb_spec (length bounds) (length (mo_params m))));
    try (destruct (Nat.eqb_spec (length (mo_dfs m)) (length (mo_models m)))); try contradiction; reflexivity.
Qed.
(** Bounds in the wrong order are not noticed. *)
Theorem C97_bounds_ordered_refuted : exists (m : model_objectives (dict (list R)) R) bounds xl xu,
  problem_init m bounds = Ok (xl, xu) /\ ~ Forall2 Rle xl xu.
Proof.
  exists (demo_mo [demo_obj]), [(2, 1)], [2], [1]. split; [reflexivity|]. intros C. inversion C; subst. lra.
Qed.
(** If all objectives name columns and each table has its model, the evaluation gives as many values as the optimiser was told
    to expect, and in the table of results the column named by a table's key and an objective's path has that error; the
    last column is the root of the sum of the squares. *)
Theorem C97_results : forall S D J X (A : api R S D J X) (m : model_objectives D J) (xs : list X) values n,
  NoDup (map fst (mo_objs m)) -> NoDup (map fst (mo_dfs m)) -> (forall o, In o (mo_objs m) -> referenced o) ->
  post_init m = Ok n -> evaluate A m xs = Ok values ->
  length values = n /\
  exists sims e, update_params A m xs = Ok sims /\ get_errors A m sims = Ok e /\ map fst e = map fst (mo_dfs m) /\
    result_row m values = Ok (List.concat (map (fun t => map (fun px => ((fst t, fst px), snd px)) (snd t)) e),
                              sqrt (Rsum (map (fun x => x * x) values))).
Proof.
  intros S D J X A m xs values n NO ND All Hn H. apply bind_ok in H as (sims & U & H). apply bind_ok in H as (e & G & H). injection H as <-.
  unfold post_init, assertR in Hn. destruct (Nat.eqb_spec (length (mo_dfs m)) (length (mo_models m))) as [L|]; [|discriminate]. cbn [bindR] in Hn. injection Hn as <-.
  pose proof (proj1 (C96_errors R RNum S D J X A m sims e NO ND All) G) as T. pose proof (proj1 (update_ok A m xs sims) U) as (_ & Ms).
  apply F2_length in Ms. assert (Ls : length sims = length (mo_dfs m)) by congruence.
  assert (Cd : mo_dfs m = map fst (combine (mo_dfs m) sims)).
  { clear - Ls. revert Ls. generalize (mo_dfs m). intros l. revert sims. induction l as [|x l IH]; intros [|y s] L; cbn in *; try discriminate; [reflexivity|]. rewrite <- IH by lia. reflexivity. }
  assert (F2 : Forall2 (fun t e => fst e = fst t /\ map fst (snd e) = map fst (mo_objs m)) (map fst (combine (mo_dfs m) sims)) e).
  { clear - T. induction T as [|t x l e (K & s' & _ & E) T IH]; cbn [map]; constructor; auto. split; [exact K|]. now apply errors_paths in E. }
  pose proof (aligned (mo_objs m) (mo_dfs m) (combine (mo_dfs m) sims) e F2 Cd) as (Al & Len).
  match type of Al with combine _ ?v = ?w => change (combine (f_columns m) v = w) in Al; change (length v = length (f_columns m)) in Len end.
  assert (Lf : length (f_columns m) = (length (mo_models m) * length (mo_objs m))%nat).
  { rewrite <- L. unfold f_columns. clear. induction (mo_dfs m) as [|x l IH]; cbn [map List.concat length]; [reflexivity|]. rewrite app_length, map_length, IH. reflexivity. }
  split; [rewrite Len, Lf; reflexivity|]. exists sims, e. split; [exact U|]. split; [exact G|]. split.
  - rewrite <- Cd in F2. clear - F2. induction F2 as [|t x l e (K & _) F2 IH]; cbn [map]; [reflexivity|]. f_equal; [exact K|exact IH].
  - unfold result_row. rewrite Len, Nat.eqb_refl, Al. rewrite nsum_Rsum. reflexivity.
Qed.
(** The last column bounds every error, and is zero exactly if all are. *)
Theorem C97_euclidean : forall (D J : Type) (m : model_objectives D J) (values : list R) row e,
  result_row m values = Ok (row, e) -> map snd row = values /\ map fst row = f_columns m /\ 0 <= e /\ (forall x, In x values -> Rabs x <= e) /\
  (e = 0 <-> forall x, In x values -> x = 0).
Proof.
  intros D J m values row e H. unfold result_row in H. destruct (Nat.eqb_spec (length values) (length (f_columns m))) as [L|]; [|discriminate].
  rewrite nsum_Rsum in H. assert (row = combine (f_columns m) values /\ e = sqrt (Rsum (map (fun x => x * x) values))) as (-> & ->) by (split; [congruence|unfold nsq in H; unR; congruence]).
  clear H. split; [|split].
  - revert L. generalize (f_columns m). clear. induction values as [|x l IH]; intros [|y c] L; cbn in *; try discriminate; [reflexivity|]. rewrite IH by lia. reflexivity.
  - revert L. generalize (f_columns m). clear. induction values as [|x l IH]; intros [|y c] L; cbn in *; try discriminate; [reflexivity|]. rewrite IH by lia. reflexivity.
  - assert (P : 0 <= Rsum (map (fun x => x * x) values)). { clear. induction values as [|x l IH]; cbn [map]; [cbn; lra|]. rewrite Rsum_cons. nra. }
    assert (B : forall x, In x values -> x * x <= Rsum (map (fun x => x * x) values)).
    { clear. assert (P : forall l, 0 <= Rsum (map (fun x => x * x) l)) by (induction l as [|x l IH]; cbn [map]; [cbn; lra|]; rewrite Rsum_cons; nra).
      induction values as [|x l IH]; intros y []; cbn [map]; rewrite Rsum_cons; [subst; specialize (P l); lra|]. specialize (IH y H). nra. }
    split; [apply sqrt_pos|]. split.
    + intros x I. rewrite <- sqrt_Rsqr_abs. apply sqrt_le_1_alt. unfold Rsqr. now apply B.
    + split.
      * intros E x I. apply sqrt_eq_0 in E; [|exact P]. specialize (B x I). nra.
      * intros Z. replace (Rsum (map (fun x => x * x) values)) with 0; [apply sqrt_0|]. clear - Z. induction values as [|x l IH]; cbn [map]; [reflexivity|].
        rewrite Rsum_cons, <- IH by (intros; apply Z; now right). rewrite (Z x) by now left. lra.
Qed.
(** With an objective that names no column the values are too few and the table cannot be made. *)
Theorem C97_unreferenced : forall S D J X (A : api R S D J X) (m : model_objectives D J) (xs : list X) values n o,
  NoDup (map fst (mo_objs m)) -> NoDup (map fst (mo_dfs m)) -> In o (mo_objs m) -> ~ referenced o -> mo_dfs m <> [] ->
  post_init m = Ok n -> evaluate A m xs = Ok values -> (length values < n)%nat /\ result_row m values = Err ValueError.
Proof.
  intros S D J X A m xs values n o NO ND Io No Hd Hn H. apply bind_ok in H as (sims & U & H). apply bind_ok in H as (e & G & H). injection H as <-.
  unfold post_init, assertR in Hn. destruct (Nat.eqb_spec (length (mo_dfs m)) (length (mo_models m))) as [L|]; [|discriminate]. cbn [bindR] in Hn. injection Hn as <-.
  pose proof (C96_recorded R RNum S D J X A m sims e NO ND G) as T. pose proof (proj1 (update_ok A m xs sims) U) as (_ & Ms). apply F2_length in Ms.
  assert (Lc : length (combine (mo_dfs m) sims) = length (mo_models m)) by (rewrite combine_length; lia).
  assert (B : (length (List.concat (map (fun t => map snd (snd t)) e)) + length (combine (mo_dfs m) sims) <= length (combine (mo_dfs m) sims) * length (mo_objs m))%nat).
  { clear - T Io No. induction T as [|t x l e (os' & K & _ & s' & _ & E) T IH]; cbn [map List.concat length]; [lia|]. rewrite app_length, map_length.
    apply errors_paths in E. apply (f_equal (@length _)) in E. rewrite !map_length in E. pose proof (keeps_strict _ _ _ _ K Io No). unfold dict, objective in *. lia. }
  assert (Lf : length (f_columns m) = (length (mo_models m) * length (mo_objs m))%nat).
  { rewrite <- L. unfold f_columns. clear. induction (mo_dfs m) as [|x l IH]; cbn [map List.concat length]; [reflexivity|]. rewrite app_length, map_length, IH. reflexivity. }
  assert (Pos : (0 < length (mo_models m))%nat) by (rewrite <- L; destruct (mo_dfs m); [congruence|cbn; lia]).
  rewrite Lc in B. split; [lia|]. unfold result_row. destruct (Nat.eqb_spec (length (List.concat (map (fun t => map snd (snd t)) e))) (length (f_columns m))); [|reflexivity].
  exfalso. lia.
Qed.
Example C97_run :
  update_params demo_api (demo_mo [demo_obj]) [3%float] = Ok [("a", (3, None)); ("b", (3, None))]%string%float /\
  evaluate demo_api (demo_mo [demo_obj]) [5%float] = Ok [4; 3]%float /\
  result_row (demo_mo (F := float) [demo_obj]) [4; 3]%float = Ok ([(("a", "out"), 4); (("b", "out"), 3)]%string%float, 5%float) /\
  post_init (demo_mo (F := float) [demo_obj]) = Ok 2%nat /\
  evaluate demo_api (demo_mo [demo_obj; ("slope", [])])%string [5%float] = Ok [4; 3]%float /\
  result_row (demo_mo (F := float) [demo_obj; ("slope", [])])%string [4; 3]%float = Err ValueError /\
  post_init (demo_mo (F := float) [demo_obj; ("slope", [])])%string = Ok 4%nat.
Proof. vm_compute. repeat split. Qed.
Example C97_case : exists values, post_init (demo_mo (F := R) [demo_obj]) = Ok 2%nat /\ evaluate demo_api (demo_mo [demo_obj]) [5] = Ok values /\
  NoDup (map fst (mo_objs (demo_mo (F := R) [demo_obj]))) /\ NoDup (map fst (mo_dfs (demo_mo (F := R) [demo_obj]))) /\ (forall o, In o [demo_obj] -> referenced o).
Proof.
  eexists. split; [reflexivity|]. split; [|split; [apply one_path|split; [apply two_keys|intros o [<-|[]]; apply demo_referenced]]].
  unfold evaluate. replace (update_params demo_api (demo_mo (F := R) [demo_obj]) [5]) with (Ok [("a"%string, (5, @None (list R))); ("b"%string, (5, None))]) by reflexivity. cbn [bindR].
  replace (get_errors demo_api (demo_mo [demo_obj]) [("a"%string, (5, @None (list R))); ("b"%string, (5, None))]) with
    (Ok (A := dict (dict R)) [("a"%string, [("out"%string, Rabs (5 - 1))]); ("b"%string, [("out"%string, Rabs (5 - 2))])]); [reflexivity|].
  symmetry. apply C96_errors; [apply one_path|apply two_keys|intros o [<-|[]]; apply demo_referenced|].
  repeat constructor; cbn [fst snd]; eexists; (split; [reflexivity|]); (constructor; [|constructor]); exists "meas"%string;
    (split; [split; [reflexivity|discriminate]|]); cbn [fst snd]; apply demo_error; change (@n2 R RNum) with 2; unR; lra.
Qed.
