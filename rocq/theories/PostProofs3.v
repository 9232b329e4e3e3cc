(** Proofs for properties C41-C43: diagnostics, battery wear, SOC-corrected fuel. *)
From Coq Require Import Lia Ascii.
From Verif Require Import Num Numpy ListFacts CycleModel CycleSpec ConcatProofs RateProofs DistProofs VehModel SimModel SimState
  WalkModel FrameProofs WalkProofs StepProofs StepEqs SimSpec SimProofs1 SimProofs2 SimProofs3 SimProofs4 SimProofs5 SimProofs6
  WalkSpec WalkProofs2 PostModel PostSpec PostProofs PostProofs2.
Local Open Scope R_scope.

(** ** Names *)
(** All ways of splitting a name at a "_kw" that is not part of "_kwh". *)
Fixpoint kw_spots (s : string) : list (string * string) :=
  match s with
  | EmptyString => []
  | String c r =>
      (if (prefix "_kw" s && negb (prefix "_kwh" s))%bool then [(EmptyString, substring 3 (String.length s) s)] else [])
      ++ map (fun ab => (String c (fst ab), snd ab)) (kw_spots r)
  end.
Lemma substring_all s n : (String.length s <= n)%nat -> substring 0 n s = s.
Proof. revert n. induction s as [|c s IH]; intros [|n] H; cbn in *; auto; try lia. f_equal. apply IH. lia. Qed.
Lemma prefix_kw c b : prefix (String c EmptyString) b = false -> prefix (String "_" (String "k" (String "w" (String c EmptyString)))) ("_kw" ++ b) = false.
Proof. intros H. cbn. destruct b as [|c' b]; auto. Qed.
Lemma kw_spots_all a b : prefix "h" b = false -> In (a, b) (kw_spots (a ++ "_kw" ++ b)).
Proof.
  intros H. induction a as [|c a IH].
  - cbn [append kw_spots]. apply in_or_app. left.
    assert (P : prefix "_kwh" ("_kw" ++ b) = false) by (apply prefix_kw; auto). cbn [append] in P. rewrite P.
    assert (Q : prefix "_kw" (String "_" (String "k" (String "w" b))) = true) by (destruct b; reflexivity). rewrite Q.
    cbn [andb negb]. left. f_equal. cbn [substring String.length]. apply substring_all. lia.
  - change ((String c a ++ "_kw" ++ b)%string) with (String c (a ++ "_kw" ++ b)). cbn [kw_spots]. apply in_or_app. right.
    apply in_map_iff. exists (a, b). auto.
Qed.
Definition one_spot (s : string) : bool :=
  match kw_spots s, split_kw s with
  | [(a, b)], Some (a', b') => String.eqb a a' && String.eqb b b'
  | _, _ => false
  end.
Lemma one_spot_key name key sfx : one_spot name = true -> energy_name name key -> kj_key name sfx = Some (key ++ sfx)%string.
Proof.
  intros O (a & b & -> & P & ->). unfold one_spot in O. pose proof (kw_spots_all a b P) as I. unfold kj_key.
  destruct (kw_spots _) as [|[a1 b1] [|]]; try discriminate. destruct (split_kw _) as [[a2 b2]|]; [|discriminate].
  apply andb_true_iff in O as [O1 O2]. apply String.eqb_eq in O1, O2. subst. destruct I as [I|[]]. injection I as -> ->.
  f_equal. clear. induction a as [|c a IH]; [reflexivity|]. cbn [append]. f_equal. exact IH.
Qed.
Lemma names_one d : forallb (fun ch => one_spot (fst ch)) (kw_channels (F := R) d) = true.
Proof. vm_compute. reflexivity. Qed.

(** ** Dictionaries *)
Section Dict.
  Context {A : Type}.
  Lemma get_put_same k (x : A) l : dict_get k (dict_put k x l) = Some x.
  Proof. induction l as [|[k' x'] l IH]; cbn; [now rewrite String.eqb_refl|]. destruct (String.eqb k k') eqn:E; cbn; [now rewrite String.eqb_refl|now rewrite E]. Qed.
  Lemma get_put_other k k' (x : A) l : k <> k' -> dict_get k (dict_put k' x l) = dict_get k l.
  Proof.
    intros N. induction l as [|[k2 x2] l IH]; cbn.
    - destruct (String.eqb_spec k k'); [contradiction|reflexivity].
    - destruct (String.eqb_spec k' k2) as [->|]; cbn; destruct (String.eqb_spec k k2) as [E|E]; auto; try contradiction.
  Qed.
  Definition puts (es : list (string * A)) (out : list (string * A)) := fold_left (fun o e => dict_put (fst e) (snd e) o) es out.
  Lemma puts_other es k : ~ In k (map fst es) -> forall out, dict_get k (puts es out) = dict_get k out.
  Proof.
    induction es as [|[k' x] es IH]; intros N out; auto. cbn [puts fold_left]. cbn in N.
    unfold puts in IH. rewrite IH by tauto. apply get_put_other. intros ->. apply N. now left.
  Qed.
  Lemma puts_get es k x : NoDup (map fst es) -> In (k, x) es -> forall out, dict_get k (puts es out) = Some x.
  Proof.
    induction es as [|[k' x'] es IH]; intros N I out; [destruct I|]. cbn [puts fold_left]. inversion N; subst. fold (puts es).
    destruct I as [I|I].
    - injection I as -> ->. rewrite puts_other by assumption. apply get_put_same.
    - apply IH; auto.
  Qed.
End Dict.
Fixpoint nodupb (l : list string) : bool :=
  match l with [] => true | x :: r => (negb (existsb (String.eqb x) r) && nodupb r)%bool end.
Lemma nodupb_ok l : nodupb l = true -> NoDup l.
Proof.
  induction l as [|x l IH]; intros H; [constructor|]. cbn in H. apply andb_true_iff in H as [H1 H2]. constructor; auto.
  intros I. apply negb_true_iff in H1. rewrite <- not_true_iff_false in H1. apply H1. apply existsb_exists. exists x. split; auto. apply String.eqb_refl.
Qed.

(** ** The diagnostics as a sequence of dictionary writes *)
Section Diag.
  Variable d : sdrive R.
  Let ts := time_s (d_cyc d).
  Definition entries (ch : string * list R) : list (string * R) :=
    match kj_key (fst ch) "_pos", kj_key (fst ch) "_neg" with
    | Some p, Some n => [(p, trapz (map pos_part (snd ch)) ts); (n, trapz (map neg_part (snd ch)) ts)]
    | _, _ => []
    end.
  Definition diag_mpgge : R :=
    let kwh := sum_rows d (fun r => fs_kwh_out_ach (fc r)) in
    if Rltb 0 kwh then sum_rows d (fun r => dist_mi_ach (spd r)) / kwh * kwh_per_gge (d_props d) else 0.
  Definition all_entries : list (string * R) :=
    flat_map entries (kw_channels d) ++
    [("dist_miles_final"%string, sum_rows d (fun r => dist_mi_ach (spd r))); ("mpgge"%string, diag_mpgge)].
  Lemma fold_entries chs : forall out, fold_left (diag_step ts) chs out = puts (flat_map entries chs) out.
  Proof.
    induction chs as [|ch chs IH]; intros out; auto. cbn [fold_left flat_map]. rewrite IH. unfold puts. rewrite fold_left_app. f_equal.
    unfold diag_step, entries. destruct (kj_key _ _); [destruct (kj_key _ _)|]; reflexivity.
  Qed.
  Lemma diag_is : get_diagnostics d = puts all_entries [].
  Proof. unfold get_diagnostics, all_entries. rewrite fold_entries. unfold puts at 2. rewrite fold_left_app. reflexivity. Qed.
  Definition entry_keys (name : string) : list string :=
    match kj_key name "_pos", kj_key name "_neg" with Some p, Some n => [p; n] | _, _ => [] end.
  Lemma keys_are : map fst all_entries = flat_map entry_keys (map fst (kw_channels d)) ++ ["dist_miles_final"; "mpgge"]%string.
  Proof.
    unfold all_entries. rewrite map_app. generalize (kw_channels d). intros chs. f_equal. induction chs as [|ch l IH]; auto. cbn [flat_map map]. rewrite map_app, IH. f_equal.
    unfold entries, entry_keys. destruct (kj_key _ _); [destruct (kj_key _ _)|]; reflexivity.
  Qed.
  Lemma keys_distinct : NoDup (map fst all_entries).
  Proof. rewrite keys_are. apply nodupb_ok. vm_compute. reflexivity. Qed.

  Lemma chan_length name l : In (name, l) (kw_channels d) -> length l = length (d_rows d).
  Proof.
    unfold kw_channels. cbn [In]. intros H. repeat destruct H as [H|H]; try (injection H as _ <-); try contradiction;
    try (apply map_length). unfold ess_loss_arr. destruct (d_rows d); [reflexivity|]. cbn [length]. now rewrite map_length.
  Qed.
  Lemma trapz_is l : length l = length (d_rows d) -> length (time_s (d_cyc d)) = length (d_rows d) ->
    trapz l ts = integral d l.
  Proof.
    unfold trapz, integral, ts, step_dt. rewrite nsum_Rsum. generalize (length (d_rows d)) as n. generalize (time_s (d_cyc d)) as t.
    intros t n L1 L2. subst n. f_equal. revert t L2. destruct l as [|y0 l]; intros [|t0 t] L2; try discriminate; [reflexivity|].
    cbn [length] in *. rewrite Nat.sub_succ, Nat.sub_0_r.
    revert y0 t0 t L2. induction l as [|y1 l IH]; intros y0 t0 [|t1 t] L2; try discriminate; [reflexivity|].
    cbn [length seq map]. rewrite <- seq_shift, map_map. cbn [diff diff_prepend tl zipw]. unR. f_equal.
    cbn [length] in L2. specialize (IH y1 t1 t ltac:(lia)). cbn [diff tl] in IH.
    transitivity (map (fun i => (nth i (t1 :: t) 0 - nth (i - 1) (t1 :: t) 0) * (nth i (y1 :: l) 0 + nth (i - 1) (y1 :: l) 0) / 2) (seq 1 (length l))).
    - exact IH.
    - apply map_ext_in. intros i I. apply in_seq in I. destruct i as [|i]; [lia|]. cbn [nth]. rewrite !Nat.sub_succ, !Nat.sub_0_r. reflexivity.
  Qed.
  Lemma pos_map l : map pos_part l = map (Rmax 0) l.
  Proof. apply map_ext. intros x. unfold pos_part. unR. destruct (Rleb_spec 0 x); mm; lra. Qed.
  Lemma neg_map l : map neg_part l = map (Rmin 0) l.
  Proof. apply map_ext. intros x. unfold neg_part. unR. destruct (Rltb_spec x 0); mm; lra. Qed.
End Diag.

Section RunDiag.
  Variables (d0 : sdrive R) (ovr : option (list R)) (d : sdrive R).
  Hypotheses (W : wf_sd d0) (RN : run d0 ovr d).
  Lemma channel_energy name l key : In (name, l) (kw_channels d) -> energy_name name key ->
    dict_get (key ++ "_pos") (get_diagnostics d) = Some (integral d (map (Rmax 0) l)) /\
    dict_get (key ++ "_neg") (get_diagnostics d) = Some (integral d (map (Rmin 0) l)).
  Proof.
    intros I K. destruct (miss_len _ _ _ W RN) as (_ & LT). pose proof (chan_length _ _ _ I) as LL.
    assert (O : one_spot name = true) by (pose proof (names_one d) as Q; rewrite forallb_forall in Q; exact (Q _ I)).
    assert (E : entries d (name, l) = [((key ++ "_pos")%string, integral d (map (Rmax 0) l)); ((key ++ "_neg")%string, integral d (map (Rmin 0) l))]).
    { unfold entries. cbn [fst snd]. rewrite !(one_spot_key _ _ _ O K), !trapz_is, pos_map, neg_map by (rewrite ?map_length; auto). reflexivity. }
    rewrite diag_is. split; apply puts_get; try apply keys_distinct; unfold all_entries; apply in_or_app; left; apply in_flat_map;
    exists (name, l); split; auto; rewrite E; cbn; auto.
  Qed.
  Lemma loss_is p : battery_loss (d_veh d) p = ess_loss (d_veh d) p.
  Proof.
    unfold battery_loss, ess_loss. unR. destruct (Reqb_spec (ess_max_kw (d_veh d)) 0), (Reqb_spec (ess_max_kwh (d_veh d)) 0); cbn [orb];
      destruct (Req_EM_T (ess_max_kw (d_veh d)) 0); try contradiction; try reflexivity; destruct (Req_EM_T (ess_max_kwh (d_veh d)) 0); try contradiction; try reflexivity.
    destruct (Rltb_spec p 0), (Rlt_dec p 0); try lra.
  Qed.
  Ltac place_in x l k := match l with | cons x _ => constr:(k) | cons _ ?t => place_in x t (S k) end.
  Ltac listed := match goal with |- In ?x ?l => let k := place_in x l 0%nat in apply (nth_error_In l k); reflexivity end.
  Lemma series_channel name l : power_array d name l -> In (name, l) (kw_channels d).
  Proof.
    intros [(f & I & ->)|(-> & L & Z & E)].
    - unfold power_arrays in I. cbn [In] in I. repeat (destruct I as [I|I]; [injection I as <- <-; unfold kw_channels, chan; listed|]).
      destruct I.
    - assert (Q : l = ess_loss_arr d).
      { unfold ess_loss_arr, row_at in *. destruct (d_rows d) as [|r rs], l as [|y l]; try discriminate; [reflexivity|]. cbn [nth] in Z. subst y. f_equal.
        cbn [length] in L, E. apply (nth_ext _ _ 0 (ess_loss (d_veh d) (ess_kw_out_ach (dec (zero_row (F := R)))))); [rewrite map_length; lia|].
        intros i Hi. rewrite (map_nth (fun x => ess_loss (d_veh d) (ess_kw_out_ach (dec x)))). specialize (E (S i) ltac:(lia)). cbn [nth] in E.
        rewrite E. apply loss_is. }
      rewrite Q. unfold kw_channels. listed.
  Qed.
  Lemma channel_series name l : In (name, l) (kw_channels d) -> power_array d name l.
  Proof.
    unfold kw_channels, chan. cbn [In]. intros I.
    repeat (destruct I as [I|I]; [injection I as <- <-;
      match goal with |- power_array _ _ (map ?f _) => left; exists f; split; [|reflexivity]; unfold power_arrays; listed
      | |- _ => right; split; [reflexivity|] end|]); try contradiction.
    unfold ess_loss_arr, row_at. destruct (d_rows d) as [|r rs]; cbn [length nth]; [repeat split; intros; lia|].
    rewrite map_length. repeat split. intros [|i] Hi; [lia|]. cbn [nth]. rewrite loss_is.
    rewrite (nth_indep _ 0 (ess_loss (d_veh d) (ess_kw_out_ach (dec (zero_row (F := R)))))) by (rewrite map_length; lia).
    now rewrite (map_nth (fun x => ess_loss (d_veh d) (ess_kw_out_ach (dec x)))).
  Qed.
  Lemma split_name s : forall a b, split_kw s = Some (a, b) -> s = (a ++ "_kw" ++ b)%string /\ prefix "h" b = false.
  Proof.
    induction s as [|c s IH]; intros a b H; [discriminate|]. cbn [split_kw] in H. destruct (split_kw s) as [[a' b']|].
    - injection H as <- <-. destruct (IH a' b' eq_refl) as [-> P]. split; [reflexivity|exact P].
    - destruct (prefix "_kw" (String c s)) eqn:P; [|discriminate]. destruct (prefix "_kwh" (String c s)) eqn:Q; [discriminate|].
      cbn [andb negb] in H. injection H as <- <-. clear IH.
      destruct s as [|c1 [|c2 s]]; cbn [prefix] in P;
        repeat match type of P with context [Ascii.ascii_dec ?x ?y] => destruct (Ascii.ascii_dec x y); [|discriminate P] end; try discriminate P.
      subst c c1 c2. cbn [String.length substring]. rewrite substring_all by lia. split; [reflexivity|].
      cbn [prefix] in Q. destruct s; [reflexivity|]. exact Q.
  Qed.
  Lemma puts_keys (es : list (string * R)) k x : forall out, dict_get k (puts es out) = Some x -> In k (map fst es) \/ dict_get k out = Some x.
  Proof.
    intros out H. destruct (in_dec String.string_dec k (map fst es)) as [I|I]; [now left|]. right. now rewrite puts_other in H.
  Qed.
  Lemma only_energies k x : dict_get k (get_diagnostics d) = Some x ->
    k = "dist_miles_final"%string \/ k = "mpgge"%string \/
    exists name l key, power_array d name l /\ energy_name name key /\ (k = key ++ "_pos" \/ k = key ++ "_neg")%string.
  Proof.
    rewrite diag_is. intros H. apply puts_keys in H as [H|H]; [|discriminate]. rewrite keys_are in H.
    apply in_app_or in H as [H|[H|[H|[]]]]; [|now left|now right; left].
    right. right. apply in_flat_map in H as (name & I & H). apply in_map_iff in I as ([name' l] & E & I). cbn [fst] in E. subst name'.
    unfold entry_keys, kj_key in H. destruct (split_kw name) as [[a b]|] eqn:S; [|destruct H].
    destruct (split_name _ _ _ S) as [Q P]. exists name, l, (a ++ "_kj" ++ b)%string.
    split; [now apply channel_series|]. split; [exists a, b; auto|].
    assert (AS : forall t, (a ++ "_kj" ++ b ++ t)%string = ((a ++ "_kj" ++ b) ++ t)%string).
    { intros t. clear. induction a as [|c a IH]; [reflexivity|]. cbn [append]. f_equal. exact IH. }
    destruct H as [H|[H|[]]]; [left|right]; rewrite <- H; apply AS.
  Qed.
  Lemma integral_split l : integral d (map (Rmax 0) l) + integral d (map (Rmin 0) l) = integral d l.
  Proof.
    unfold integral. rewrite Rsum_plus. f_equal. apply map_ext. intros i.
    assert (P : forall j, nth j (map (Rmax 0) l) 0 = Rmax 0 (nth j l 0)).
    { intros j. rewrite <- (map_nth (Rmax 0) l 0 j). replace (Rmax 0 0) with 0; auto. mm; lra. }
    assert (Q : forall j, nth j (map (Rmin 0) l) 0 = Rmin 0 (nth j l 0)).
    { intros j. rewrite <- (map_nth (Rmin 0) l 0 j). replace (Rmin 0 0) with 0; auto. mm; lra. }
    rewrite !P, !Q. assert (H : forall x, Rmax 0 x + Rmin 0 x = x) by (intros; mm; lra).
    rewrite <- (H (nth i l 0)) at 3. rewrite <- (H (nth (i - 1) l 0)) at 3. lra.
  Qed.
  Lemma Rsum_nonneg {A} (f : A -> R) l : (forall x, In x l -> 0 <= f x) -> 0 <= Rsum (map f l).
  Proof. induction l as [|a l IH]; intros H; [unfold Rsum; cbn; lra|]. cbn [map]. rewrite Rsum_cons. pose proof (H a (or_introl eq_refl)). specialize (IH (fun x I => H x (or_intror I))). lra. Qed.
  Lemma integral_sign l : (forall i, (1 <= i < length (d_rows d))%nat -> 0 <= step_dt d i) ->
    0 <= integral d (map (Rmax 0) l) /\ integral d (map (Rmin 0) l) <= 0.
  Proof.
    intros D. unfold integral.
    assert (P : forall j, 0 <= nth j (map (Rmax 0) l) 0).
    { intros j. destruct (Nat.lt_ge_cases j (length (map (Rmax 0) l))) as [H|H]; [|rewrite nth_overflow by auto; lra].
      apply (nth_In _ 0) in H. apply in_map_iff in H as (x & <- & _). apply Rmax_l. }
    assert (Q : forall j, nth j (map (Rmin 0) l) 0 <= 0).
    { intros j. destruct (Nat.lt_ge_cases j (length (map (Rmin 0) l))) as [H|H]; [|rewrite nth_overflow by auto; lra].
      apply (nth_In _ 0) in H. apply in_map_iff in H as (x & <- & _). apply Rmin_l. }
    split.
    - apply Rsum_nonneg. intros i I. apply in_seq in I. specialize (D i ltac:(lia)). pose proof (P i). pose proof (P (i - 1)%nat). nra.
    - enough (0 <= Rsum (map (fun i => - (step_dt d i * (nth i (map (Rmin 0) l) 0 + nth (i - 1) (map (Rmin 0) l) 0) / 2)) (seq 1 (length (d_rows d) - 1)))).
      { rewrite (map_ext _ (fun i => (step_dt d i * (nth i (map (Rmin 0) l) 0 + nth (i - 1) (map (Rmin 0) l) 0) / 2) * (-1))) in H by (intros; lra).
        rewrite Rsum_scal in H. lra. }
      apply Rsum_nonneg. intros i I. apply in_seq in I. specialize (D i ltac:(lia)). pose proof (Q i). pose proof (Q (i - 1)%nat). nra.
  Qed.
  Lemma diag_rest : let miles := total d (fun i => dist_mi_ach (spd (row_at d i))) in
    dict_get "dist_miles_final" (get_diagnostics d) = Some miles /\
    exists x, dict_get "mpgge" (get_diagnostics d) = Some x /\
      (0 <= total d (fun i => fs_kwh_out_ach (fc (row_at d i))) -> x = mpgge (set_post_scalars d)).
  Proof.
    cbv zeta. rewrite diag_is. split.
    - apply puts_get; [apply keys_distinct|]. unfold all_entries. apply in_or_app. right. left. f_equal. apply (miles_is _ _ _ W RN).
    - exists (diag_mpgge d). split.
      + apply puts_get; [apply keys_distinct|]. unfold all_entries. apply in_or_app. right. right. left. reflexivity.
      + unfold diag_mpgge, set_post_scalars. cbn [mpgge]. unfold post_mpgge. rewrite (kwh_is _ _ _ W RN). intros P. unR.
        destruct (Rltb_spec 0 (total d (fun i => fs_kwh_out_ach (fc (row_at d i))))) as [H|H];
        destruct (Reqb_spec (total d (fun i => fs_kwh_out_ach (fc (row_at d i)))) 0) as [Z|Z]; try lra.
        unfold Rdiv. rewrite Rinv_mult, Rinv_inv. ring.
  Qed.
End RunDiag.
