(** Proofs of C16 (extend_cycle), C17 (target-speed table), C18 (dictionaries), C19 (equality). *)
From Coq Require Import Sorting.Sorted.
From Verif Require Import Num Numpy ListFacts CycleModel CycleSpec MicrotripProofs ConcatProofs CycleProofs1
  ResampleProofs RateProofs DistProofs.
Local Open Scope R_scope.

(** ** C18 *)
Section Generic.
  Context {F : Type} {N : Num F}.
  Lemma dict_round_trip (c : Cycle F) : from_dict (to_dict c) = Ok c.
  Proof. destruct c as [[t v g w] n]. reflexivity. Qed.

  Lemma old_dict_round_trip (c : Cycle F) : from_dict (old_style_dict c) = Ok c.
  Proof. destruct c as [[t v g w] n]. reflexivity. Qed.
  Lemma legacy_then_back (c : Cycle F) l : LegacyCycle (to_dict c) = Ok l -> from_dict l = Ok c.
  Proof. destruct c as [[t v g w] n]. cbn. intros [= <-]. reflexivity. Qed.
  Lemma copy_python (c : Cycle F) : copy_cycle c None = Ok (AsCycle c) /\ copy_cycle c (Some "python"%string) = Ok (AsCycle c)
     /\ copy_cycle c (Some "dict"%string) = Ok (AsDict (to_dict c)).
  Proof. destruct c as [[t v g w] n]. repeat split; reflexivity. Qed.
  Lemma copy_legacy_fails (c : Cycle F) : copy_cycle c (Some "legacy"%string) = Err AttributeError.
  Proof. reflexivity. Qed.
  Lemma copy_unknown_fails (c : Cycle F) s :
    ~ In s ["dict"; "python"; "legacy"; "rust"]%string -> copy_cycle c (Some s) = Err ValueError.
  Proof.
    intros H. unfold copy_cycle.
    destruct (String.eqb_spec s "dict"); [subst; exfalso; apply H; cbn; auto|].
    destruct (String.eqb_spec s "python"); [subst; exfalso; apply H; cbn; auto|].
    destruct (String.eqb_spec s "legacy"); [subst; exfalso; apply H; cbn; auto|].
    destruct (String.eqb_spec s "rust"); [subst; exfalso; apply H; cbn; auto 6|]. reflexivity.
  Qed.
  Lemma minimal_dict (t v : list F) :
    from_dict [("time_s", Arr t); ("mps", Arr v)]%string
    = Ok (mkCycle (mkcyc t v (repeat n0 (length t)) (repeat n0 (length t))) "").
  Proof. reflexivity. Qed.
  Lemma minimal_dict_no_times (v : list F) : from_dict [("mps", Arr v)]%string = Err KeyError.
  Proof. reflexivity. Qed.
  Lemma minimal_dict_no_speeds (t : list F) : from_dict [("time_s", Arr t)]%string = Err TypeError.
  Proof. reflexivity. Qed.

  (** An unknown key is rejected. *)
  Lemma dset_keys_or {V} (d : list (string * V)) k v k' :
    In k' (dkeys (dset d k v)) <-> k' = k \/ In k' (dkeys d).
  Proof.
    induction d as [|[k0 v0] d IH]; cbn; [intuition|].
    destruct (String.eqb_spec k0 k) as [->|]; cbn; [intuition|].
    unfold dkeys in IH. rewrite IH. intuition.
  Qed.
  Lemma renamed_keys_from (d acc : pdict F) k' :
    In k' (dkeys (fold_left (fun acc kv => dset acc (match dget OLD_TO_NEW (fst kv) with Some k' => k' | None => fst kv end) (snd kv)) d acc))
    <-> In k' (dkeys acc) \/ exists k, In k (dkeys d) /\ k' = match dget OLD_TO_NEW k with Some x => x | None => k end.
  Proof.
    revert acc; induction d as [|[k0 v0] d IH]; intros acc; cbn [fold_left].
    - split; [auto|]. intros [H|(k & [] & _)]; assumption.
    - rewrite IH, dset_keys_or. cbn [fst snd dkeys map In]. split.
      + intros [[->|H]|(k & Hk & E)]; [right|left|right]; eauto.
      + intros [H|(k & [<-|Hk] & E)]; auto. right. eauto.
  Qed.
  Lemma unknown_key_rejected (d : pdict F) k t :
    In k (dkeys d) -> dget OLD_TO_NEW k = None -> ~ In k STANDARD_CYCLE_KEYS ->
    dget (renamed d) "time_s"%string = Some t -> from_dict d = Err AssertionError.
  Proof.
    intros Hk Ho Hs Ht. unfold from_dict. rewrite dget_dset.
    destruct (String.eqb_spec "name" "time_s") as [E|_]; [discriminate E|]. rewrite Ht.
    match goal with |- bindR (match t with Arr l => Ok ?a | Str s => Ok ?b end) _ = _ =>
      assert (En : exists n, (match t with Arr l => Ok a | Str s => Ok b end) = Ok n) by (destruct t; eauto) end.
    destruct En as [n ->]. cbn [bindR].
    match goal with |- context [assertR (forallb ?f (dkeys ?d4))] => assert (E : forallb f (dkeys d4) = false) end.
    { apply not_true_is_false. rewrite forallb_forall. intros H.
      assert (Hin : mem_str k STANDARD_CYCLE_KEYS = true).
      { apply H. rewrite !dset_keys_or. do 3 right. unfold renamed. apply renamed_keys_from. right.
        exists k. rewrite Ho. auto. }
      apply existsb_exists in Hin as (k' & Hin & Heq). apply String.eqb_eq in Heq. subst. contradiction. }
    rewrite E. reflexivity.
  Qed.

  Lemma make_cycle_ok (t v g w : list F) :
    length v = length t -> length g = length t -> length w = length t ->
    make_cycle t v (Some g) (Some w) = Ok (mkcyc t v g w) /\
    make_cycle t v None None = Ok (mkcyc t v (repeat n0 (length t)) (repeat n0 (length t))).
  Proof.
    intros H1 H2 H3. unfold make_cycle, assertR. rewrite H1, H2, H3, !Nat.eqb_refl. split; reflexivity.
  Qed.
  Lemma make_cycle_rejects (t v : list F) g w :
    length v <> length t \/ (exists x, g = Some x /\ length x <> length t) \/ (exists x, w = Some x /\ length x <> length t) ->
    make_cycle t v g w = Err AssertionError.
  Proof.
    intros H. unfold make_cycle, assertR.
    destruct (Nat.eqb_spec (length t) (length v)) as [E|E]; [|reflexivity]. cbn [bindR].
    destruct H as [H|H]; [congruence|].
    destruct g as [g|]; cbn [bindR].
    - destruct (Nat.eqb_spec (length t) (length g)) as [E2|E2]; [|reflexivity]. cbn [bindR].
      destruct H as [(x & [= <-] & H)|(x & -> & H)]; [congruence|].
      destruct (Nat.eqb_spec (length t) (length x)); [congruence|]. reflexivity.
    - destruct H as [(x & E2 & _)|(x & -> & H)]; [discriminate|].
      destruct (Nat.eqb_spec (length t) (length x)); [congruence|]. reflexivity.
  Qed.
End Generic.

(** The renaming of keys is one to one. *)
Lemma rename_bijection :
  NoDup (map fst OLD_TO_NEW) /\ NoDup (map snd OLD_TO_NEW) /\
  (forall o n, dget OLD_TO_NEW o = Some n <-> dget NEW_TO_OLD n = Some o).
Proof.
  assert (Hnd : forall l : list string, (fix nd l := match l with [] => true | x :: r => (negb (mem_str x r) && nd r)%bool end) l = true -> NoDup l).
  { induction l as [|x l IH]; intros H; [constructor|]. apply andb_prop in H as [H1 H2]. constructor; [|auto].
    intros Hin. apply negb_true_iff in H1. unfold mem_str in H1.
    assert (existsb (String.eqb x) l = true) by (apply existsb_exists; exists x; split; [assumption|apply String.eqb_refl]).
    congruence. }
  split; [apply Hnd; reflexivity|]. split; [apply Hnd; reflexivity|].
  intros o n. unfold NEW_TO_OLD, OLD_TO_NEW. cbn [map fst snd dget].
  repeat match goal with |- context [String.eqb ?a ?b] => destruct (String.eqb_spec a b) end;
    split; intros H; inversion H; subst; congruence.
Qed.

(** ** C19 *)
Lemma val_same_R (a b : pval R) : (Nat.eqb (val_len a) (val_len b) && val_same a b)%bool = true <-> a = b.
Proof.
  split.
  - intros H. apply andb_prop in H as [H1 H2]. apply Nat.eqb_eq in H1.
    destruct a as [l1|s1], b as [l2|s2]; cbn in *; try discriminate.
    + f_equal. revert l2 H1 H2. induction l1 as [|x l1 IH]; intros [|y l2] H1 H2; cbn in *; try discriminate; [reflexivity|].
      apply andb_prop in H2 as [H2 H3]. unR. apply Reqb_true in H2. f_equal; [assumption|]. apply IH; [lia|assumption].
    + apply String.eqb_eq in H2. congruence.
  - intros <-. rewrite Nat.eqb_refl. cbn [andb]. destruct a as [l|s]; cbn.
    + induction l as [|x l IH]; [reflexivity|]. cbn. unR. rewrite (proj2 (Reqb_true x x) eq_refl). exact IH.
    + apply String.eqb_refl.
Qed.
Lemma dget_In {V} (d : list (string * V)) k : In k (dkeys d) <-> dget d k <> None.
Proof.
  induction d as [|[k0 v0] d IH]; cbn; [intuition|].
  destruct (String.eqb_spec k0 k) as [->|]; [intuition discriminate|]. unfold dkeys in IH. rewrite IH. intuition.
Qed.
Lemma mem_str_In k l : mem_str k l = true <-> In k l.
Proof.
  unfold mem_str. rewrite existsb_exists. split.
  - intros (x & Hx & E). apply String.eqb_eq in E. congruence.
  - intros H. exists k. split; [assumption|apply String.eqb_refl].
Qed.
Theorem equals_iff (d1 d2 : pdict R) : equals d1 d2 = true <-> forall k, dget d1 k = dget d2 k.
Proof.
  unfold equals, same_keys. rewrite !andb_true_iff, !forallb_forall. split.
  - intros ((H1 & H2) & H3) k. destruct (dget d1 k) as [a|] eqn:E1.
    + assert (Hin : In k (dkeys d1)) by (apply dget_In; congruence).
      specialize (H3 k Hin). rewrite E1 in H3. destruct (dget d2 k) as [b|]; [|discriminate].
      apply val_same_R in H3. congruence.
    + destruct (dget d2 k) as [b|] eqn:E2; [|reflexivity].
      assert (Hin : In k (dkeys d2)) by (apply dget_In; congruence).
      specialize (H2 k Hin). apply mem_str_In, dget_In in H2. congruence.
  - intros H. repeat split.
    + intros k Hk. apply mem_str_In, dget_In. rewrite <- H. now apply dget_In.
    + intros k Hk. apply mem_str_In, dget_In. rewrite H. now apply dget_In.
    + intros k Hk. rewrite <- H. apply dget_In in Hk. destruct (dget d1 k) as [a|]; [|congruence].
      now apply val_same_R.
Qed.
Theorem cyc_equal_iff (a b : Cycle R) : cyc_equal a b = true <-> a = b.
Proof.
  unfold cyc_equal. rewrite equals_iff. split; [|intros ->; auto].
  intros H. pose proof (H "time_s"%string) as H1. pose proof (H "mps"%string) as H2.
  pose proof (H "grade"%string) as H3. pose proof (H "road_type"%string) as H4. pose proof (H "name"%string) as H5.
  destruct a as [[t v g w] n], b as [[t' v' g' w'] n']. cbn in *. congruence.
Qed.

(** ** C16 *)
Lemma interp_from_zero (knots : list (R * R)) : forall x x0, (forall k, In k knots -> snd k = 0) ->
  interp_from x x0 0 knots = 0.
Proof.
  induction knots as [|[x1 y1] r IH]; intros x x0 H; cbn [interp_from]; [reflexivity|]. unR.
  assert (y1 = 0) by exact (H (x1, y1) (or_introl eq_refl)). subst y1.
  destruct (Rltb x x1); [|apply IH; intros; apply H; now right].
  destruct (Reqb x x0); [reflexivity|]. unfold Rdiv. ring.
Qed.

Lemma nround_nearest (x : R) : nearest_even x (nround x).
Proof.
  unfold nearest_even, nround. pose proof (nfloor_R_bounds x) as Hb.
  set (f := nfloor x) in *. unR. change (lit 1 2) with (1 / 2).
  destruct (Rltb_spec (x - IZR f) (1 / 2)).
  { left. rewrite Rabs_right by lra. lra. }
  destruct (Rltb_spec (1 / 2) (x - IZR f)).
  { left. rewrite plus_IZR. rewrite Rabs_left by lra. lra. }
  destruct (Z.even f) eqn:E; right.
  - split; [rewrite Rabs_right by lra; lra|assumption].
  - split; [rewrite plus_IZR, Rabs_left by lra; lra|]. now rewrite Z.even_add, E.
Qed.
Lemma nearest_even_unique x a b : nearest_even x a -> nearest_even x b -> a = b.
Proof.
  assert (H : forall x a b, nearest_even x a -> nearest_even x b -> (a <= b)%Z).
  { clear. intros x a b Ha Hb. destruct (Z_le_gt_dec a b) as [|Hgt]; [assumption|exfalso].
    assert (IZR b + 1 <= IZR a) by (rewrite <- plus_IZR; apply IZR_le; lia).
    assert (Hxa : Rabs (x - IZR a) <= 1 / 2) by (destruct Ha as [|[]]; lra).
    assert (Hxb : Rabs (x - IZR b) <= 1 / 2) by (destruct Hb as [|[]]; lra).
    assert (H1 := Rle_abs (- (x - IZR a))). rewrite Rabs_Ropp in H1.
    assert (H2 := Rle_abs (x - IZR b)).
    assert (IZR a = IZR b + 1) by lra. assert (x - IZR b = 1 / 2) by lra.
    assert (a = b + 1)%Z by (apply eq_IZR; rewrite plus_IZR; assumption). subst a.
    destruct Ha as [Ha|[_ Ha]]; [lra|]. destruct Hb as [Hb|[_ Hb]]; [lra|].
    rewrite Z.even_add, Hb in Ha. discriminate. }
  intros Ha Hb. apply Z.le_antisymm; eauto.
Qed.

Lemma stop_cycle_resampled extra : 0 <= extra ->
  exists n,
  INR n < extra + 1 / 10 <= INR n + 1 /\
  resample (dict_of_cyc (mkcyc [0; extra] [0; 0] [0; 0] [0; 0]))
           {| o_new_dt := Some 1; o_start := None; o_end := None; o_hold := []; o_hold_next := []; o_rate := [] |}
  = Ok [("time_s", Arr (map INR (seq 0 (S n)))); ("mps", Arr (repeat 0 (S n)));
        ("grade", Arr (repeat 0 (S n))); ("road_type", Arr (repeat 0 (S n)))]%string.
Proof.
  intros He.
  pose proof (nceil_R_bounds (extra + 1 / 10)) as Hb. set (z := @nceil R RNum (extra + 1 / 10)) in *.
  assert (Hz : (1 <= z)%Z). { cut (0 < z)%Z; [lia|]. apply lt_IZR. lra. }
  exists (Z.to_nat (z - 1)).
  assert (En : INR (Z.to_nat (z - 1)) = IZR z - 1).
  { rewrite INR_IZR_INZ, Z2Nat.id by lia. apply minus_IZR. }
  rewrite En. split; [lra|]. set (n := Z.to_nat (z - 1)) in *.
  unfold resample. cbn [check_keys forallb o_hold o_hold_next o_rate bindR dict_of_cyc dget String.eqb Ascii.eqb Bool.eqb time_s
     o_new_dt o_start o_end].
  change (pyget [0; extra] (-1)) with (@Ok R extra). cbn [bindR]. unR. change (@n0 R RNum) with 0.
  assert (Egrid : resample_times 1 0 extra = map INR (seq 0 (S n))).
  { unfold resample_times, arange. unR. replace ((extra + 1 / 10 - 0) / 1) with (extra + 1 / 10) by field.
    fold z. replace (Z.to_nat z) with (S n) by (unfold n; lia). apply map_ext. intros k. rewrite nofN_R. lra. }
  rewrite Egrid. set (nt := map INR (seq 0 (S n))).
  assert (Eint : interp nt [0; extra] [0; 0] = repeat 0 (S n)).
  { unfold interp. assert (Ec : forall x, interp1 x (combine [0; extra] [0; 0]) = 0).
    { intros x. cbn [combine interp1]. unR. destruct (Rltb x 0); [reflexivity|]. apply interp_from_zero.
      intros k [<-|[]]. reflexivity. }
    rewrite (map_ext _ (fun _ => 0)) by exact Ec.
    assert (Hc : forall l : list R, map (fun _ => 0) l = repeat 0 (length l)).
    { induction l as [|y l IHl]; cbn; [reflexivity|]. now rewrite IHl. }
    rewrite Hc. unfold nt. now rewrite map_length, seq_length. }
  unfold dict_of_cyc. cbn [resample_rest String.eqb Ascii.eqb Bool.eqb mps grade road_type].
  unfold resample_val, mem_str. cbn [o_hold o_hold_next o_rate mem_str existsb length Nat.eqb Nat.ltb Nat.leb andb bindR].
  rewrite Eint. reflexivity.
Qed.

Theorem extend_cycle_exact (c : cyc R) nm absolute fraction :
  wf c -> time_s c <> [] ->
  0 <= absolute + IZR (nround (fraction * end_time c)) ->
  exists n,
    INR n < absolute + IZR (nround (fraction * end_time c)) + 1 / 10 <= INR n + 1 /\
    extend_cycle (mkCycle c nm) absolute fraction =
    Ok (mkCycle (mkcyc (time_s c ++ map (fun k => end_time c + INR k) (seq 1 n))
                       (mps c ++ repeat 0 n) (grade c ++ repeat 0 n) (road_type c ++ repeat 0 n)) "").
Proof.
  intros Hwf Hne He. destruct (stop_cycle_resampled _ He) as (n & Hn & Hr).
  exists n. split; [exact Hn|]. unfold extend_cycle. cbn [cdata].
  destruct (time_s c) as [|t0 ts] eqn:Et; [congruence|]. rewrite pyget_last. cbn [bindR].
  assert (Ee : last (t0 :: ts) t0 = end_time c) by (unfold end_time; rewrite Et; apply last_default).
  rewrite Ee. unR. set (extra := absolute + IZR (nround (fraction * end_time c))) in *.
  unfold make_cycle, assertR. cbn [length Nat.eqb bindR zeros repeat]. change (@n0 R RNum) with 0. change (@n1 R RNum) with 1.
  rewrite Hr. cbn [bindR]. unfold cyc_of_dict, req_arr.
  cbn [dget String.eqb Ascii.eqb Bool.eqb bindR concat concat_fold].
  rewrite concat_step_R by (rewrite Et; discriminate). cbn [bindR time_s mps grade road_type].
  rewrite Et. cbn [seq map tl repeat]. unfold from_dict.
  match goal with |- context [renamed (dict_of_cyc ?x)] => set (X := x) end.
  cbn. subst X. cbn [time_s mps grade road_type app]. repeat f_equal.
  rewrite map_map. apply map_ext. intros; lra.
Qed.
