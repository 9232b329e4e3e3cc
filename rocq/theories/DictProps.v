(** Properties C47, C48 and C79-C81: copying, comparing and reading vehicles (python/fastsim/vehicle.py).
    [T : texts] stands for Python's readings of text (float(), int(), str(), ast.literal_eval) and is arbitrary. *)
From Coq Require Import Floats Lia Ascii.
From Verif Require Import Num FloatNum Numpy ListFacts CycleModel CycleSpec VehModel SimModel SimState FrameProofs SimSpec SimProofs1 SimDemo
  VehSpec VehProofs VehProofs2 VehProofs3 VehProps VehDictModel VehTableModel DictSpec DictProofs DictProofs2 DictProofs3 DictProofs4 DictProofs5
  DictProofs6 DictProofs7 DictProofs8.
Local Open Scope R_scope.
Local Set Warnings "-inexact-float".

(** Examples: the hybrid of the other files as a Vehicle object, and a few texts with what Python makes of them. *)
Definition demo_pv {F} {N : Num F} : pyveh F := mkpv plain_hev "2016 demo hybrid" 7 2016 "SI" 4 (repeat n0 18) (lit 75 100) (lit 147 10).
Definition demo_texts {F} {N : Num F} : texts F := mktexts
  (fun s => if String.eqb s "5" then Some (nofZ 5) else if String.eqb s "0.05" then Some (lit 5 100) else None)
  (fun s => if String.eqb s "5" then Some 5%Z else None)
  (fun s => if String.eqb s "[0.1, 0.3, 0.25]" then Items [lit 1 10; lit 3 10; lit 25 100]
            else if String.eqb s "[0, 0.5, 1]" then Items [n0; lit 1 2; n1]
            else if String.eqb s "[0.8, 0.9, 0.8]" then Items [lit 8 10; lit 9 10; lit 8 10] else NotLiteral)
  (fun v => match v with VBool true => "True" | VBool false => "False" | VInt _ => "7" | VStr s => s | _ => "other" end)%string.
Definition demo_dict {F} {N : Num F} : pydict F := copy_dict demo_pv.
(** The same with a measured engine map of three points. *)
Definition custom_dict {F} {N : Num F} : pydict F :=
  pset (pset demo_dict "fc_eff_map" (VStr "[0.1, 0.3, 0.25]")) "fc_pwr_out_perc" (VStr "[0, 0.5, 1]").
Definition made {A} (d : pydict float) (f : pydict float * pyveh float -> A) : option A :=
  match from_dict demo_texts d with Ok r => Some (f r) | Err _ => None end.

(** *** C47: copies *)
(** Every setting of the copy is that of the vehicle. *)
Theorem C47_parameters : forall (T : texts R) (v w : pyveh R), coherent v -> copy_vehicle T v = Ok w ->
  same_settings v w /\ override_of (pv_core w) = override_of (pv_core v).
Proof. intros T v w C H. destruct (copy_settings T v w C H) as (A & B & _). auto. Qed.
(** The maps of the copy are the default ones, whatever those of the vehicle are. *)
Theorem C47_maps : forall (T : texts R) (v w : pyveh R), coherent v -> copy_vehicle T v = Ok w ->
  fc_pwr_out_perc (pv_core w) = engine_grid_default /\ mc_pwr_out_perc (pv_core w) = motor_grid_default /\
  (fc_peak_eff_override (pv_core v) = None -> mc_peak_eff_override (pv_core v) = None -> default_maps w).
Proof. exact copy_maps. Qed.
(** So the copy is the vehicle exactly if the vehicle has the default maps. *)
Theorem C47_same_iff : forall (T : texts R) (v : pyveh R) (c0 : vehicle R), coherent v -> set_derived c0 = Ok (pv_core v) ->
  fc_peak_eff_override (pv_core v) = None -> mc_peak_eff_override (pv_core v) = None -> (copy_vehicle T v = Ok v <-> default_maps v).
Proof. exact copy_same. Qed.
(** A vehicle with a map and an engine type of its own cannot be copied. *)
Theorem C47_unknown_type : forall (T : texts R) (v : pyveh R), coherent v -> ~ In (pv_type v) (map fst engine_types) ->
  copy_vehicle T v = Err AssertionError.
Proof. exact copy_unknown. Qed.
(** Copies of loaded vehicles are not equal to them: a measured engine map is lost, and comparing the two raises an error. *)
Theorem C47_custom_refuted : exists (T : texts float) (d d' : pydict float) (v w : pyveh float),
  from_dict T d = Ok (d', v) /\ copy_vehicle T v = Ok w /\
  fc_eff_map (pv_core v) = [0.1; 0.3; 0.25]%float /\ fc_eff_map (pv_core w) = [0.1; 0.12; 0.16; 0.22; 0.28; 0.33; 0.35; 0.36; 0.35; 0.34; 0.32; 0.3]%float /\
  veh_equal v w = Err ValueError.
Proof.
  assert (Q : bindR (from_dict demo_texts custom_dict) (fun r => bindR (copy_vehicle demo_texts (snd r)) (fun w =>
    Ok (fc_eff_map (pv_core (snd r)), fc_eff_map (pv_core w), veh_equal (snd r) w))) =
    Ok ([0.1; 0.3; 0.25]%float, [0.1; 0.12; 0.16; 0.22; 0.28; 0.33; 0.35; 0.36; 0.35; 0.34; 0.32; 0.3]%float, Err ValueError)) by (vm_compute; reflexivity).
  apply bind_ok in Q as ((d' & v) & A & Q). apply bind_ok in Q as (w & B & Q). exists demo_texts, custom_dict, d', v, w. cbn [snd] in *.
  injection Q as Q1 Q2 Q3. auto.
Qed.
(** With a motor peak the copy of an unchanged vehicle draws other electric power at full power (the two compare equal). *)
Theorem C47_motor_override_refuted : exists (T : texts float) (d d' : pydict float) (v w : pyveh float),
  from_dict T d = Ok (d', v) /\ copy_vehicle T v = Ok w /\ veh_equal v w = Ok true /\
  mc_max_elec_in_kw (pv_core v) = 32.490974729241877%float /\ mc_max_elec_in_kw (pv_core w) = 38.041516245487365%float.
Proof.
  assert (Q : bindR (from_dict demo_texts (pset demo_dict "mc_peak_eff_override" (VNum 0.8%float))) (fun r => bindR (copy_vehicle demo_texts (snd r)) (fun w =>
    Ok (veh_equal (snd r) w, mc_max_elec_in_kw (pv_core (snd r)), mc_max_elec_in_kw (pv_core w)))) = Ok (Ok true, 32.490974729241877%float, 38.041516245487365%float)) by (vm_compute; reflexivity).
  apply bind_ok in Q as ((d' & v) & A & Q). apply bind_ok in Q as (w & B & Q). exists demo_texts, (pset demo_dict "mc_peak_eff_override" (VNum 0.8%float)), d', v, w. cbn [snd] in *.
  injection Q as Q1 Q2 Q3. auto.
Qed.
Example C47_run : match copy_vehicle demo_texts (F := float) demo_pv with
  | Ok w => copy_vehicle demo_texts w = Ok w /\ nth 7 (fc_eff_map (pv_core w)) 0%float = 0.36%float /\ veh_equal w w = Ok true /\
            copy_vehicle demo_texts (mkpv (pv_core w) "own" 1 2020 "Stirling" 4 (pv_vals w) 0.75%float 14.7%float) = Err AssertionError
  | Err _ => False
  end.
Proof. vm_compute. auto. Qed.

(** The example over the reals. *)
Lemma increasing_pm l : (forall i a b, nth_error l i = Some a -> nth_error l (S i) = Some b -> (a < b)%Z) -> increasing (per_mille l).
Proof.
  intros H. assert (ST : forall k i a b, nth_error l i = Some a -> nth_error l (S k + i) = Some b -> (a < b)%Z).
  { induction k as [|k IH]; intros i a b A B; [exact (H i a b A B)|]. destruct (nth_error l (S k + i)) as [c|] eqn:C.
    - specialize (IH i a c A C). specialize (H _ _ _ C B). lia.
    - apply nth_error_None in C. assert (nth_error l (S (S k) + i) = None) by (apply nth_error_None; lia). congruence. }
  intros i j a b L A B. unfold per_mille in A, B. rewrite nth_error_map in A, B. destruct (nth_error l i) as [x|] eqn:X; [|discriminate]. destruct (nth_error l j) as [y|] eqn:Y; [|discriminate].
  cbn in A, B. injection A as <-. injection B as <-. assert (x < y)%Z. { apply (ST (j - i - 1)%nat i); [exact X|]. replace (S (j - i - 1) + i)%nat with j by lia. exact Y. }
  apply IZR_lt in H0. lra.
Qed.
Local Ltac steps := intros i a b A B; do 13 (destruct i as [|i]; [cbn in A, B; try discriminate; injection A as <-; injection B as <-; lia|]); destruct i; discriminate.
Lemma engine_grid_increasing : increasing engine_grid_default. Proof. apply increasing_pm. steps. Qed.
Lemma motor_grid_increasing : increasing motor_grid_default. Proof. apply increasing_pm. steps. Qed.
Lemma eff30 k : default_motor_eff 30 k = / 3 * nth k large_motor 0 + 2 / 3 * nth k small_motor 0.
Proof.
  unfold default_motor_eff. replace (largeness 30) with (/ 3); [lra|]. unfold largeness. rewrite Rmin_left by lra. rewrite Rmax_right by lra. lra.
Qed.
Lemma demo_copies (T : texts R) : exists c, set_derived (bare demo_pv (per_mille [100; 120; 160; 220; 280; 330; 350; 360; 350; 340; 320; 300]%Z)) = Ok c /\
  copy_vehicle T demo_pv = Ok (with_core demo_pv c) /\ set_derived c = Ok c.
Proof.
  pose (m0 := per_mille [100; 120; 160; 220; 280; 330; 350; 360; 350; 340; 320; 300]%Z).
  assert (AC : exists c, set_derived (bare demo_pv m0) = Ok c).
  { apply (C44_accepts _ (map (default_motor_eff 30) (seq 0 11))); try reflexivity; try discriminate.
    - cbn [bare fc_pwr_out_perc]. rewrite <- engine_grid_is. apply engine_grid_increasing.
    - intros x X. change (In x m0) in X. unfold m0, per_mille in X. apply in_map_iff in X as (y & <- & X). cbn [In] in X. repeat (destruct X as [<-|X]; [lra|]). destruct X.
    - split; [reflexivity|]. intros k K. rewrite (nth_indep _ 0 (default_motor_eff 30 0)) by (rewrite map_length, seq_length; exact K). rewrite map_nth, seq_nth by exact K. reflexivity.
    - cbn [bare mc_pwr_out_perc]. rewrite <- motor_grid_is. apply motor_grid_increasing.
    - intros x X. apply in_map_iff in X as (k & <- & X). rewrite eff30. cbn [In seq] in X. repeat (destruct X as [<-|X]; [cbn; lra|]). destruct X.
    - exists 8%nat, 60%nat, (default_motor_eff 30 8). split; [lia|]. split; [cbn [bare mc_pwr_out_perc]; rewrite <- motor_grid_is; cbn; f_equal; lra|]. split; [reflexivity|].
      split; [apply in_map, in_seq; lia|]. intros x X. apply in_map_iff in X as (k & <- & X). rewrite !eff30. cbn [In seq] in X. repeat (destruct X as [<-|X]; [cbn; lra|]). destruct X. }
  destruct AC as (c & AC). exists c. assert (AG : set_derived c = Ok c) by (apply (C44_again (bare demo_pv m0)); [reflexivity|reflexivity|exact AC]).
  split; [exact AC|]. split; [|exact AG]. rewrite copy_is; try reflexivity; try exact Logic.I.
  - change (pv_type demo_pv) with "SI"%string. rewrite (proj2 (engine_default_is "SI" m0)) by (left; reflexivity). cbn [bindR]. rewrite AC. cbn [bindR]. rewrite AG. reflexivity.
  - exact R_guard.
Qed.
Lemma demo_coherent : coherent (@demo_pv R RNum).
Proof. split; try reflexivity; exact Logic.I. Qed.
Example C47_case : forall T : texts R, exists w, coherent (@demo_pv R RNum) /\ copy_vehicle T demo_pv = Ok w /\ default_maps w /\ w <> demo_pv /\ copy_vehicle T w = Ok w.
Proof.
  intros T. destruct (demo_copies T) as (c & A & B & D). exists (with_core demo_pv c). split; [exact demo_coherent|]. split; [exact B|].
  assert (M : default_maps (with_core demo_pv c)) by (apply (C47_maps T demo_pv); auto using demo_coherent).
  split; [exact M|]. split.
  - intros E. destruct M as (M & _). rewrite E in M. cbn in M. discriminate.
  - destruct (copy_settings T demo_pv _ demo_coherent B) as (S & _ & CO). apply (C47_same_iff T _ c CO); [exact D|rewrite (ss_fc _ _ S); reflexivity|rewrite (ss_mc _ _ S); reflexivity|exact M].
Qed.

(** *** C48: comparison *)
(** The two vehicles compare equal exactly if all settings but the mass override agree and the maps agree to a millionth. *)
Theorem C48_true_iff : forall (v w : pyveh R) (m : list R), length (pv_vals v) = 18%nat -> length (pv_vals w) = 18%nat ->
  mc_eff_map (pv_core v) = Some m -> (veh_equal v w = Ok true <-> same_settings v w /\ near_maps (pv_core v) (pv_core w)).
Proof. exact equal_iff. Qed.
Theorem C48_reflexive : forall (v : pyveh R) (m : list R), length (pv_vals v) = 18%nat -> mc_eff_map (pv_core v) = Some m -> veh_equal v v = Ok true.
Proof.
  intros v m L M. apply (equal_iff v v m L L M). split; [apply settings_refl|]. repeat split; try apply near_refl. exists m, m. auto using near_refl.
Qed.
Theorem C48_symmetric : forall (v w : pyveh R) (m m' : list R), length (pv_vals v) = 18%nat -> length (pv_vals w) = 18%nat ->
  mc_eff_map (pv_core v) = Some m -> mc_eff_map (pv_core w) = Some m' -> veh_equal v w = veh_equal w v.
Proof. exact equal_sym. Qed.
(** The mass override is neglected. *)
Theorem C48_override_ignored : forall (v : pyveh R) (m : list R) (o : option R), length (pv_vals v) = 18%nat -> mc_eff_map (pv_core v) = Some m ->
  veh_equal v (with_core v (with_override_kg (pv_core v) o)) = Ok true.
Proof.
  intros v m o L M. pose (w := with_core v (with_override_kg (pv_core v) o)). fold w. assert (L' : length (pv_vals w) = 18%nat) by exact L. apply (equal_iff v w m L L' M). split.
  - constructor; try reflexivity. unfold numbers. repeat (apply Forall_cons; [reflexivity|]). apply Forall_nil.
  - repeat split; try apply near_refl. exists m, m. split; [exact M|]. split; [exact M|apply near_refl].
Qed.
(** The list of differences: the vehicles compare equal exactly if it names nothing but the mass override. *)
Theorem C48_differences : forall (v w : pyveh R) (ks : list string), veh_differences v w = Ok ks ->
  (veh_equal v w = Ok true <-> forall k, In k ks -> k = "veh_override_kg"%string).
Proof. intros v w ks H. exact (proj1 (diff_spec _ _ ks H)). Qed.
Theorem C48_transitive_refuted : exists u v w : pyveh float, veh_equal u v = Ok true /\ veh_equal v w = Ok true /\ veh_equal u w = Ok false.
Proof.
  pose (u s := with_core (F := float) demo_pv (with_maps plain_hev None None mc_pwr_out_perc_default (Some (map (fun x => x + s)%float (repeat 0.8%float 11))))).
  exists (u 0%float), (u 0.9e-6%float), (u 1.8e-6%float). vm_compute. auto.
Qed.
(** Vehicles with maps of different sizes: an error rather than an answer, unless one of them has a single entry. *)
Theorem C48_total_refuted : exists v w : pyveh float, veh_equal v w = Err ValueError.
Proof. exists (with_core demo_pv (with_override_kg (peaked 0.4%float) None)), (with_core demo_pv demo_hev). vm_compute. reflexivity. Qed.
Theorem C48_sizes_refuted : exists v w : pyveh float, veh_equal v w = Ok true /\
  length (mc_pwr_out_perc (pv_core v)) = 11%nat /\ length (mc_pwr_out_perc (pv_core w)) = 1%nat.
Proof.
  exists (with_core demo_pv (with_maps plain_hev None None (repeat 0.5%float 11) (Some [0.8%float]))), (with_core demo_pv (with_maps plain_hev None None [0.5%float] (Some [0.8%float]))).
  vm_compute. auto.
Qed.
(** Before its motor map is derived a vehicle can be compared only on the left. *)
Theorem C48_symmetric_underived_refuted : exists v w : pyveh float, veh_equal v w = Ok false /\ veh_equal w v = Err TypeError.
Proof.
  exists demo_pv, (with_core demo_pv (with_maps plain_hev None None mc_pwr_out_perc_default (Some [0.8%float]))). vm_compute. auto.
Qed.
Example C48_run : let v := with_core (F := float) demo_pv (with_maps plain_hev None None mc_pwr_out_perc_default (Some (repeat 0.8%float 11))) in
  let w := with_core v (with_override_kg (pv_core v) (Some 5000%float)) in
  let x := with_core v (with_mc_max_kw (pv_core v) 31%float) in
  veh_equal v w = Ok true /\ veh_differences v w = Ok ["veh_override_kg"]%string /\ veh_equal v x = Ok false /\ veh_differences x w = Ok ["veh_override_kg"; "mc_max_kw"]%string.
Proof. vm_compute. auto. Qed.
Example C48_case : let v := with_core demo_pv (@demo_hev R RNum) in
  length (pv_vals v) = 18%nat /\ mc_eff_map (pv_core v) = Some [lit 8 10; lit 9 10; lit 8 10] /\ veh_equal v v = Ok true.
Proof. cbv zeta. split; [reflexivity|]. split; [reflexivity|]. now apply (C48_reflexive _ [lit 8 10; lit 9 10; lit 8 10]). Qed.

(** *** C79: reading a dict *)
Section C79.
  Variables (T : texts R) (d d' : pydict R) (v : pyveh R).
  Hypothesis L : from_dict T d = Ok (d', v).
  (** What is made is coherent (so copies of it are covered by C47, and it is compared as in C48). *)
  Theorem C79_coherent : coherent v /\ exists c0 m, set_derived c0 = Ok (pv_core v) /\ mc_eff_map (pv_core v) = Some m.
  Proof.
    split; [exact (dict_coherent T d d' v L)|]. destruct (maps_made T d d' v L) as (u & _ & _ & D & _). exists (pv_core u). 
    open_dv D OD. eexists. split; [exact D|]. rewrite (od_v' _ _ _ _ _ _ _ _ _ _ OD). unfold set_veh_mass. destruct (use_override _); reflexivity.
  Qed.
  (** A value of the right type is taken over as it is. *)
  Theorem C79_kept : forall k t w, In (k, t) keys_and_types -> of_type t w -> pget d k = Some w ->
    ~ In k ["veh_override_kg"; "fc_peak_eff_override"; "mc_peak_eff_override"]%string -> attribute v k = Some w.
  Proof.
    intros k t w I O P NS. destruct (find_first keys_and_types k (in_map fst _ _ I)) as (t' & E). apply (kept T d d' v k t w L); auto.
    rewrite E. f_equal. f_equal. apply find_some in E as [I' _].
    assert (U : forallb (fun e => forallb (fun e' => (negb (String.eqb (fst e) (fst e')) || match snd e, snd e' with
      | TStr, TStr | TInt, TInt | TFloat, TFloat | TArr, TArr | TBool, TBool | TProps, TProps => true | _, _ => false end)%bool) keys_and_types) keys_and_types = true) by (vm_compute; reflexivity).
    rewrite forallb_forall in U. specialize (U _ I). rewrite forallb_forall in U. specialize (U _ I'). cbn [fst snd] in U. rewrite String.eqb_refl in U. cbn [negb orb] in U. destruct t, t'; congruence.
  Qed.
  (** The mass override: the number given, if it is positive. *)
  Theorem C79_mass : match pget d "veh_override_kg" with
    | None | Some VNone => override_of (pv_core v) = None
    | Some w => exists x, read_number T w x /\ override_of (pv_core v) = if Rlt_dec 0 x then Some x else None
    end.
  Proof.
    destruct (mass_attr T d d' v L) as (m & G & _ & O). unfold given_number in G. destruct (pget d "veh_override_kg") as [[| | | | | | |]|]; try (subst m; exact O);
      destruct G as (y & G & ->); cbn in G; try discriminate; exists y; (split; [|exact O]); cbn [read_number]; try (injection G as <-; reflexivity).
    destruct (to_float T s); congruence.
  Qed.
  (** Peak efficiencies strictly between 0 and 1 are used; anything else is dropped without an error. *)
  Theorem C79_peaks :
    let says k o := match pget d k with
      | None => o = None
      | Some w => (exists x, read_number T w x /\ 0 < x < 1 /\ o = Some x) \/ ((forall x, read_number T w x -> ~ 0 < x < 1) /\ o = None) end in
    says "fc_peak_eff_override"%string (fc_peak_eff_override (pv_core v)) /\ says "mc_peak_eff_override"%string (mc_peak_eff_override (pv_core v)).
  Proof.
    assert (W : forall k o, In k ["fc_peak_eff_override"; "mc_peak_eff_override"]%string -> attribute v k = Some (opt_num o) ->
      match pget d k with
      | None => o = None
      | Some w => (exists x, read_number T w x /\ 0 < x < 1 /\ o = Some x) \/ ((forall x, read_number T w x -> ~ 0 < x < 1) /\ o = None) end).
    { intros k o I A. destruct (peak_attr T d d' v k L I) as (p & P & B). rewrite A in B. assert (p = o) by (apply opt_num_inj; congruence). subst p. unfold peak_ok in P.
      destruct (pget d k) as [w|]; [|exact P]. destruct (to_F T w) as [x|e] eqn:E.
      - assert (U : forall y, read_number T w y -> y = x).
        { intros y Y. destruct w; cbn in E, Y; try (destruct Y; fail); try (injection E as <-; exact Y). rewrite Y in E. congruence. }
        revert P. unR. destruct (Rltb_spec 0 x) as [X1|X1], (Rltb_spec x 1) as [X2|X2]; cbn [andb]; intros ->; try (right; split; [intros y Y; rewrite (U y Y); lra|reflexivity]).
        left. exists x. split; [|auto]. destruct w; cbn in E |- *; try discriminate; try (injection E as <-; reflexivity).
        + exfalso. injection E as <-. revert X1. unR. lra.
        + destruct (to_float T s); congruence.
      - right. split; [|exact P]. intros x X. destruct w; cbn in E, X; try discriminate; try (destruct X; fail). rewrite X in E. discriminate. }
    destruct (peak_core v (co_vals _ (dict_coherent T d d' v L))) as (A & B). split; apply W; auto; apply mem_in; reflexivity.
  Qed.
  (** Without a year the first four characters of the name are used if they are digits, else 0. *)
  Theorem C79_year : forall s, pget d "veh_year" = None -> pget d "scenario_name" = Some (VStr s) ->
    (exists a b c e rest, s = String a (String b (String c (String e rest))) /\ Forall (fun x => (48 <= nat_of_ascii x <= 57)%nat) [a; b; c; e] /\
      pv_year v = (Z.of_nat (nat_of_ascii a - 48) * 1000 + Z.of_nat (nat_of_ascii b - 48) * 100 + Z.of_nat (nat_of_ascii c - 48) * 10 + Z.of_nat (nat_of_ascii e - 48))%Z) \/
    (pv_year v = 0%Z /\ ~ exists a b c e rest, s = String a (String b (String c (String e rest))) /\ Forall (fun x => (48 <= nat_of_ascii x <= 57)%nat) [a; b; c; e]).
  Proof.
    intros s Y S. rewrite (year_attr T d d' v s L Y S).
    assert (DG : forall x, digit x = if andb (Nat.leb 48 (nat_of_ascii x)) (Nat.leb (nat_of_ascii x) 57) then Some (Z.of_nat (nat_of_ascii x - 48)) else None).
    { intros x. unfold digit. destruct (Nat.leb_spec 48 (nat_of_ascii x)), (Nat.leb_spec (nat_of_ascii x) 57); cbn [andb];
        destruct (Z.leb_spec 48 (Z.of_nat (nat_of_ascii x))), (Z.leb_spec (Z.of_nat (nat_of_ascii x)) 57); cbn [andb]; try lia; try reflexivity. f_equal. lia. }
    assert (DI : forall x, (exists z, digit x = Some z /\ z = Z.of_nat (nat_of_ascii x - 48) /\ (48 <= nat_of_ascii x <= 57)%nat) \/ (digit x = None /\ ~ (48 <= nat_of_ascii x <= 57)%nat)).
    { intros x. rewrite DG. destruct (Nat.leb_spec 48 (nat_of_ascii x)), (Nat.leb_spec (nat_of_ascii x) 57); cbn [andb]; [left; eauto|right; split; [reflexivity|lia]..]. }
    assert (NO : leading_year s = None -> (~ exists a b c e rest, s = String a (String b (String c (String e rest))) /\ Forall (fun x => (48 <= nat_of_ascii x <= 57)%nat) [a; b; c; e])).
    { intros E (a & b & c & e & rest & -> & F). cbn [leading_year] in E. inversion F as [|? ? A F1]; subst. inversion F1 as [|? ? B F2]; subst. inversion F2 as [|? ? C F3]; subst. inversion F3 as [|? ? D F4]; subst.
      destruct (DI a) as [(x & X & _)|(X & N)]; [|contradiction]. destruct (DI b) as [(x1 & X1 & _)|(X1 & N)]; [|contradiction].
      destruct (DI c) as [(x2 & X2 & _)|(X2 & N)]; [|contradiction]. destruct (DI e) as [(x3 & X3 & _)|(X3 & N)]; [|contradiction].
      rewrite X, X1, X2, X3 in E. discriminate. }
    destruct (leading_year s) as [y|] eqn:E; [left|right; auto]. destruct s as [|a [|b [|c [|e rest]]]]; try discriminate. cbn [leading_year] in E.
    destruct (DI a) as [(x & X & XE & N)|(X & N)]; rewrite X in E; [|discriminate]. destruct (DI b) as [(x1 & X1 & XE1 & N1)|(X1 & N1)]; rewrite X1 in E; [|discriminate].
    destruct (DI c) as [(x2 & X2 & XE2 & N2)|(X2 & N2)]; rewrite X2 in E; [|discriminate]. destruct (DI e) as [(x3 & X3 & XE3 & N3)|(X3 & N3)]; rewrite X3 in E; [|discriminate].
    exists a, b, c, e, rest. split; [reflexivity|]. split; [repeat (apply Forall_cons; [assumption|]); apply Forall_nil|]. assert (EY : y = (1000 * x + 100 * x1 + 10 * x2 + x3)%Z) by congruence. rewrite EY. lia.
  Qed.
  (** Parameters that may be left out, and what is used then. *)
  Theorem C79_defaults :
    (pget d "regen_a" = None -> regen_a (pv_core v) = 500) /\ (pget d "regen_b" = None -> regen_b (pv_core v) = 99 / 100) /\
    (pget d "props" = None -> veh_props (pv_core v) = mkprops (12 / 10) (981 / 100) (337 / 10) /\ pv_rho v = 75 / 100 /\ pv_afr v = 147 / 10).
  Proof.
    destruct (from_dict_open T d d' v L) as (d1 & d2 & u & c & E1 & E2 & E3 & E4 & E5 & V). destruct (construct_spec d' u E4) as (_ & _ & _ & _ & _ & _ & S1 & S2 & S3 & _).
    pose proof (parameters_kept _ _ E5) as P. unfold same_parameters in P. decompose [and] P. clear P.
    assert (NM : forall k, mem k ["regen_a"; "regen_b"; "props"]%string = true -> pget d k = None -> pget d' k = None).
    { intros k M. apply mem_in in M. apply (present_back T d d' v L k); cbn [In] in M; destruct M as [<-|[<-|[<-|[]]]]; notin. }
    rewrite V. cbn [with_core pv_core pv_rho pv_afr]. split; [|split]; intros Q.
    - apply NM in Q; [|reflexivity]. specialize (S1 Q). etransitivity; [|exact S1]. congruence.
    - apply NM in Q; [|reflexivity]. specialize (S2 Q). rewrite lit_R in S2. etransitivity; [|exact S2]. congruence.
    - apply NM in Q; [|reflexivity]. specialize (S3 Q). rewrite !lit_R in S3. injection S3 as S4 S5 S6. repeat split; auto. congruence.
  Qed.
  (** Maps and grids given as readable text are used; any other (lists and arrays included) are replaced by the defaults. *)
  Theorem C79_grids :
    (forall l, given_text T d "fc_pwr_out_perc" l -> fc_pwr_out_perc (pv_core v) = l) /\
    (not_text T d "fc_pwr_out_perc" -> fc_pwr_out_perc (pv_core v) = engine_grid_default) /\
    (forall l, given_text T d "mc_pwr_out_perc" l -> mc_pwr_out_perc (pv_core v) = l) /\
    (not_text T d "mc_pwr_out_perc" -> mc_pwr_out_perc (pv_core v) = motor_grid_default).
  Proof. destruct (dict_maps T d d' v L) as (A & B & C & D & _). auto. Qed.
  Theorem C79_engine_map : fc_peak_eff_override (pv_core v) = None ->
    (forall l, given_text T d "fc_eff_map" l -> fc_eff_map (pv_core v) = l) /\
    (not_text T d "fc_eff_map" -> In (pv_type v, fc_eff_map (pv_core v)) engine_types).
  Proof. destruct (dict_maps T d d' v L) as (_ & _ & _ & _ & A & _). exact A. Qed.
  Theorem C79_motor_map : mc_peak_eff_override (pv_core v) = None -> exists m, mc_eff_map (pv_core v) = Some m /\
    (forall l, given_text T d "mc_eff_map" l -> m = l) /\ (not_text T d "mc_eff_map" -> motor_map_default (pv_core v) m).
  Proof. destruct (dict_maps T d d' v L) as (_ & _ & _ & _ & _ & A). exact A. Qed.
  (** The dict is changed by the call.  Used again it gives a vehicle with the same settings, but with the default maps. *)
  Theorem C79_again : forall d'' w, from_dict T d' = Ok (d'', w) ->
    (forall k, ~ In k map_names -> k <> "veh_override_kg"%string -> attribute w k = attribute v k) /\
    override_of (pv_core w) = override_of (pv_core v) /\
    fc_pwr_out_perc (pv_core w) = engine_grid_default /\ mc_pwr_out_perc (pv_core w) = motor_grid_default /\
    (fc_peak_eff_override (pv_core v) = None -> mc_peak_eff_override (pv_core v) = None -> default_maps w).
  Proof. intros d'' w H. exact (again T d d' d'' v w L H). Qed.
End C79.
(** What is refused. *)
Lemma parameter_keys k : parameter k -> In k copy_keys.
Proof. intros (A & B). apply filter_In. split; [exact A|]. destruct (mem k keys_to_remove) eqn:Q; [apply mem_in in Q; tauto|reflexivity]. Qed.
Theorem C79_missing : forall (T : texts R) (d : pydict R) (k : string), parameter k -> ~ In k optional -> pget d k = None ->
  exists e, from_dict T d = Err e.
Proof. intros T d k P O N. apply (missing_required T d k); auto using parameter_keys. Qed.
Theorem C79_unknown : forall (T : texts R) (d : pydict R) (k : string) (w : pyval R), In (k, w) d -> ~ parameter k -> exists e, from_dict T d = Err e.
Proof.
  intros T d k w I P. apply (unknown_key T d k w I). intros Q. apply P. destruct (find_total k Q) as (t & E). split; [exact (find_in k t E)|].
  intros R. apply mem_in in R. assert (Q' : forallb (fun k => negb (mem k keys_to_remove)) copy_keys = true) by (vm_compute; reflexivity).
  rewrite forallb_forall in Q'. apply Q' in Q. rewrite R in Q. discriminate.
Qed.
Theorem C79_engine_type : forall (T : texts R) (d : pydict R) (s : string), pget d "fc_eff_type" = Some (VStr s) -> ~ In s (map fst engine_types) ->
  not_text T d "fc_eff_map" -> exists e, from_dict T d = Err e.
Proof.
  intros T d s E N M. destruct (from_dict T d) as [[d' v]|e] eqn:L; [exfalso|eauto]. destruct (maps_made T d d' v L) as (u & t & _ & _ & _ & E' & PT & _ & K & _).
  rewrite (not_text_none T d _ M) in K. apply engine_default_is in K. apply N. rewrite E in E'. injection E' as <-. cbn in PT. rewrite PT in K. exact (in_map fst _ _ K).
Qed.
(** A motor grid must have 11 points. *)
Theorem C79_motor_points : forall (T : texts R) (d : pydict R) (l : list R), given_text T d "mc_pwr_out_perc" l -> length l <> 11%nat ->
  exists e, from_dict T d = Err e.
Proof.
  intros T d l (s & G1 & G2) N. destruct (from_dict T d) as [[d' v]|e] eqn:L; [exfalso|eauto]. destruct (from_dict_open T d d' v L) as (d1 & d2 & u & c & E1 & _).
  unfold fill_maps in E1. apply bind_ok in E1 as (t & _ & E1). cbv zeta in E1. apply bind_ok in E1 as (d3 & D3 & E1). apply bind_ok in E1 as (m & _ & E1). apply bind_ok in E1 as (n & _ & E1).
  apply bind_ok in E1 as (p & _ & E1). apply bind_ok in E1 as (q & _ & E1). apply bind_ok in E1 as ([] & _ & E1). apply bind_ok in E1 as (p1 & P1 & E1). apply bind_ok in E1 as (q1 & Q1 & E1). apply bind_ok in E1 as ([] & A & _).
  unfold pitem in P1. rewrite pget_same in P1. rewrite pget_other in P1 by discriminate.
  assert (G3 : pget d3 "mc_pwr_out_perc" = Some (VStr s)).
  { destruct (read_literal T (pget (pset d "fc_eff_type" (VStr (as_text T t))) "fc_eff_map")) as [lit|].
    - injection D3 as <-. rewrite !pget_other by discriminate. exact G1.
    - apply bind_ok in D3 as (? & _ & D3). apply bind_ok in D3 as (? & _ & D3). injection D3 as <-. rewrite !pget_other by discriminate. exact G1. }
  rewrite G3 in P1. unfold read_literal in P1. rewrite G2 in P1. cbn in P1. injection P1 as <-. cbn in Q1. injection Q1 as <-. unfold assertR in A. destruct (Nat.eqb_spec (length l) 11); congruence.
Qed.
(** A list given as a list is not used. *)
Theorem C79_list_maps_refuted : exists (T : texts float) (d d' : pydict float) (v : pyveh float),
  pget d "fc_eff_map" = Some (VList [0.1; 0.3; 0.25]%float) /\ from_dict T d = Ok (d', v) /\ length (fc_eff_map (pv_core v)) = 12%nat.
Proof.
  assert (Q : bindR (from_dict (F := float) demo_texts demo_dict) (fun r => Ok (length (fc_eff_map (pv_core (snd r))))) = Ok 12%nat) by (vm_compute; reflexivity).
  apply bind_ok in Q as ((d' & v) & A & Q). exists demo_texts, demo_dict, d', v. split; [reflexivity|]. split; [exact A|]. cbn [snd] in Q. congruence.
Qed.
(** Reading the same dict twice gives two different vehicles. *)
Theorem C79_twice_refuted : exists (T : texts float) (d d' d'' : pydict float) (v w : pyveh float),
  from_dict T d = Ok (d', v) /\ from_dict T d' = Ok (d'', w) /\ length (fc_eff_map (pv_core v)) = 3%nat /\ length (fc_eff_map (pv_core w)) = 12%nat.
Proof.
  assert (Q : bindR (from_dict (F := float) demo_texts custom_dict) (fun r => bindR (from_dict demo_texts (fst r)) (fun s =>
    Ok (length (fc_eff_map (pv_core (snd r))), length (fc_eff_map (pv_core (snd s)))))) = Ok (3%nat, 12%nat)) by (vm_compute; reflexivity).
  apply bind_ok in Q as ((d' & v) & A & Q). apply bind_ok in Q as ((d'' & w) & B & Q). exists demo_texts, custom_dict, d', d'', v, w. cbn [fst snd] in *. injection Q as Q1 Q2. auto.
Qed.
Example C79_run :
  made (pset (filter (fun e => negb (mem (fst e) ["veh_year"; "regen_a"; "regen_b"; "props"; "mc_eff_map"])) custom_dict) "mc_peak_eff_override" (VNum 1.5%float))%string
    (fun r => let v := snd r in (fc_eff_map (pv_core v), pv_year v, regen_a (pv_core v), mc_peak_eff_override (pv_core v), drag_coef (pv_core v)))
    = Some ([0.1; 0.3; 0.25]%float, 2016%Z, 500%float, None, 0.3%float) /\
  from_dict demo_texts (F := float) (filter (fun e => negb (String.eqb (fst e) "fc_eff_map")) demo_dict) = Err KeyError /\
  from_dict demo_texts (F := float) (pset demo_dict "color" (VStr "red")) = Err KeyError /\
  from_dict demo_texts (F := float) (pset demo_dict "veh_kg" (VNum 1500%float)) = Err TypeError /\
  from_dict demo_texts (F := float) (pset custom_dict "mc_pwr_out_perc" (VStr "[0, 0.5, 1]")) = Err AssertionError.
Proof. vm_compute. repeat split. Qed.
Example C79_case : forall T : texts R, exists d' v, from_dict T (@demo_dict R RNum) = Ok (d', v) /\ attribute v "drag_coef" = Some (VNum (lit 3 10)) /\ default_maps v /\
  (pv_year v = 2016)%Z.
Proof.
  intros T. destruct (demo_copies T) as (c & _ & B & _). unfold copy_vehicle in B. apply bind_ok in B as ((d' & v) & A & _). exists d', v. split; [exact A|].
  assert (K : forall k t w, mem k ["drag_coef"; "veh_year"; "fc_eff_type"]%string = true -> In (k, t) keys_and_types -> of_type t w -> pget (@demo_dict R RNum) k = Some w -> attribute v k = Some w).
  { intros k t w M I O P. apply (C79_kept T _ d' v A k t w I O P). apply mem_in in M. cbn [In] in M. destruct M as [<-|[<-|[<-|[]]]]; notin. }
  split; [apply (K "drag_coef"%string TFloat); [reflexivity|do 4 right; left; reflexivity|exact Logic.I|reflexivity]|]. split.
  - assert (NT : forall k, mem k map_names = true -> not_text T (@demo_dict R RNum) k).
    { intros k M s. apply mem_in in M. cbn [In map_names] in M. destruct M as [<-|[<-|[<-|[<-|[]]]]]; cbn; discriminate. }
    destruct (C79_grids T _ d' v A) as (_ & G1 & _ & G2). destruct (C79_peaks T _ d' v A) as (P1 & P2). cbn in P1, P2.
    assert (N1 : fc_peak_eff_override (pv_core v) = None) by (destruct P1 as [(x & [] & _)|(_ & P)]; exact P).
    assert (N2 : mc_peak_eff_override (pv_core v) = None) by (destruct P2 as [(x & [] & _)|(_ & P)]; exact P).
    destruct (C79_engine_map T _ d' v A N1) as (_ & G3). destruct (C79_motor_map T _ d' v A N2) as (m & G4 & _ & G5).
    split; [apply G1, NT; reflexivity|]. split; [apply G3, NT; reflexivity|]. split; [apply G2, NT; reflexivity|]. exists m. split; [exact G4|]. apply G5, NT. reflexivity.
  - assert (Y : attribute v "veh_year" = Some (VInt 2016)) by (apply (K "veh_year"%string TInt); [reflexivity|do 2 right; left; reflexivity|exact Logic.I|reflexivity]).
    change (Some (VInt (F := R) (pv_year v)) = Some (VInt 2016)) in Y. congruence.
Qed.

(** *** C80: reading a cell *)
Section C80.
  Variables (T : texts R) (s : string).
  (** A percentage: the number before (or after, or around) the sign, divided by 100.  Other texts with a percent sign stay. *)
  Theorem C80_percent : has_percent s -> forall t, no_percent s t ->
    clean_data T (VStr s) = match to_float T t with Some x => VNum (x / 100) | None => VStr s end.
  Proof.
    intros P t N. apply percent_spec in P. apply no_percent_fun in N. subst t. unfold clean_data, clean_text. cbn [as_text]. rewrite P. reflexivity.
  Qed.
  (** Without one: truth values wherever the word occurs, then numbers, else the text. *)
  Theorem C80_true : ~ has_percent s -> mentions word_true s -> clean_data T (VStr s) = VBool true.
  Proof.
    intros P M. unfold clean_data, clean_text. cbn [as_text]. destruct (contains "%" s) eqn:Q; [apply percent_spec in Q; tauto|].
    apply (contains_spec _ _ true_proper) in M. change (lower_word word_true) with "true"%string in M. now rewrite M.
  Qed.
  Theorem C80_false : ~ has_percent s -> ~ mentions word_true s -> mentions word_false s -> clean_data T (VStr s) = VBool false.
  Proof.
    intros P M M'. unfold clean_data, clean_text. cbn [as_text]. destruct (contains "%" s) eqn:Q; [apply percent_spec in Q; tauto|].
    destruct (contains "true" s) eqn:Q1; [change "true"%string with (lower_word word_true) in Q1; apply (contains_spec _ _ true_proper) in Q1; tauto|].
    apply (contains_spec _ _ false_proper) in M'. change (lower_word word_false) with "false"%string in M'. now rewrite M'.
  Qed.
  Theorem C80_number : ~ has_percent s -> ~ mentions word_true s -> ~ mentions word_false s ->
    clean_data T (VStr s) = match to_float T s with Some x => VNum x | None => VStr s end.
  Proof.
    intros P M M'. unfold clean_data, clean_text. cbn [as_text]. destruct (contains "%" s) eqn:Q; [apply percent_spec in Q; tauto|].
    destruct (contains "true" s) eqn:Q1; [change "true"%string with (lower_word word_true) in Q1; apply (contains_spec _ _ true_proper) in Q1; tauto|].
    destruct (contains "false" s) eqn:Q2; [change "false"%string with (lower_word word_false) in Q2; apply (contains_spec _ _ false_proper) in Q2; tauto|]. reflexivity.
  Qed.
  (** Cells that are not text are read from the way Python prints them. *)
  Theorem C80_printed : forall w, (forall t, w <> VStr t) -> show T w = s -> clean_data T w = clean_data T (VStr s).
  Proof. intros w NW E. unfold clean_data. f_equal. destruct w; cbn [as_text]; try exact E. now destruct (NW s0). Qed.
End C80.
(** A name with one of the words in it is lost. *)
Theorem C80_name_refuted : exists s, ~ has_percent s /\ (forall T : texts R, clean_data T (VStr s) = VBool true) /\ s = "2027 Polestar True Range"%string.
Proof.
  exists "2027 Polestar True Range"%string. assert (NP : ~ has_percent "2027 Polestar True Range").
  { intros H. cbv in H. repeat (destruct H as [H|H]; [discriminate|]). exact H. }
  split; [exact NP|]. split; [|reflexivity]. intros T. apply C80_true; [exact NP|]. exists "2027 Polestar "%string, "True"%string, " Range"%string. split; [reflexivity|].
  unfold spells, word_true. cbn. repeat (apply Forall2_cons; [now auto|]). apply Forall2_nil.
Qed.
Example C80_run : map (fun s => clean_data (F := float) demo_texts (VStr s)) ["5%"; "100% electric"; "FALSE"; "Untrue"; "0.05"; "SI"]%string
  = [VNum 0.05%float; VStr "100% electric"; VBool false; VBool true; VNum 0.05%float; VStr "SI"]%string.
Proof. vm_compute. reflexivity. Qed.
Example C80_case : clean_data (F := R) demo_texts (VStr "5%") = VNum (5 / 100).
Proof.
  assert (P : has_percent "5%") by (right; left; reflexivity). assert (N : no_percent "5%" "5") by reflexivity.
  rewrite (C80_percent demo_texts _ P "5"%string N). reflexivity.
Qed.

(** *** C81: reading a table row *)
(** Old and new headings, with spaces or underscores, mean the same. *)
Theorem C81_headings : forall (T : texts R) (row row' : pydict R), Forall2 (fun e e' => same_column (fst e) (fst e') /\ snd e = snd e') row row' ->
  from_row T row = from_row T row'.
Proof. exact same_rows. Qed.
(** A heading that is neither a new nor an old name stops the reading. *)
Theorem C81_unknown_heading : forall (T : texts R) (row : pydict R) (c : string) (w : pyval R), In (c, w) row ->
  (forall new old, In (new, old) new_to_old -> underscored c <> new /\ underscored c <> old) -> from_row T row = Err AssertionError.
Proof.
  intros T row c w I N. unfold from_row. assert (A : accepted c = false).
  { unfold accepted. destruct (mem _ (map snd new_to_old)) eqn:Q1.
    { apply mem_in, in_map_iff in Q1 as ((new & old) & E & J). destruct (N _ _ J) as (_ & X). now destruct (X (eq_sym E)). }
    destruct (mem _ (map fst new_to_old)) eqn:Q2.
    { apply mem_in, in_map_iff in Q2 as ((new & old) & E & J). destruct (N _ _ J) as (X & _). now destruct (X (eq_sym E)). }
    cbn [orb]. destruct (mem _ ["fc_peak_eff_override"; "mc_peak_eff_override"]%string) eqn:Q3; [|reflexivity]. apply mem_in in Q3.
    assert (Q4 : mem (underscored c) (map fst new_to_old) = true). { cbn [In] in Q3. destruct Q3 as [<-|[<-|[]]]; vm_compute; reflexivity. }
    congruence. }
  destruct (forallb (fun e => accepted (fst e)) row) eqn:F; [|reflexivity]. rewrite forallb_forall in F. apply F in I. cbn in I. congruence.
Qed.
(** The vehicle has what the last column for a parameter says, read as in C80, if that is of the right type. *)
Theorem C81_values : forall (T : texts R) (row d' : pydict R) (v : pyveh R), from_row T row = Ok (d', v) ->
  forall k t w, In (k, t) keys_and_types -> last_column column_key row k w -> of_type t (clean_data T w) ->
    ~ In k ["veh_override_kg"; "fc_peak_eff_override"; "mc_peak_eff_override"]%string -> attribute v k = Some (clean_data T w).
Proof.
  intros T row d' v H k t w I C O N. unfold from_row in H. apply bind_ok in H as (? & _ & H). apply (C79_kept T _ d' v H k t); auto. now apply row_get.
Qed.
(** A number in the cell of a parameter that takes numbers, with and without percent sign. *)
Theorem C81_percentages : forall (T : texts R) (row d' : pydict R) (v : pyveh R), from_row T row = Ok (d', v) ->
  forall k s t x, In (k, TFloat) keys_and_types -> last_column column_key row k (VStr s) -> has_percent s -> no_percent s t -> to_float T t = Some x ->
    ~ In k ["veh_override_kg"; "fc_peak_eff_override"; "mc_peak_eff_override"]%string -> attribute v k = Some (VNum (x / 100)).
Proof.
  intros T row d' v H k s t x I C P NP X N. pose proof (C80_percent T s P t NP) as E. rewrite X in E. rewrite <- E. apply (C81_values T row d' v H k TFloat); auto. rewrite E. exact Logic.I.
Qed.
(** The name of a vehicle that mentions "true" becomes the text of the truth value, and its year is lost with it. *)
Theorem C81_name_refuted : exists (T : texts float) (row d' : pydict float) (v : pyveh float),
  pget row "scenario_name" = Some (VStr "2027 Polestar True Range") /\ from_row T row = Ok (d', v) /\ pv_scenario v = "True"%string /\ pv_year v = 0%Z.
Proof.
  pose (T := mktexts (fun s => if String.eqb s "n" then Some 0.9%float else None) (fun _ => None) (to_literal demo_texts)
    (fun v => match v with VNum _ | VInt _ => "n" | VBool true => "True" | VBool false => "False" | VStr s => s | _ => "other" end)%string).
  pose (row := filter (fun e => negb (mem (fst e) ["veh_year"; "props"; "veh_override_kg"; "fc_peak_eff_override"; "mc_peak_eff_override"]))%string
    (pset (pset demo_dict "scenario_name" (VStr "2027 Polestar True Range")) "stop_start" (VBool false))).
  assert (Q : bindR (from_row T row) (fun r => Ok (pv_scenario (snd r), pv_year (snd r))) = Ok ("True"%string, 0%Z)) by (vm_compute; reflexivity).
  apply bind_ok in Q as ((d' & v) & A & Q). exists T, row, d', v. split; [reflexivity|]. split; [exact A|]. cbn [snd] in Q. injection Q as Q1 Q2. auto.
Qed.
Example C81_run :
  let T := mktexts (fun s => if String.eqb s "n" then Some 0.9%float else if String.eqb s "30" then Some 30%float else None) (fun _ => None) (to_literal demo_texts)
    (fun v => match v with VNum _ | VInt _ => "n" | VBool true => "True" | VBool false => "False" | VStr s => s | _ => "other" end)%string in
  let base := filter (fun e => negb (mem (fst e) ["props"; "veh_override_kg"; "fc_peak_eff_override"; "mc_peak_eff_override"; "drag_coef"]))%string demo_dict in
  let drag row := match from_row T row with Ok (_, v) => Some (drag_coef (pv_core v), pv_scenario v) | Err _ => None end in
  drag (base ++ [("drag_coef"%string, VStr "30%")]) = Some (0.3%float, "2016 demo hybrid"%string) /\
  drag (base ++ [("drag coef"%string, VStr "30%")]) = Some (0.3%float, "2016 demo hybrid"%string) /\
  drag (base ++ [("drag_coef"%string, VStr "n"); ("dragCoef"%string, VStr "30%")]) = Some (0.3%float, "2016 demo hybrid"%string) /\
  from_row T (base ++ [("color"%string, VStr "red")]) = Err AssertionError.
Proof. vm_compute. repeat split. Qed.
Example C81_case : same_column "Scenario name" "scenario_name" /\
  last_column (F := R) column_key [("dragCoef", VStr "n"); ("drag_coef", VStr "30%"); ("cargoKg", VStr "n")]%string "drag_coef" (VStr "30%").
Proof.
  split.
  - exists "scenario_name"%string, "Scenario_name"%string. split; [do 4 right; left; reflexivity|]. split; [right|left]; reflexivity.
  - exists [("dragCoef", VStr "n")]%string, "drag_coef"%string, [("cargoKg", VStr "n")]%string. split; [reflexivity|]. split; [vm_compute; reflexivity|]. intros e [<-|[]]. vm_compute. discriminate.
Qed.
