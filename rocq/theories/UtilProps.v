(** Properties C51-C55 and C69-C75 of the utilities (python/fastsim/utils/utilities.py, auxiliaries.py, calibration.py,
    resample.py, parameters.py).  Each group of theorems is followed by concrete cases that meet its hypotheses
    ([_run]: the model executed; [_case]: an instance over the reals). *)
From Coq Require Import Ascii Floats Sorting.Sorted Lia.
From Verif Require Import Num FloatNum Numpy ListFacts CycleModel CycleSpec ConcatProofs ResampleProofs VehModel SimModel SimState WalkModel FrameProofs
  SimDemo SimProps UtilModel UtilSpec PathProofs TextProofs VehProofs UtilProofs UtilProofs2.
Local Open Scope R_scope.
Local Set Warnings "-inexact-float".
Ltac incr_tac := apply increasing_SS; repeat (apply SSorted_cons; [|repeat (apply Forall_cons; [lra|]); apply Forall_nil]); apply SSorted_nil.

(** ** C51 *)
(** Numbers: exactly the standard ones are accepted; the call sets both loggers and returns the level before. *)
Theorem C51_set_number : forall (st : levels) (z : Z),
  (standard z -> set_log_level st (LInt z) = (mklevels z z, Ok (fast_level st))) /\
  (~ standard z -> set_log_level st (LInt z) = (st, Err AssertionError)).
Proof. intros st z. split; [apply set_int|apply set_int_bad]. Qed.
(** Names, in any case; NONE is let through by the check but not known to the logging library. *)
Theorem C51_set_name : forall (st : levels) (s : string),
  (forall n z, In (n, z) [("CRITICAL", 50); ("ERROR", 40); ("WARNING", 30); ("INFO", 20); ("DEBUG", 10); ("NOTSET", 0)]%string%Z ->
     upper s = n -> set_log_level st (LStr s) = (mklevels z z, Ok (fast_level st))) /\
  (upper s = "NONE"%string -> set_log_level st (LStr s) = (st, Err KeyError)) /\
  (~ In (upper s) ["CRITICAL"; "ERROR"; "WARNING"; "INFO"; "DEBUG"; "NOTSET"; "NONE"]%string -> set_log_level st (LStr s) = (st, Err AssertionError)).
Proof.
  intros st s. repeat split.
  - intros n z I E. unfold set_log_level. rewrite E. cbn in I. intuition (match goal with H : (_, _) = (_, _) |- _ => injection H as <- <- end; reflexivity).
  - intros E. unfold set_log_level. rewrite E. reflexivity.
  - intros E. unfold set_log_level. change (map fst allowed_args) with ["CRITICAL"; "ERROR"; "WARNING"; "INFO"; "DEBUG"; "NOTSET"; "NONE"]%string.
    apply existsb_name_false in E. rewrite E. reflexivity.
Qed.
Theorem C51_restored : forall (T : Type) (body : levels -> levels * Res T) (st : levels), standard (fast_level st) ->
  fast_level (fst (suppress_logging body st)) = fast_level st /\ snd (suppress_logging body st) = snd (body (mklevels 51 51)).
Proof. intros T body st H. rewrite suppress_std by auto. auto. Qed.
(** Both loggers are off inside, whatever they were set to. *)
Theorem C51_off_inside : forall (T : Type) (b1 b2 : levels -> levels * Res T) (st : levels),
  b1 (mklevels 51 51) = b2 (mklevels 51 51) -> suppress_logging b1 st = suppress_logging b2 st.
Proof. intros T b1 b2 st H. unfold suppress_logging, disable_logging. rewrite set_int by (unfold standard; tauto). rewrite H. reflexivity. Qed.
Theorem C51_nested : forall (T : Type) (body : levels -> levels * Res T) (st : levels), standard (fast_level st) ->
  suppress_logging (suppress_logging body) st = suppress_logging body st.
Proof. intros T body st H. rewrite !suppress_std; auto. cbn. unfold standard; tauto. Qed.
(** The other logger ends with the level of the first. *)
Theorem C51_core_level : forall (T : Type) (body : levels -> levels * Res T) (st : levels), standard (fast_level st) ->
  core_level (fst (suppress_logging body st)) = fast_level st.
Proof. intros T body st H. rewrite suppress_std by auto. auto. Qed.
Theorem C51_core_restored_refuted : exists (st : levels) (body : levels -> levels * Res unit),
  standard (fast_level st) /\ standard (core_level st) /\ body = (fun s => (s, Ok tt)) /\ core_level (fst (suppress_logging body st)) <> core_level st.
Proof. exists (mklevels 30 10), (fun s => (s, Ok tt)). cbn. unfold standard. repeat split; try tauto. discriminate. Qed.
(** With a level such as 25 the exit fails, hides what the body gave, and logging stays off. *)
Theorem C51_other_levels : forall (T : Type) (r : Res T) (st : levels), ~ standard (fast_level st) ->
  suppress_logging (fun s => (s, r)) st = (mklevels 51 51, Err AssertionError).
Proof. intros T r st H. rewrite suppress_odd by auto. reflexivity. Qed.
Theorem C51_restored_any_refuted : exists st : levels, fast_level (fst (suppress_logging (fun s => (s, Ok tt)) st)) <> fast_level st.
Proof. exists (mklevels 25 25). cbn. discriminate. Qed.
Theorem C51_disable_enable : forall (st : levels) (z : Z), standard z ->
  disable_logging st = (mklevels 51 51, Ok (fast_level st)) /\
  enable_logging st (Some (LInt z)) = (mklevels z z, Ok tt) /\ enable_logging st None = (mklevels 30 30, Ok tt).
Proof. intros st z H. unfold disable_logging, enable_logging. rewrite !set_int by (auto; unfold standard; tauto). auto. Qed.
Example C51_run :
  set_log_level (mklevels 30 10) (LStr "Debug") = (mklevels 10 10, Ok 30%Z) /\ set_log_level (mklevels 30 10) (LStr "none") = (mklevels 30 10, Err KeyError) /\
  set_log_level (mklevels 30 10) (LStr "verbose") = (mklevels 30 10, Err AssertionError) /\ set_log_level (mklevels 0 0) (LInt 51) = (mklevels 51 51, Ok 0%Z) /\
  suppress_logging (fun s => let (s', _) := set_log_level s (LInt 10) in (s', Err (A := unit) ValueError)) (mklevels 20 20) = (mklevels 20 20, Err ValueError).
Proof. repeat split. Qed.

(** ** C52 *)
Theorem C52_read : forall (A : Type) (h : heap A) (o : pyval A) (p : list string), p <> [] ->
  (forall x, get_attr_with_path h o p = Ok x <-> leads h o p x) /\ (forall e, get_attr_with_path h o p = Err e -> e = AttributeError).
Proof. intros A h o p P. split; [intros x; apply get_spec; auto|intros e; apply get_fails; auto]. Qed.
(** Setting succeeds when the path leads to an object that is to get the attribute and all objects after the first on
    the way can be reset; then exactly this attribute of this object changes and the first object is returned. *)
Theorem C52_succeeds : forall (A : Type) (h : heap A) (r : nat) (p : list string) (v : pyval A) (l : nat), p <> [] -> (r < length h)%nat ->
  leads h (Ref r) (removelast p) (Ref l) -> ~ goes_through h (Ref r) (removelast p) l (last p ""%string) ->
  (forall q s k, removelast p = q ++ s -> q <> [] -> leads h (Ref r) q (Ref k) -> has_reset h k) ->
  exists h', set_attr_with_path h (Ref r) p v = (h', Ok (Ref r)) /\ only_changes h h' l (last p ""%string) v.
Proof.
  intros A h r p v l P L D NG T. destruct (set_form h r p l v P L D NG) as (_ & _ & _ & K). eexists. split; [apply K; exact T|].
  apply only_changes_upd. destruct (set_only h r p v _ _ l P D NG (K T)) as (_ & _ & B). exact B.
Qed.
Theorem C52_only : forall (A : Type) (h h' : heap A) (r : nat) (p : list string) (v s : pyval A) (l : nat), p <> [] ->
  leads h (Ref r) (removelast p) (Ref l) -> ~ goes_through h (Ref r) (removelast p) l (last p ""%string) ->
  set_attr_with_path h (Ref r) p v = (h', Ok s) -> s = Ref r /\ only_changes h h' l (last p ""%string) v.
Proof. intros A h h' r p v s l P D NG E. destruct (set_only h r p v h' s l P D NG E) as (-> & -> & B). split; auto. apply only_changes_upd. auto. Qed.
Theorem C52_get_after_set : forall (A : Type) (h h' : heap A) (r : nat) (p : list string) (v s : pyval A), tree h r -> p <> [] ->
  set_attr_with_path h (Ref r) p v = (h', Ok s) -> get_attr_with_path h' (Ref r) p = Ok v.
Proof. intros A h h' r p v s. apply tree_get_set. Qed.
Theorem C52_set_same : forall (A : Type) (h h' : heap A) (r : nat) (p : list string) (v : pyval A) (s : Res (pyval A)), p <> [] ->
  get_attr_with_path h (Ref r) p = Ok v -> set_attr_with_path h (Ref r) p v = (h', s) -> h' = h.
Proof. intros A h h' r p v s P G E. apply get_spec in G; auto. pose proof (set_same h r p v P G) as Q. rewrite E in Q. exact Q. Qed.
Theorem C52_second_wins : forall (A : Type) (h h' : heap A) (r : nat) (p : list string) (v w s : pyval A), tree h r -> p <> [] ->
  set_attr_with_path h (Ref r) p v = (h', Ok s) -> set_attr_with_path h' (Ref r) p w = set_attr_with_path h (Ref r) p w.
Proof. intros A h h' r p v w s. apply tree_set_set. Qed.
(** Everything not below the path reads as before. *)
Theorem C52_elsewhere : forall (A : Type) (h h' : heap A) (r : nat) (p q : list string) (v s : pyval A), tree h r -> p <> [] -> q <> [] ->
  set_attr_with_path h (Ref r) p v = (h', Ok s) -> ~ is_prefix p q -> get_attr_with_path h' (Ref r) q = get_attr_with_path h (Ref r) q.
Proof. intros A h h' r p q v s. apply tree_frame. Qed.
(** Two paths of which none continues the other: both sets are seen. *)
Theorem C52_disjoint : forall (A : Type) (h h1 h2 : heap A) (r : nat) (p q : list string) (a : A) (w s t : pyval A), tree h r -> p <> [] -> q <> [] ->
  ~ is_prefix q p -> set_attr_with_path h (Ref r) p (Data a) = (h1, Ok s) -> set_attr_with_path h1 (Ref r) q w = (h2, Ok t) ->
  get_attr_with_path h2 (Ref r) p = Ok (Data a) /\ get_attr_with_path h2 (Ref r) q = Ok w.
Proof.
  intros A h h1 h2 r p q a w s t T P Q N E1 E2. pose proof (tree_set_tree h r p a h1 s T P E1) as T1. split.
  - rewrite (tree_frame h1 r q w h2 t p T1 Q P E2 N). exact (tree_get_set h r p (Data a) h1 s T P E1).
  - exact (tree_get_set h1 r q w h2 t T1 Q E2).
Qed.
(** The same without assuming a tree: paths must not go through the attribute set. *)
Theorem C52_shared : forall (A : Type) (h h' : heap A) (r l : nat) (p q : list string) (o v s : pyval A), p <> [] -> q <> [] ->
  leads h (Ref r) (removelast p) (Ref l) -> ~ goes_through h (Ref r) (removelast p) l (last p ""%string) ->
  set_attr_with_path h (Ref r) p v = (h', Ok s) ->
  get_attr_with_path h' (Ref r) p = Ok v /\ (~ goes_through h o q l (last p ""%string) -> get_attr_with_path h' o q = get_attr_with_path h o q).
Proof.
  intros A h h' r l p q o v s P Q D NG E. split; [exact (get_set h r p v h' s l P D NG E)|].
  intros N. exact (path_frame h r p v h' s l o q P D NG E Q N).
Qed.
(** A missing object on the way is an error and nothing changes; so is one that cannot take part. *)
Theorem C52_missing : forall (A : Type) (h : heap A) (o : pyval A) (p : list string) (v : pyval A), p <> [] ->
  (forall l, ~ leads h o (removelast p) (Ref l)) -> set_attr_with_path h o p v = (h, Err AttributeError).
Proof. intros A h o p v. apply set_missing. Qed.
Theorem C52_not_resettable : forall (A : Type) (h : heap A) (o : pyval A) (p : list string) (v : pyval A) (l : nat), p <> [] -> removelast p <> [] ->
  leads h o (removelast p) (Ref l) -> ~ has_reset h l -> set_attr_with_path h o p v = (h, Err AttributeError).
Proof. intros A h o p v l. apply set_not_object. Qed.
Theorem C52_errors : forall (A : Type) (h h' : heap A) (o : pyval A) (p : list string) (v : pyval A) (e : exn),
  set_attr_with_path h o p v = (h', Err e) -> (p <> [] /\ e = AttributeError) \/ (p = [] /\ e = IndexError /\ h' = h).
Proof.
  intros A h h' o p v e E. destruct p as [|n p]; [right|left].
  - cbn in E. injection E as <- <-. auto.
  - split; [discriminate|]. eapply set_errors; eauto. discriminate.
Qed.
(** A failed call can have changed the object: sim.veh.x = v where veh cannot be reset is refused after the fact if it
    is not the innermost one. *)
Theorem C52_all_or_nothing_refuted : exists (h h' : heap nat) (p : list string) (e : exn),
  set_attr_with_path h (Ref 0) p (Data 7%nat) = (h', Err e) /\ get_attr_with_path h (Ref 0) p = Ok (Data 1%nat) /\ get_attr_with_path h' (Ref 0) p = Ok (Data 7%nat).
Proof.
  exists [mkobj [("sim", Ref 1)]%string true; mkobj [("veh", Ref 2)]%string false; mkobj [("x", Data 1%nat)]%string true].
  eexists. exists ["sim"; "veh"; "x"]%string. eexists. cbv. auto.
Qed.
(** A misspelt last name is not an error: it creates a new attribute. *)
Theorem C52_unknown_name_refuted : exists (h h' : heap nat) (n : string),
  get_attr_with_path h (Ref 0) [n] = Err AttributeError /\ set_attr_with_path h (Ref 0) [n] (Data 7%nat) = (h', Ok (Ref 0)) /\ get_attr_with_path h' (Ref 0) [n] = Ok (Data 7%nat).
Proof. exists [mkobj [("veh_kg", Data 1%nat)]%string true]. eexists. exists "vehkg"%string. cbv. auto. Qed.
Theorem C52_in_order : forall (A : Type) (h : heap A) (o : pyval A) (a b : list (list string * pyval A)),
  set_attrs_with_path h o [] = (h, Ok o) /\
  (forall p v, set_attrs_with_path h o [(p, v)] = set_attr_with_path h o p v) /\
  set_attrs_with_path h o (a ++ b) = match set_attrs_with_path h o a with (h', Ok s) => set_attrs_with_path h' s b | (h', Err e) => (h', Err e) end.
Proof.
  intros A h o a b. split; [reflexivity|]. split; [|apply set_attrs_app]. intros p v. cbn [set_attrs_with_path]. destruct (set_attr_with_path h o p v) as [h' [s|e]]; reflexivity.
Qed.
(** A path as text is its names joined by dots. *)
Theorem C52_dotted : forall (s : string) (ws : list string),
  (join "." (split_dot s) = s /\ Forall (text_all (fun c => c <> "."%char)) (split_dot s) /\ split_dot s <> []) /\
  (ws <> [] -> Forall (text_all (fun c => c <> "."%char)) ws -> split_dot (join "." ws) = ws).
Proof. intros s ws. destruct (split_dot_spec s). repeat split; auto using split_dot_ne. apply split_join. Qed.
Definition demo_heap : heap Z :=
  [mkobj [("veh", Ref 1); ("cyc", Ref 2)]%string false; mkobj [("veh_kg", Data 1200%Z); ("props", Ref 3)]%string true;
   mkobj [("time_s", Data 5%Z)]%string true; mkobj [("air_density", Data 12%Z)]%string false].
Lemma demo_attrs : forall l n c, has_attr demo_heap l n (Ref c) -> (l = 0 /\ n = "veh"%string /\ c = 1)%nat \/ (l = 0 /\ n = "cyc"%string /\ c = 2)%nat \/ (l = 1 /\ n = "props"%string /\ c = 3)%nat.
Proof.
  intros l n c (ob & k & E & F).
  destruct l as [|[|[|[|l]]]]; cbn in E; try (injection E as <-); cbn -[String.eqb] in F;
    repeat match type of F with (if String.eqb ?x n then _ else _) = _ => let q := fresh in destruct (String.eqb x n) eqn:q; [apply String.eqb_eq in q; subst n|]; cbn -[String.eqb] in F end;
    try discriminate; try (injection F; intros; subst; auto 9; fail). all: try (destruct l; discriminate).
Qed.
Lemma demo_tree : tree demo_heap 0.
Proof.
  split.
  - intros l n H. apply demo_attrs in H. intuition discriminate.
  - intros l n l' n' c H H'. apply demo_attrs in H. apply demo_attrs in H'. intuition (subst; try discriminate; auto).
Qed.
Example C52_run : forall h', fst (set_attr_with_path demo_heap (Ref 0) (split_dot "veh.veh_kg") (Data 1500%Z)) = h' ->
  snd (set_attr_with_path demo_heap (Ref 0) (split_dot "veh.veh_kg") (Data 1500%Z)) = Ok (Ref 0) /\
  get_attr_with_path h' (Ref 0) (split_dot "veh.veh_kg") = Ok (Data 1500%Z) /\ get_attr_with_path h' (Ref 0) (split_dot "cyc.time_s") = Ok (Data 5%Z) /\
  set_attr_with_path demo_heap (Ref 0) (split_dot "veh.props.air_density") (Data 11%Z) = (demo_heap, Err AttributeError) /\
  set_attr_with_path demo_heap (Ref 0) (split_dot "vehicle.veh_kg") (Data 11%Z) = (demo_heap, Err AttributeError).
Proof. intros h' <-. cbv. auto. Qed.
Example C52_case : exists h', set_attr_with_path demo_heap (Ref 0) ["veh"; "veh_kg"]%string (Data 1500%Z) = (h', Ok (Ref 0)) /\
  get_attr_with_path h' (Ref 0) ["cyc"; "time_s"]%string = get_attr_with_path demo_heap (Ref 0) ["cyc"; "time_s"]%string.
Proof.
  eexists. split; [reflexivity|]. eapply (C52_elsewhere _ demo_heap _ 0 ["veh"; "veh_kg"]%string); [apply demo_tree|discriminate|discriminate|reflexivity|].
  intros (r & E). discriminate.
Qed.

(** ** C53 *)
(** The coefficients are those of the road load on level ground, pounds-force at miles per hour. *)
Theorem C53_road_load : forall (v : vehicle R) (custom : option (R * R)) (a b c mps : R), drag_coeffs_to_abc v custom = (a, b, c) ->
  let mph := mps * (22369 / 10000) in
  b = 0 /\ (a + b * mph + c * mph ^ 2) * (4448 / 1000) =
  road_load (veh_kg v) (wheel_rr_coef v) (981 / 100) (match custom with None => 12 / 10 | Some (t, e) => get_rho_air t e end) (drag_coef v) (frontal_area_m2 v) mps.
Proof.
  intros v custom a b c mps E. cbv zeta. pose proof (abc_values v custom) as B. rewrite E in B. split; [apply B|].
  rewrite (abc_load v custom a b c mps E). unfold ambient_density. destruct custom as [[t e]|]; [reflexivity|]. now rewrite lit_R.
Qed.
Theorem C53_there_and_back : forall (v v' : vehicle R) (custom : option (R * R)) (a b c b' d r : R),
  veh_kg v <> 0 -> frontal_area_m2 v <> 0 -> ambient_density custom <> 0 -> drag_coeffs_to_abc v custom = (a, b, c) ->
  abc_to_drag_coeffs v a b' c custom = Ok (v', (d, r)) -> v' = v /\ d = drag_coef v /\ r = wheel_rr_coef v.
Proof. exact abc_there_back. Qed.
Theorem C53_back_and_there : forall (v v' : vehicle R) (custom : option (R * R)) (a b c d r : R),
  veh_kg v <> 0 -> frontal_area_m2 v <> 0 -> ambient_density custom <> 0 ->
  abc_to_drag_coeffs v a b c custom = Ok (v', (d, r)) -> drag_coeffs_to_abc v' custom = (a, 0, c).
Proof. exact abc_back_there. Qed.
(** The vehicle passed in is changed, in these two parameters only, and the middle coefficient is not used. *)
Theorem C53_changed : forall (v v' : vehicle R) (a b c : R) (custom : option (R * R)) (d r : R),
  abc_to_drag_coeffs v a b c custom = Ok (v', (d, r)) ->
  v' = with_drag v d r /\ d = c * (4448 / 1000) * (22369 / 10000) ^ 2 / (1 / 2 * frontal_area_m2 v * ambient_density custom) /\
  r = a * (4448 / 1000) / veh_kg v / (981 / 100) /\ (forall b', abc_to_drag_coeffs v a b' c custom = Ok (v', (d, r))).
Proof. intros v v' a b c custom d r E. destruct (abc_result v v' a b c custom d r E) as (E1 & E2 & E3). repeat split; auto. Qed.
(** The coast-down run that the function does is not one with imposed coasting: switching coasting on before
    sim_drive has no effect. *)
Theorem C53_no_coasting : forall (F : Type) (N : Num F) (d : sdrive F) (s : option F) (o : option (list F)), sim_drive (impose_all d) s o = sim_drive d s o.
Proof. intros F N. exact impose_preset. Qed.
Theorem C53_middle_refuted : exists (v v' : vehicle float) (a b c d r : float),
  abc_to_drag_coeffs v a b c None = Ok (v', (d, r)) /\ let '(_, b', _) := drag_coeffs_to_abc v' None in PrimFloat.eqb b' b = false.
Proof.
  destruct (ok_witness (abc_to_drag_coeffs demo_conv 33.082284172661872%float 0.4%float 0.016175010943216953%float None)
    (fun x : vehicle float * (float * float) => let '(_, b', _) := drag_coeffs_to_abc (fst x) None in negb (PrimFloat.eqb b' 0.4))%float) as ((v' & d & r) & E & Q).
  { vm_compute. reflexivity. }
  exists demo_conv, v', 33.082284172661872%float, 0.4%float, 0.016175010943216953%float, d, r. split; [exact E|].
  cbn [fst] in Q. destruct (drag_coeffs_to_abc v' None) as [[a' b'] c']. apply Bool.negb_true_iff in Q. exact Q.
Qed.
Example C53_run : drag_coeffs_to_abc demo_hev None = (33.082284172661872, 0, 0.016175010943216953)%float.
Proof. vm_compute. reflexivity. Qed.

(** ** C54 *)
Theorem C54_consumption : forall x : R, x <> 0 ->
  exists y, mpg_to_l__100km x = Ok y /\ l__100km_to_mpg x = Ok y /\ x * y = 378500 / 1609 /\ l__100km_to_mpg y = Ok x /\ mpg_to_l__100km y = Ok x.
Proof.
  intros x H. destruct (mpg_value x H) as [A B]. exists (378500 / 1609 / x). assert (Y : 378500 / 1609 / x <> 0).
  { unfold Rdiv. apply Rmult_integral_contrapositive_currified; [lra|]. apply Rinv_neq_0_compat. auto. }
  destruct (mpg_value _ Y) as [C D]. rewrite A, B, C, D. repeat split; auto; [field; auto| |]; f_equal; field; auto.
Qed.
Theorem C54_zero : mpg_to_l__100km 0 = Err ZeroDivisionError /\ l__100km_to_mpg 0 = Err ZeroDivisionError.
Proof. destruct mpg_zero. auto. Qed.
Theorem C54_mph : forall (c : cyc R) (l : list R), get_mph (set_mph c l) = l /\ set_mph c (get_mph c) = c /\
  Forall2 (fun mph mps => mph = mps * (22369 / 10000)) (get_mph c) (mps c).
Proof.
  intros c l. split; [apply mph_set_get|]. split; [apply mph_get_set|]. unfold get_mph. induction (mps c) as [|x m IH]; cbn [map]; constructor; [|exact IH].
  unR. unfold MPH_PER_MPS. rewrite lit_R. reflexivity.
Qed.
Theorem C54_lhv : forall (p : pprops R) (x : R), pp_fuel_rho p <> 0 ->
  get_fuel_lhv (set_fuel_lhv p x) = x /\ set_fuel_lhv p (get_fuel_lhv p) = p /\
  get_fuel_lhv p * pp_fuel_rho p * (3785 / 1000) = pp_kwh_per_gge p * 3600 /\
  (let q := set_fuel_lhv p x in pp_air_density q = pp_air_density p /\ pp_grav q = pp_grav p /\ pp_fuel_rho q = pp_fuel_rho p /\ pp_fuel_afr q = pp_fuel_afr p).
Proof.
  intros p x H. split; [apply lhv_get_set; auto|]. split; [apply lhv_set_get; auto|]. split; [|repeat split].
  unfold get_fuel_lhv. unR. rewrite lit_R. field. auto.
Qed.
Example C54_run : mpg_to_l__100km 30%float = Ok 7.8413093018437943%float /\ get_fuel_lhv (F := float) default_props = 42737.120211360634%float.
Proof. vm_compute. auto. Qed.

(** ** C55 *)
(** Mean over time of the absolute difference, by trapezoids. *)
Theorem C55_value : forall (m e t : list R), length m = length t -> length e = length t -> t <> [] ->
  get_error_val m e t = Ok (area t (gaps m e) / (last t 0 - hd 0 t)).
Proof. exact error_value. Qed.
Theorem C55_rejected : forall (m e t : list R), (length m <> length e \/ length e <> length t -> get_error_val m e t = Err AssertionError) /\
  (m = [] -> e = [] -> t = [] -> get_error_val m e t = Err IndexError).
Proof. intros m e t. split; [apply error_unequal|]. intros -> -> ->. apply error_empty. Qed.
Theorem C55_metric : forall (m e t : list R) (r : R), increasing t -> (2 <= length t)%nat -> get_error_val m e t = Ok r ->
  0 <= r /\ (r = 0 <-> m = e) /\ get_error_val e m t = Ok r.
Proof. intros m e t r I T E. split; [eapply err_nonneg; eauto|]. split; [eapply err_zero; eauto|]. rewrite err_sym. auto. Qed.
Theorem C55_triangle : forall (a b c t : list R) (rab rbc rac : R), increasing t -> (2 <= length t)%nat ->
  get_error_val a b t = Ok rab -> get_error_val b c t = Ok rbc -> get_error_val a c t = Ok rac -> rac <= rab + rbc.
Proof. exact err_triangle. Qed.
Theorem C55_scale : forall (k : R) (m e t : list R) (r : R), get_error_val m e t = Ok r ->
  get_error_val (map (Rmult k) m) (map (Rmult k) e) t = Ok (Rabs k * r).
Proof. exact err_scale. Qed.
Theorem C55_units_of_time : forall (s k : R) (m e t : list R) (r : R), k <> 0 -> get_error_val m e t = Ok r -> get_error_val m e (map (fun x => s + k * x) t) = Ok r.
Proof. exact err_time. Qed.
Theorem C55_between : forall (m e t : list R) (r lo hi : R), increasing t -> (2 <= length t)%nat -> get_error_val m e t = Ok r ->
  (forall i, (i < length t)%nat -> lo <= Rabs (nth i m 0 - nth i e 0) <= hi) -> lo <= r <= hi.
Proof.
  intros m e t r lo hi I T E H. split; [eapply (err_below m e t r); eauto|eapply (err_bound m e t r); eauto]; intros i Hi; apply H; auto.
Qed.
Example C55_run : (get_error_val [1; 2; 4] [1; 3; 2] [0; 1; 3])%float = Ok 1.1666666666666667%float.
Proof. vm_compute. reflexivity. Qed.
Example C55_case : exists r, increasing [0; 1; 3] /\ get_error_val [1; 2; 4] [1; 3; 2] [0; 1; 3] = Ok r /\ 0 < r.
Proof.
  assert (I : increasing [0; 1; 3]) by incr_tac.
  eexists. split; [exact I|]. split; [apply C55_value; cbn; congruence|]. cbn.
  unfold Rabs. repeat destruct (Rcase_abs _); lra.
Qed.

(** ** C69 *)
(** Ideal gas at the pressure of the standard atmosphere. *)
Theorem C69_value : forall t h : R, h < 44397 -> get_rho_air t h * (287 * (t + 27315 / 100)) =
  (if Req_EM_T t (-27315 / 100) then 0 else 101290 * Rpower ((288140 / 1000 - 649 / 100000 * h) / (28808 / 100)) (5256 / 1000)).
Proof.
  intros t h H. rewrite rho_value. rewrite Rpow_pos by (apply rho_base; auto). destruct (Req_EM_T t (-27315 / 100)) as [->|N].
  - replace (-27315 / 100 + 27315 / 100) with 0 by field. ring.
  - replace (1504 / 100 - 649 / 100000 * h + 2731 / 10) with (288140 / 1000 - 649 / 100000 * h) by field. field. intros Q. apply N. lra.
Qed.
Theorem C69_positive : forall t h : R, -27315 / 100 < t -> h < 44397 -> 0 < get_rho_air t h.
Proof. exact rho_pos. Qed.
Theorem C69_thinner : forall t t' h h' : R, -27315 / 100 < t -> t <= t' -> h <= h' -> h' < 44397 -> (t < t' \/ h < h') -> get_rho_air t' h' < get_rho_air t h.
Proof.
  intros t t' h h' T1 T2 H1 H2 [L|L].
  - destruct (Rle_lt_or_eq_dec _ _ H1) as [M| ->].
    + apply Rlt_trans with (get_rho_air t' h); [apply rho_elev|apply rho_temp]; lra.
    + apply rho_temp; lra.
  - destruct (Rle_lt_or_eq_dec _ _ T2) as [M| ->].
    + apply Rlt_trans with (get_rho_air t' h); [apply rho_elev|apply rho_temp]; lra.
    + apply rho_elev; lra.
Qed.
Theorem C69_ideal_gas : forall t t' h : R, -27315 / 100 < t -> -27315 / 100 < t' -> get_rho_air t h * (t + 27315 / 100) = get_rho_air t' h * (t' + 27315 / 100).
Proof. exact rho_gas. Qed.
Example C69_case : get_rho_air 35 1600 < get_rho_air 15 0.
Proof. apply C69_thinner; lra. Qed.

(** ** C70 *)
(** What counts as a letter or digit: the 26 capitals, the 26 small letters and the ten digits, and the capital at a place of the
    alphabet becomes the small letter at that place. *)
Theorem C70_letters : forall c : ascii,
  let caps := list_ascii_of_string "ABCDEFGHIJKLMNOPQRSTUVWXYZ" in
  let smalls := list_ascii_of_string "abcdefghijklmnopqrstuvwxyz" in
  let digits := list_ascii_of_string "0123456789" in
  (is_upper c = true <-> In c caps) /\ (is_lower c = true <-> In c smalls) /\ (is_digit c = true <-> In c digits) /\
  (forall i, nth_error caps i = Some c -> nth_error smalls i = Some (to_lower c)) /\ (~ In c caps -> to_lower c = c).
Proof.
  intros c. cbv zeta.
  assert (D : forall l, In c l <-> existsb (Ascii.eqb c) l = true).
  { intros l. rewrite existsb_exists. split; [intros I; exists c; split; [exact I|apply Ascii.eqb_refl]|].
    intros (x & I & Q). apply Ascii.eqb_eq in Q. now subst. }
  rewrite !D.
  split; [|split; [|split; [|split]]].
  - destruct c as [[] [] [] [] [] [] [] []]; vm_compute; tauto.
  - destruct c as [[] [] [] [] [] [] [] []]; vm_compute; tauto.
  - destruct c as [[] [] [] [] [] [] [] []]; vm_compute; tauto.
  - intros i H. do 26 (destruct i as [|i]; [injection H as <-; reflexivity|]). destruct i; discriminate.
  - destruct c as [[] [] [] [] [] [] [] []]; vm_compute; intros H; try reflexivity; exfalso; apply H; reflexivity.
Qed.
Theorem C70_snake : forall s : string, camel_to_snake s = snake s.
Proof. exact camel_spec. Qed.
Theorem C70_result : forall s : string,
  text_all (fun c => is_upper c = false) (camel_to_snake s) /\ remove_char "_" (camel_to_snake s) = lower (remove_char "_" s) /\
  camel_to_snake (camel_to_snake s) = camel_to_snake s /\ (text_all (fun c => is_upper c = false) s -> camel_to_snake s = s).
Proof.
  intros s. rewrite !camel_spec. split; [apply snake_clean|]. split; [apply snake_letters|]. split; [apply snake_id, snake_clean|apply snake_id].
Qed.
(** Different names can get the same result. *)
Theorem C70_injective_refuted : exists s t : string, s <> t /\ camel_to_snake s = camel_to_snake t.
Proof. exists "fsKw"%string, "fsKW"%string. split; [discriminate|]. vm_compute. reflexivity. Qed.
Example C70_run : camel_to_snake "camelCase" = "camel_case"%string /\ camel_to_snake "HTTPServer" = "http_server"%string /\
  camel_to_snake "essToFuelOkError" = "ess_to_fuel_ok_error"%string /\ camel_to_snake "get_Url" = "get__url"%string /\ camel_to_snake "mps2Kw" = "mps2_kw"%string.
Proof. vm_compute. repeat split. Qed.

(** ** C71 *)
Theorem C71_never : forall (x y : pyseq R) (width : nat), exists e, rollav x y width = Err e /\
  (seq_len x <> seq_len y -> e = AssertionError) /\
  (seq_len x = seq_len y -> e = match x with PyList _ => AttributeError | PySeries _ => ValueError end).
Proof.
  intros x y w. unfold rollav, assertR. destruct (Nat.eqb_spec (seq_len x) (seq_len y)); [|exists AssertionError; cbn; tauto].
  destruct x; cbn; eexists; repeat split; tauto.
Qed.
Theorem C71_average_refuted : exists x y : list R, length x = length y /\ increasing x /\ forall width r, rollav (PyList x) (PyList y) width <> Ok r /\ rollav (PySeries x) (PySeries y) width <> Ok r.
Proof.
  exists [0; 1], [5; 5]. split; [reflexivity|]. split.
  { incr_tac. }
  intros w r. split; discriminate.
Qed.

(** ** C72 *)
Theorem C72_radius : forall (pre w a con sep d rest : string) (W A D : R),
  at_most_one "PpLlTtSs" pre -> numeral 2 3 w W -> numeral 1 2 a A -> at_most_one "BbDdRr" con -> at_most_one "Xx- " sep ->
  append con sep <> EmptyString -> numeral 1 2 d D -> ends_number rest ->
  let code := append pre (append w (String "/" (append a (append con (append sep (append d rest)))))) in
  calculate_tire_radius code "mm" = Ok (tire_mm W A D) /\ calculate_tire_radius code "cm" = Ok (tire_mm W A D / 10) /\
  calculate_tire_radius code "m" = Ok (tire_mm W A D / 1000) /\
  calculate_tire_radius code "in" = Ok (tire_mm W A D / (254 / 10)) /\ calculate_tire_radius code "ft" = Ok (tire_mm W A D / (12 * (254 / 10))).
Proof. exact tire_radius_mm. Qed.
Theorem C72_units : forall (code u : string) (r : R), calculate_tire_radius code u = Ok r -> In u ["m"; "cm"; "mm"; "ft"; "in"]%string.
Proof. exact tire_units. Qed.
(** Light-truck and special-trailer codes, which the documentation allows, are refused. *)
Theorem C72_two_letters : forall (c1 c2 : ascii) (s u : string), In c1 (list_ascii_of_string "LlSs") -> In c2 (list_ascii_of_string "Tt") ->
  calculate_tire_radius (F := R) (String c1 (String c2 s)) u = Err ValueError.
Proof. intros c1 c2 s u H1 H2. exact (tire_lt s c1 u H1 c2 H2). Qed.
Theorem C72_no_slash : forall s u : string, text_all (fun c => c <> "/"%char) s -> calculate_tire_radius (F := R) s u = Err ValueError.
Proof. intros s u H. apply tire_no_slash. induction s as [|c s IH]; cbn in *; auto. Qed.
(** A code without rim diameter is not refused: its last digit is taken for the rim. *)
Theorem C72_incomplete_refuted : exists r : R, calculate_tire_radius "205/60" "mm" = Ok r.
Proof. eexists. unfold calculate_tire_radius. let x := eval vm_compute in (tire_matches "205/60") in change (tire_matches "205/60") with x. reflexivity. Qed.
Example C72_run : calculate_tire_radius "P205/60R16" "m" = Ok 0x1.4e075f6fd21ffp-2%float /\ calculate_tire_radius "225/70Rx19.5G" "in" = Ok 0x1.fe6cd9b366cdap+3%float /\
  calculate_tire_radius (F := float) "LT245/75R16" "m" = Err ValueError /\ calculate_tire_radius (F := float) "P205/60R16" "km" = Err ValueError.
Proof. vm_compute. auto. Qed.
Example C72_case : calculate_tire_radius "P205/60R16 92V" "mm" = Ok (tire_mm 205 60 16).
Proof.
  apply (C72_radius "P" "205" "60" "R" "" "16" " 92V"); try (left; repeat split; try discriminate; cbn; reflexivity); try (right; eexists; split; [reflexivity|cbn; tauto]).
  - discriminate.
  - split; [reflexivity|discriminate].
Qed.

(** ** C73 *)
(** The table keeps its columns except the hold columns; the new rows are at 0, dt, 2 dt, ... up to the last time.
    State columns are read off the straight lines between the samples.  Rate columns have the right running total: dt
    times the sum of the values up to a time is the integral of the old column, each of its values counting for the
    time since the previous sample. *)
Theorem C73_resampled : forall (df : frame R) (dt : R) (tc : string) (rv hv : list string) (ts : list R),
  NoDup (map fst df) -> In (tc, ts) df -> (forall c, In c df -> length (snd c) = length ts) -> 0 < dt -> ts <> [] -> increasing ts -> 0 <= last ts 0 ->
  exists out n, resample_frame df dt tc rv hv = Ok out /\ INR n * dt <= last ts 0 < INR (S n) * dt /\
    map fst out = filter (fun c => existsb (String.eqb c) rv || negb (existsb (String.eqb c) hv)) (map fst df) /\
    (forall name vals, In (name, vals) df -> In name rv -> exists ys, column name out = Ok ys /\ length ys = S n /\
       forall k, (k <= n)%nat -> on_polyline ts (held_integrals ts vals) (INR k * dt) (dt * Rsum (firstn (S k) ys))) /\
    (forall name vals, In (name, vals) df -> ~ In name rv -> ~ In name hv -> exists ys, column name out = Ok ys /\ length ys = S n /\
       forall k, (k <= n)%nat -> on_polyline ts vals (INR k * dt) (nth k ys 0)) /\
    (forall name, In name hv -> ~ In name rv -> column name out = Err KeyError).
Proof. exact resample_all. Qed.
Theorem C73_no_time : forall (df : frame R) (dt : R) (tc : string) (rv hv : list string), ~ In tc (map fst df) -> resample_frame df dt tc rv hv = Err KeyError.
Proof. exact resample_missing. Qed.
(** The time column: the new times, but never before the first sample. *)
Theorem C73_time : forall (df : frame R) (dt : R) (tc : string) (rv hv : list string) (ts : list R) (out : frame R),
  NoDup (map fst df) -> In (tc, ts) df -> (forall c, In c df -> length (snd c) = length ts) -> 0 < dt -> ts <> [] -> increasing ts -> 0 <= last ts 0 ->
  ~ In tc rv -> ~ In tc hv -> resample_frame df dt tc rv hv = Ok out ->
  exists ys, column tc out = Ok ys /\ forall k, (k < length ys)%nat -> nth k ys 0 = Rmax (hd 0 ts) (INR k * dt).
Proof.
  intros df dt tc rv hv ts out ND TC LEN D NE INC P NR NH E.
  destruct (resample_all df dt tc rv hv ts ND TC LEN D NE INC P) as (out' & n & E' & B & _ & _ & HS & _). rewrite E in E'. injection E' as <-.
  destruct (HS tc ts TC NR NH) as (ys & C & L & H). exists ys. split; auto. intros k K. assert (K' : (k <= n)%nat) by lia. specialize (H k K').
  assert (KB : INR k * dt <= last ts 0). { apply Rle_trans with (INR n * dt); [apply Rmult_le_compat_r; [lra|apply le_INR; lia]|lra]. }
  destruct (Rle_lt_dec (hd 0 ts) (INR k * dt)) as [G|G].
  - rewrite Rmax_right by auto. replace (INR k * dt) with (1 * (INR k * dt) + 0) by ring. apply (polyline_line 1 0 ts); auto.
    replace (map (fun a => 1 * a + 0) ts) with ts; auto. rewrite <- (map_id ts) at 1. apply map_ext. intros a. ring.
  - rewrite Rmax_left by lra. apply (on_polyline_unique ts ts (INR k * dt)); auto. left. split; auto. lra.
Qed.
(** A constant rate is not kept: the first new value is always 0 (for samples from 0 on); the others are right. *)
Theorem C73_constant_rate : forall (df : frame R) (dt c : R) (tc name : string) (rv hv : list string) (ts : list R) (out : frame R),
  NoDup (map fst df) -> In (tc, ts) df -> (forall c, In c df -> length (snd c) = length ts) -> 0 < dt -> ts <> [] -> increasing ts -> hd 0 ts = 0 ->
  In (name, repeat c (length ts)) df -> In name rv -> resample_frame df dt tc rv hv = Ok out ->
  exists ys, column name out = Ok ys /\ nth 0 ys 0 = 0 /\ forall k, (0 < k < length ys)%nat -> nth k ys 0 = c.
Proof.
  intros df dt c tc name rv hv ts out ND TC LEN D NE INC HD I R E.
  assert (P : 0 <= last ts 0).
  { destruct ts as [|t0 ts]; [congruence|]. cbn in HD. subst t0. destruct (increasing_cons _ _ INC) as [_ G]. destruct ts as [|t1 ts]; [cbn; lra|].
    left. apply G. apply (last_In (t1 :: ts)). discriminate. }
  destruct (resample_all df dt tc rv hv ts ND TC LEN D NE INC P) as (out' & n & E' & B & _ & HR & _). rewrite E in E'. injection E' as <-.
  destruct (HR _ _ I R) as (ys & C & L & H). exists ys. split; auto.
  assert (S1 : forall k, (k <= n)%nat -> dt * Rsum (firstn (S k) ys) = c * (INR k * dt)).
  { intros k K. specialize (H k K). rewrite held_const_list in H. apply polyline_line in H; auto.
    - rewrite H, HD. ring.
    - rewrite HD. split; [apply Rmult_le_pos; [apply pos_INR|lra]|]. apply Rle_trans with (INR n * dt); [apply Rmult_le_compat_r; [lra|apply le_INR; lia]|lra]. }
  assert (S2 : forall k, (k <= n)%nat -> Rsum (firstn (S k) ys) = c * INR k).
  { intros k K. apply (Rmult_eq_reg_l dt); [|lra]. rewrite S1 by auto. ring. }
  split.
  - rewrite Rsum_firstn_nth by lia. rewrite S2 by lia. cbn. ring.
  - intros k [K1 K2]. destruct k as [|k]; [lia|]. rewrite Rsum_firstn_nth by lia. rewrite !S2 by lia. rewrite S_INR. ring.
Qed.
Definition demo_frame : frame float := [("Time[s]", [0; 1; 2; 3.5]); ("fuel", [2; 2; 2; 2]); ("temp", [20; 22; 21; 24]); ("gear", [1; 1; 2; 2])]%string%float.
Theorem C73_constant_kept_refuted : exists (df out : frame float) (ys : list float),
  column "fuel" df = Ok [2; 2; 2; 2]%float /\ resample_frame df 1%float "Time[s]" ["fuel"%string] [] = Ok out /\ column "fuel" out = Ok ys /\ nth 0 ys 2%float = 0%float.
Proof. exists demo_frame. eexists. eexists. vm_compute. auto. Qed.
Example C73_run : resample_frame demo_frame 0.5%float "Time[s]" ["fuel"]%string ["gear"]%string =
  Ok [("Time[s]", [0; 0.5; 1; 1.5; 2; 2.5; 3; 3.5]); ("fuel", [0; 2; 2; 2; 2; 2; 2; 2]); ("temp", [20; 21; 22; 21.5; 21; 22; 23; 24])]%string%float.
Proof. vm_compute. reflexivity. Qed.

(** ** C74 *)
Theorem C74_equal : forall a b : pprops R, physical_properties_equal a b = true <-> a = b.
Proof. exact props_equal_iff. Qed.
Theorem C74_copy : forall p : pprops R, copy_physical_properties p = p /\ physical_properties_equal p (copy_physical_properties p) = true.
Proof. intros p. assert (E : copy_physical_properties p = p) by (destruct p; reflexivity). rewrite E. split; auto. apply props_equal_iff. auto. Qed.
Theorem C74_defaults : default_props (F := R) = mkpprops (12 / 10) (981 / 100) (337 / 10) (75 / 100) (147 / 10).
Proof. unfold default_props. rewrite !lit_R. reflexivity. Qed.
Example C74_run : physical_properties_equal (F := float) default_props (set_fuel_lhv default_props 43000%float) = false.
Proof. vm_compute. reflexivity. Qed.

(** ** C75 *)
(** Whatever was written into the time-step arrays before is gone: sim_drive starts from fresh ones. *)
Theorem C75_arrays_reset : forall (F : Type) (N : Num F) (d d' : sdrive F) (rows : list (row F)) (s : option F) (o : option (list F)),
  d' = with_rows d rows -> sim_drive d' s o = sim_drive d s o.
Proof. intros F N d d' rows s o ->. apply drive_preset. Qed.
Theorem C75_walk : forall (F : Type) (N : Num F) (d : sdrive F) (rows : list (row F)) (s : F) (o : option (list F)), sim_drive_walk (with_rows d rows) s o = sim_drive_walk d s o.
Proof. intros F N. exact walk_preset. Qed.
