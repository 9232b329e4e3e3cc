(** Lemmas about the helper functions of the compiled package. *)
From Coq Require Import Ascii Sorting.Sorted Lia Lra.
From Verif Require Import Num Numpy ListFacts CycleModel CycleSpec ConcatProofs ResampleProofs VehModel VehProofs SimModel SimState WalkModel UtilModel UtilSpec TextProofs
  UtilProofs UtilProofs2 RustVehModel RustVehProofs RustUtilModel.
Local Open Scope R_scope.

(** *** The error between two signals *)
Lemma error_loop t : forall (y : list R) e, r_error_loop (F := R) e t y = e + area t y.
Proof.
  induction t as [|t0 t IH]; intros y e; [cbn; lra|]. destruct t as [|t1 t]; [destruct y as [|y0 [|y1 y]]; cbn; lra|].
  destruct y as [|y0 [|y1 y]]; [cbn; lra|cbn; lra|].
  change (r_error_loop e (t0 :: t1 :: t) (y0 :: y1 :: y)) with (r_error_loop (e + lit 1 2 * (t1 - t0) * (y0 + y1))%num (t1 :: t) (y1 :: y)).
  change (area (t0 :: t1 :: t) (y0 :: y1 :: y)) with ((t1 - t0) * ((y0 + y1) / 2) + area (t1 :: t) (y1 :: y)).
  rewrite IH. unR. rewrite lit_R. lra.
Qed.
Lemma zipw_gaps (a b : list R) : zipw (fun x y => nabs (x - y)%num) a b = gaps a b.
Proof.
  unfold gaps. revert b. induction a as [|x a IH]; intros [|y b]; cbn [zipw combine map]; try reflexivity.
  f_equal. apply IH.
Qed.
Lemma r_error_value (m e t : list R) : length m = length t -> length e = length t -> t <> [] ->
  r_get_error_val m e t = Ok (area t (gaps m e) / (last t 0 - hd 0 t)).
Proof.
  intros Lm Le T. unfold r_get_error_val. rewrite Lm, Le, Nat.eqb_refl. cbn [andb assertR bindR].
  destruct t as [|t0 t]; [congruence|]. rewrite zipw_gaps, error_loop. unR. f_equal. f_equal; [lra|]. cbn [hd]. f_equal.
  rewrite !last_nth. apply nth_indep. cbn. lia.
Qed.
Lemma r_error_same (m e t : list R) : r_get_error_val m e t = get_error_val m e t.
Proof.
  destruct (Nat.eq_dec (length m) (length e)) as [A|A].
  - destruct (Nat.eq_dec (length e) (length t)) as [B|B].
    + destruct t as [|t0 t].
      * destruct e; [|discriminate]. destruct m; [|discriminate]. reflexivity.
      * rewrite r_error_value by (congruence || lia). symmetry. apply error_value; congruence || lia.
    + rewrite error_unequal by auto. unfold r_get_error_val. apply Nat.eqb_neq in B. rewrite B, Bool.andb_false_r. reflexivity.
  - rewrite error_unequal by auto. unfold r_get_error_val. apply Nat.eqb_neq in A. rewrite A. reflexivity.
Qed.

(** *** Tyre codes *)
Lemma captures_eq s : r_captures s =
  match r_tire_here s with m :: _ => Some m | [] => match s with EmptyString => None | String _ r => r_captures r end end.
Proof. destruct s; reflexivity. Qed.

Definition nospace := text_all (fun c => c <> " "%char).
Definition keeps_ns (m : matcher) := forall s, nospace s -> Forall (fun x => nospace (snd x)) (m s).
Lemma ns_one p : keeps_ns (one p).
Proof. intros [|c s] H; cbn; [constructor|]. destruct (p c); constructor; [|constructor]. exact (proj2 H). Qed.
Lemma ns_opt m : keeps_ns m -> keeps_ns (optm m).
Proof. intros K s H. apply Forall_app. split; auto. Qed.
Lemma ns_seq a b : keeps_ns a -> keeps_ns b -> keeps_ns (seqm a b).
Proof.
  intros Ka Kb s H. apply Ka in H. unfold seqm. induction (a s) as [|x l IH]; cbn; [constructor|]. inversion H; subst. apply Forall_app. split; auto.
  apply Kb in H2. clear -H2. induction (b (snd x)); cbn; constructor; inversion H2; auto.
Qed.
Lemma ns_some n p : keeps_ns (some_fuel n p).
Proof.
  induction n as [|n IH]; intros s H; [constructor|]. cbn [some_fuel]. pose proof (ns_one p s H) as K. induction (one p s) as [|x l IHl]; cbn; [constructor|].
  inversion K; subst. apply Forall_app. split; auto. apply Forall_app. split; [|repeat constructor; auto].
  apply IH in H2. clear -H2. induction (some_fuel n p (snd x)); cbn; constructor; inversion H2; auto.
Qed.
Lemma ns_number two : keeps_ns (number two).
Proof.
  apply ns_seq; [apply ns_opt, ns_seq; [|apply ns_one]|intros s; apply ns_some].
  intros s H. unfold up_to. destruct two; apply Forall_app; split; repeat first [apply ns_seq | apply ns_one | assumption].
Qed.
Lemma flat_ext {A B} (f g : A -> list B) (P : A -> Prop) l : Forall P l -> (forall x, P x -> f x = g x) -> flat_map f l = flat_map g l.
Proof. induction 1; cbn; [reflexivity|]. intros E. rewrite E, IHForall by auto. reflexivity. Qed.
Lemma flat_one {A B} (f : A -> list B) x : flat_map f [x] = f x.
Proof. apply app_nil_r. Qed.
Lemma here_nospace s : nospace s -> r_tire_here s = tire_matches s.
Proof.
  intros H. unfold r_tire_here, tire_matches.
  apply (flat_ext _ _ (fun x => nospace (snd x))); [apply ns_opt, H; apply ns_one|]. intros x0 H0.
  apply (flat_ext _ _ (fun x => nospace (snd x))); [apply ns_number, H0|]. intros x1 H1.
  apply (flat_ext _ _ (fun x => nospace (snd x))); [apply ns_one, H1|]. intros x2 H2.
  apply (flat_ext _ _ (fun x => nospace (snd x))); [apply ns_number, H2|]. intros x3 H3.
  assert (E : optm (one (Ascii.eqb " ")) (snd x3) = [(EmptyString, snd x3)]).
  { unfold optm. destruct (snd x3) as [|c r]; [reflexivity|]. destruct H3 as [Hc _]. cbn [one]. destruct (Ascii.eqb_spec " " c); [congruence|reflexivity]. }
  rewrite E, flat_one. reflexivity.
Qed.

Lemma pre_among_bar c : In c (list_ascii_of_string "PpLlTtSs|") -> among ["P"; "|"; "L"; "T"; "S"]%char c = true.
Proof. cbn. intuition (subst; reflexivity). Qed.
Lemma among_pre_bar c : among ["P"; "|"; "L"; "T"; "S"]%char c = true -> In c (list_ascii_of_string "PpLlTtSs|").
Proof. all_chars c; intros H; try discriminate H; cbn; tauto. Qed.
(** A code as written on a tyre, the space after the aspect ratio included. *)
Lemma here_head pre w a sp con sep d rest W A D :
  at_most_one "PpLlTtSs|" pre -> numeral 2 3 w W -> numeral 1 2 a A -> at_most_one " " sp -> at_most_one "BbDdRr" con -> at_most_one "Xx- " sep ->
  append sp (append con sep) <> EmptyString -> numeral 1 2 d D -> ends_number rest ->
  exists l, r_tire_here (append pre (append w (String "/" (append a (append sp (append con (append sep (append d rest)))))))) = (w, a, d) :: l.
Proof.
  intros Hp Hw Ha Hsp Hc Hs Hcs Hd Hr. unfold r_tire_here.
  destruct (numeral_first _ _ _ _ Hw) as (w0 & w' & Ew & Dw). destruct (numeral_first _ _ _ _ Hd) as (d0 & d' & Ed & Dd).
  destruct (digit_not_among _ Dw) as (Aw & _ & _). destruct (digit_not_among _ Dd) as (_ & Ad1 & Ad2).
  assert (Ad0 : Ascii.eqb " " d0 = false) by (destruct (Ascii.eqb_spec " " d0); [subst; discriminate|reflexivity]).
  set (s6 := append d rest). set (s5 := append sep s6). set (s4 := append con s5). set (s3 := append sp s4).
  set (s1 := append w (String "/" (append a s3))).
  assert (P0 : exists x l, optm (one (among ["P"; "|"; "L"; "T"; "S"]%char)) (append pre s1) = x :: l /\ snd x = s1).
  { destruct Hp as [->|(c & -> & Hc')]; unfold optm.
    - cbn [append]. unfold s1. rewrite Ew. cbn [append one]. rewrite Aw. cbn. eauto.
    - cbn [append one]. rewrite pre_among_bar by auto. cbn. eauto. }
  destruct P0 as (x0 & l0 & -> & E0).
  assert (P6 : exists l, number false s6 = (d, rest) :: l) by (apply (number_numeral false d D); auto). destruct P6 as (l6 & P6).
  (* con, sep and number from s4, whatever of them is there *)
  assert (Tail : exists l, flat_map (fun x5 => flat_map (fun x6 => map (fun x7 : string * string => (w, a, fst x7)) (number false (snd x6)))
                  (optm (one (among ["X"; "|"; "-"; " "]%char)) (snd x5))) (optm (one (among ["B"; "|"; "D"; "R"]%char)) s4) = (w, a, d) :: l).
  { assert (P5 : exists x l, optm (one (among ["X"; "|"; "-"; " "]%char)) s5 = x :: l /\ snd x = s6).
    { unfold s5. destruct Hs as [->|(c & -> & Hc')]; unfold optm; cbn [append].
      - unfold s6. rewrite Ed. cbn [append one]. rewrite Ad2. cbn. eauto.
      - cbn [one]. destruct (sep_among _ Hc') as (-> & _). cbn. eauto. }
    destruct P5 as (x5 & l5 & P5 & E5).
    assert (P4 : exists x l, optm (one (among ["B"; "|"; "D"; "R"]%char)) s4 = x :: l /\ snd x = s5).
    { unfold s4. destruct Hc as [->|(c & -> & Hc')]; unfold optm; cbn [append].
      - unfold s5. destruct Hs as [->|(c & -> & Hc')]; cbn [append].
        + unfold s6. rewrite Ed. cbn [append one]. rewrite Ad1. cbn. eauto.
        + cbn [one]. destruct (sep_among _ Hc') as (_ & -> & _). cbn. eauto.
      - cbn [one]. destruct (cons_among _ Hc') as (-> & _). cbn. eauto. }
    destruct P4 as (x4 & l4 & P4 & E4).
    rewrite P4. apply hd_flat. rewrite E4, P5. apply hd_flat. rewrite E5, P6. cbn. eauto. }
  destruct Tail as (lt & Tail).
  assert (N3 : ends_number s3).
  { unfold s3, s4, s5. destruct Hsp as [->|(c & -> & Hc')]; cbn [append].
    - destruct Hc as [->|(c & -> & Hc')]; cbn [append].
      + destruct Hs as [->|(c & -> & Hc')]; [cbn in Hcs; congruence|]. cbn. apply sep_among in Hc'. tauto.
      + cbn. apply cons_among in Hc'. tauto.
    - cbn in Hc'. destruct Hc' as [<-|[]]. cbn. split; [reflexivity|discriminate]. }
  destruct (number_numeral false a A s3 Ha N3) as (l3 & P3).
  assert (P2 : one (Ascii.eqb "/") (String "/" (append a s3)) = [("/"%string, append a s3)]) by reflexivity.
  assert (N1 : ends_number (String "/" (append a s3))) by (split; [reflexivity|discriminate]).
  destruct (number_numeral true w W (String "/" (append a s3)) Hw N1) as (l1 & P1). change (append w (String "/" (append a s3))) with s1 in P1.
  apply hd_flat. rewrite E0, P1. apply hd_flat. cbn [snd]. rewrite P2. apply hd_flat. cbn [snd]. rewrite P3. apply hd_flat. cbn [snd fst].
  (* the space *)
  destruct Hsp as [->|(c & -> & Hc')].
  - (* none: either the text goes on with no space, or the space is the separator *)
    change s3 with s4. assert (EO : optm (one (Ascii.eqb " ")) s4 = one (Ascii.eqb " ") s4 ++ [(EmptyString, s4)]) by reflexivity.
    rewrite EO.
    destruct (one (Ascii.eqb " ") s4) as [|q l] eqn:Q.
    + cbn [app]. rewrite flat_one. cbn [snd]. eauto.
    + assert (Q4 : con = EmptyString /\ sep = " "%string).
      { revert Q. unfold s4, s5. destruct Hc as [->|(c & -> & Hc')]; cbn [append].
        - destruct Hs as [->|(c & -> & Hc')]; cbn [append].
          + cbn in Hcs. congruence.
          + cbn [one]. destruct (Ascii.eqb_spec " " c); [subst; auto|discriminate].
        - cbn [one]. destruct (Ascii.eqb_spec " " c); [subst; cbn in Hc'; intuition discriminate|discriminate]. }
      destruct Q4 as [-> ->]. revert Q. unfold s4, s5. cbn [append one]. change (Ascii.eqb " " " ") with true. cbv iota. intros [= <- <-].
      cbn [app]. apply hd_flat. cbn [snd].
      assert (P4 : exists l, optm (one (among ["B"; "|"; "D"; "R"]%char)) s6 = (EmptyString, s6) :: l).
      { unfold s6, optm. rewrite Ed. cbn [append one]. rewrite Ad1. cbn. eauto. }
      destruct P4 as (l4 & ->). apply hd_flat. cbn [snd].
      assert (P5 : exists l, optm (one (among ["X"; "|"; "-"; " "]%char)) s6 = (EmptyString, s6) :: l).
      { unfold s6, optm. rewrite Ed. cbn [append one]. rewrite Ad2. cbn. eauto. }
      destruct P5 as (l5 & ->). apply hd_flat. cbn [snd]. rewrite P6. cbn. eauto.
  - cbn in Hc'. destruct Hc' as [<-|[]]. 
    assert (EO : optm (one (Ascii.eqb " ")) s3 = (" "%string, s4) :: [(EmptyString, s3)]) by reflexivity. rewrite EO.
    apply hd_flat. cbn [snd]. rewrite Tail. eauto.
Qed.

Lemma number_none two c s : is_digit c = false -> number two (String c s) = [].
Proof. intros D. unfold number, seqm, optm, up_to, somem, seqm. destruct two; cbn [String.length some_fuel one flat_map app map fst snd]; rewrite ?D; cbn; rewrite ?D; reflexivity. Qed.
Lemma optm_one p c s : optm (one p) (String c s) = (if p c then [(String c EmptyString, s)] else []) ++ [(EmptyString, String c s)].
Proof. reflexivity. Qed.
Lemma here_none c c' s : is_digit c = false -> is_digit c' = false -> r_tire_here (String c (String c' s)) = [].
Proof.
  intros D D'. unfold r_tire_here. rewrite optm_one. apply flat_nil. apply Forall_app. split.
  - destruct (among ["P"; "|"; "L"; "T"; "S"]%char c); constructor; [|constructor]. cbn [snd]. rewrite (number_none true c') by auto. reflexivity.
  - constructor; [|constructor]. cbn [snd]. rewrite (number_none true c) by auto. reflexivity.
Qed.
Lemma here_none1 c s : is_digit c = false -> among ["P"; "|"; "L"; "T"; "S"]%char c = false -> r_tire_here (String c s) = [].
Proof.
  intros D A. unfold r_tire_here. rewrite optm_one, A. apply flat_nil. cbn [app]. constructor; [|constructor]. cbn [snd]. rewrite (number_none true c) by auto. reflexivity.
Qed.

Lemma captures_code pre w a sp con sep d rest W A D :
  text_all (fun c => is_digit c = false) pre -> numeral 2 3 w W -> numeral 1 2 a A -> at_most_one " " sp -> at_most_one "BbDdRr" con -> at_most_one "Xx- " sep ->
  append sp (append con sep) <> EmptyString -> numeral 1 2 d D -> ends_number rest ->
  r_captures (append pre (append w (String "/" (append a (append sp (append con (append sep (append d rest)))))))) = Some (w, a, d).
Proof.
  intros Hp Hw Ha Hsp Hc Hs Hcs Hd Hr. induction pre as [|c pre IH].
  - rewrite captures_eq. destruct (here_head EmptyString w a sp con sep d rest W A D) as (l & ->); auto. now left.
  - destruct Hp as [Hc0 Hp]. specialize (IH Hp). rewrite captures_eq. cbn [append]. destruct pre as [|c' pre].
    + destruct (among ["P"; "|"; "L"; "T"; "S"]%char c) eqn:M.
      * destruct (here_head (String c EmptyString) w a sp con sep d rest W A D) as (l & E); auto.
        { right. exists c. split; [reflexivity|]. now apply among_pre_bar. }
        cbn [append] in E. cbn [append]. rewrite E. reflexivity.
      * rewrite here_none1 by auto. exact IH.
    + cbn [append]. rewrite here_none by (auto || apply Hp). exact IH.
Qed.
Lemma r_tire_code pre w a sp con sep d rest W A D :
  text_all (fun c => is_digit c = false) pre -> numeral 2 3 w W -> numeral 1 2 a A -> at_most_one " " sp -> at_most_one "BbDdRr" con -> at_most_one "Xx- " sep ->
  append sp (append con sep) <> EmptyString -> numeral 1 2 d D -> ends_number rest ->
  r_tire_code_to_radius (append pre (append w (String "/" (append a (append sp (append con (append sep (append d rest)))))))) = Ok (tire_mm W A D / 1000).
Proof.
  intros Hp Hw Ha Hsp Hc Hs Hcs Hd Hr. unfold r_tire_code_to_radius. rewrite (captures_code pre w a sp con sep d rest W A D) by auto.
  rewrite (float_numeral _ _ _ _ Hw), (float_numeral _ _ _ _ Ha), (float_numeral _ _ _ _ Hd). unfold tire_mm. unR. rewrite ?lit_R. f_equal. field.
Qed.

(** Without spaces: Python's pattern at the first place where it matches. *)
Definition same_match (s : string) (m : option (string * string * string)) : Prop := hd_error (tire_matches s) = m.
Lemma py_match s (r : R) : calculate_tire_radius s "m" = Ok r ->
  exists g1 g2 g3 l, tire_matches s = (g1, g2, g3) :: l /\ r = (float_of g3 * (254 / 10) / 2 + float_of g1 * float_of g2 / 100) / 1000.
Proof.
  unfold calculate_tire_radius. destruct (tire_matches s) as [|[[g1 g2] g3] l]; [discriminate|]. cbn [String.eqb Ascii.eqb Bool.eqb]. cbv iota zeta. intros [= <-].
  exists g1, g2, g3, l. split; [reflexivity|]. unR. rewrite ?lit_R. field.
Qed.
Lemma py_none s : tire_matches s = [] <-> calculate_tire_radius (F := R) s "m" = Err ValueError.
Proof.
  unfold calculate_tire_radius. destruct (tire_matches s) as [|[[g1 g2] g3] l]; [tauto|]. cbn [String.eqb Ascii.eqb Bool.eqb]. cbv iota zeta. split; discriminate.
Qed.
Lemma r_tire_first s (r : R) : nospace s ->
  (r_tire_code_to_radius s = Ok r <-> exists p t, s = append p t /\ calculate_tire_radius (F := R) t "m" = Ok r /\ forall p' t', s = append p' t' -> (String.length p' < String.length p)%nat -> calculate_tire_radius (F := R) t' "m" = Err ValueError).
Proof.
  revert r. induction s as [|c s IH]; intros r H.
  - split; [discriminate|]. intros (p & t & E & Q & _). destruct p; [|discriminate]. cbn in E. subst t. discriminate.
  - destruct (tire_matches (String c s)) as [|[[g1 g2] g3] l] eqn:M.
    + assert (X : r_tire_code_to_radius (F := R) (String c s) = r_tire_code_to_radius s).
      { unfold r_tire_code_to_radius. rewrite captures_eq, here_nospace, M by exact H. reflexivity. }
      rewrite X, (IH r (proj2 H)). split.
      * intros (p & t & -> & Q & L). exists (String c p), t. split; [reflexivity|]. split; [exact Q|]. intros p' t' E Lt.
        destruct p' as [|c' p']; cbn [append] in E.
        -- rewrite <- E. now apply py_none.
        -- injection E as <- E. apply (L p' t' E). cbn in Lt. lia.
      * intros (p & t & E & Q & L). destruct p as [|c' p]; cbn [append] in E.
        -- rewrite <- E in Q. apply py_match in Q as (g1 & g2 & g3 & l & Q & _). congruence.
        -- injection E as <- E. exists p, t. split; [exact E|]. split; [exact Q|]. intros p' t' E' Lt. apply (L (String c p') t'); cbn; [congruence|lia].
    + assert (X : r_tire_code_to_radius (F := R) (String c s) = Ok ((float_of g3 * (254 / 10) / 2 + float_of g1 * float_of g2 / 100) / 1000)).
      { unfold r_tire_code_to_radius. rewrite captures_eq, here_nospace, M by exact H. unR. rewrite ?lit_R. reflexivity. }
      assert (Y : calculate_tire_radius (F := R) (String c s) "m" = Ok ((float_of g3 * (254 / 10) / 2 + float_of g1 * float_of g2 / 100) / 1000)).
      { destruct (calculate_tire_radius (F := R) (String c s) "m") as [y|e] eqn:Y.
        - apply py_match in Y as (k1 & k2 & k3 & l' & Y & ->). rewrite M in Y. injection Y as <- <- <- _. reflexivity.
        - exfalso. revert Y. unfold calculate_tire_radius. rewrite M. cbn [String.eqb Ascii.eqb Bool.eqb]. discriminate. }
      rewrite X, <- Y. split.
      * intros E. exists EmptyString, (String c s). split; [reflexivity|]. split; [exact E|]. cbn. lia.
      * intros (p & t & E & Q & L). destruct p as [|c' p].
        -- cbn in E. rewrite E. exact Q.
        -- specialize (L EmptyString (String c s) eq_refl ltac:(cbn; lia)). congruence.
Qed.
Lemma r_tire_no_slash s : noslash s -> r_tire_code_to_radius (F := R) s = Err ValueError.
Proof.
  assert (G : forall s, noslash s -> r_tire_here s = []).
  { clear. intros s H. unfold r_tire_here. apply flat_nil. eapply Forall_impl; [|apply keeps_opt, H; apply keeps_one]. intros x0 H0. cbn beta in *. apply flat_nil.
    eapply Forall_impl; [|apply (keeps_number true), H0]. intros x1 H1. cbn beta in *. destruct (snd x1) as [|c r]; [reflexivity|].
    destruct H1 as [H1 _]. cbn [one]. destruct (Ascii.eqb "/" c) eqn:Q; [apply Ascii.eqb_eq in Q; congruence|reflexivity]. }
  intros H. unfold r_tire_code_to_radius. assert (r_captures s = None) as ->; [|reflexivity].
  induction s as [|c s IH]; rewrite captures_eq, (G _ H); [reflexivity|]. apply IH, H.
Qed.

(** *** Drag coefficients *)
Lemma r_rho_same t h : r_get_rho (F := R) t h = get_rho_air t (match h with Some h => h | None => 180 end).
Proof. destruct h; reflexivity. Qed.
Definition r_ambient (rho : option bool) (t e : option R) : option (R * R) :=
  match rho with Some true => Some (match t with Some t => t | None => 20 end, match e with Some e => e | None => 180 end) | _ => None end.
Lemma r_abc_value v a b c rho t e :
  let density := match rho with Some true => get_rho_air (match t with Some t => t | None => 20 end) (match e with Some e => e | None => 180 end) | _ => 12 / 10 end in
  let d := c * (4448 / 1000) * (22369 / 10000) ^ 2 / (1 / 2 * frontal_area_m2 v * density) in
  let r := a * (4448 / 1000) / veh_kg v / (981 / 100) in
  r_abc_to_drag_coeffs v a b c rho t e = (with_drag v d r, (d, r)).
Proof.
  cbv zeta. unfold r_abc_to_drag_coeffs. rewrite r_rho_same.
  assert (E : (if match rho with Some b0 => b0 | None => false end
               then get_rho_air match t with Some t0 => t0 | None => nofZ 20 end match e with Some h => h | None => 180 end
               else pp_air_density r_default_props) =
              match rho with Some true => get_rho_air (match t with Some t => t | None => 20 end) (match e with Some e => e | None => 180 end) | _ => 12 / 10 end).
  { destruct rho as [[]|]; try reflexivity; unfold r_default_props; cbn [pp_air_density]; now rewrite lit_R. }
  rewrite E. unfold r_default_props, N_PER_LBF, MPH_PER_MPS. cbn [pp_grav]. unR. rewrite !lit_R.
  set (den := match rho with Some true => _ | _ => _ end). clearbody den.
  replace (c * (4448 / 1000) * (22369 / 10000) * (22369 / 10000)) with (c * (4448 / 1000) * (22369 / 10000) ^ 2) by ring. reflexivity.
Qed.

(** *** Air *)
Lemma air_te_inc : increasing (@air_te R RNum).
Proof. unfold air_te. cbn [map]. rewrite !lit_R. apply increasing_SS. repeat (apply SSorted_cons; [|repeat (apply Forall_cons; [lra|]); apply Forall_nil]). apply SSorted_nil. Qed.
Lemma air_h_inc : increasing (@air_h R RNum).
Proof. unfold air_h. cbn [map]. apply increasing_SS. unR. repeat (apply SSorted_cons; [|repeat (apply Forall_cons; [lra|]); apply Forall_nil]). apply SSorted_nil. Qed.
