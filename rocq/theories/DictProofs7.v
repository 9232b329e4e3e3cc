(** Proofs about from_dict: coherence, repeated use, and the reading of table cells (C79-C81). *)
From Coq Require Import Lia Ascii.
From Verif Require Import Num Numpy ListFacts CycleModel CycleSpec VehModel SimModel SimState FrameProofs VehSpec VehProofs VehProofs2 VehProofs3 VehDictModel VehTableModel DictSpec DictProofs DictProofs2 DictProofs3 DictProofs4 DictProofs5 DictProofs6.
Local Open Scope R_scope.
Ltac notin := let Q := fresh in intros Q; apply mem_in in Q; discriminate.

Lemma peak_ok_between (T : texts R) o p : peak_ok T o p -> between01 p.
Proof.
  unfold peak_ok. destruct o as [w|]; [|intros ->; exact I]. destruct (to_F T w) as [x|]; [|intros ->; exact I]. unR.
  destruct (Rltb_spec 0 x), (Rltb_spec x 1); cbn [andb]; intros ->; cbn; auto; lra.
Qed.
Lemma peak_core (v : pyveh R) : length (pv_vals v) = 18%nat ->
  attribute v "fc_peak_eff_override" = Some (opt_num (fc_peak_eff_override (pv_core v))) /\
  attribute v "mc_peak_eff_override" = Some (opt_num (mc_peak_eff_override (pv_core v))).
Proof.
  destruct v as [c sc se ye te wh vals rho afr]. cbn [pv_vals pv_core]. intros L.
  destruct (explode18 _ L) as (x1 & x2 & x3 & x4 & x5 & x6 & x7 & x8 & x9 & x10 & x11 & x12 & x13 & x14 & x15 & x16 & x17 & x18 & ->). split; reflexivity.
Qed.
Lemma opt_num_inj {F} (a b : option F) : opt_num a = opt_num b -> a = b. Proof. destruct a, b; cbn; congruence. Qed.
Lemma dict_coherent (T : texts R) d d' v : from_dict T d = Ok (d', v) -> coherent v.
Proof.
  intros H. destruct (from_dict_open T d d' v H) as (d1 & d2 & u & c & E1 & E2 & E3 & E4 & E5 & V).
  destruct (construct_spec d' u E4) as (_ & _ & L & C1 & C2 & C3 & _).
  assert (K : set_derived (pv_core u) = Ok c) by exact E5.
  assert (L' : length (pv_vals v) = 18%nat) by (rewrite V; exact L).
  destruct (peak_core v L') as (P1 & P2).
  destruct (peak_attr T d d' v "fc_peak_eff_override" H) as (p & A1 & B1); [apply mem_in; reflexivity|].
  destruct (peak_attr T d d' v "mc_peak_eff_override" H) as (q & A2 & B2); [apply mem_in; reflexivity|].
  rewrite P1 in B1. rewrite P2 in B2. assert (B1' := opt_num_inj (fc_peak_eff_override (pv_core v)) p ltac:(congruence)). assert (B2' := opt_num_inj (mc_peak_eff_override (pv_core v)) q ltac:(congruence)).
  pose proof (parameters_kept _ _ K) as P. unfold same_parameters in P. decompose [and] P. clear P.
  split.
  - exact L'.
  - rewrite V. cbn [pv_core with_core pv_scenario]. etransitivity; [|exact C1]. congruence.
  - rewrite V. cbn [pv_core with_core pv_type]. etransitivity; [|exact C2]. congruence.
  - rewrite V. cbn [pv_core with_core pv_wheels]. change (IZR (pv_wheels u)) with (nofZ (F := R) (pv_wheels u)). etransitivity; [|exact C3]. congruence.
  - rewrite B1'. now apply (peak_ok_between T) in A1.
  - rewrite B2'. now apply (peak_ok_between T) in A2.
Qed.

(** ** The maps *)
Lemma map_text (T : texts R) d k l dflt m : given_text T d k l -> map_given T d k dflt m -> m = l.
Proof. intros (s & P & E) G. unfold map_given, read_literal in G. rewrite P, E in G. exact G. Qed.
Lemma not_text_none (T : texts R) d k : not_text T d k -> read_literal T (pget d k) = None.
Proof. intros H. unfold read_literal. destruct (pget d k) as [[| | | |s| | |]|] eqn:E; auto. now rewrite (H s). Qed.
Lemma map_plain (T : texts R) d k dflt m : not_text T d k -> map_given T d k dflt m -> m = dflt.
Proof. intros H G. unfold map_given in G. now rewrite not_text_none in G. Qed.
Lemma dict_maps (T : texts R) d d' v : from_dict T d = Ok (d', v) ->
  (forall l, given_text T d "fc_pwr_out_perc" l -> fc_pwr_out_perc (pv_core v) = l) /\
  (not_text T d "fc_pwr_out_perc" -> fc_pwr_out_perc (pv_core v) = engine_grid_default) /\
  (forall l, given_text T d "mc_pwr_out_perc" l -> mc_pwr_out_perc (pv_core v) = l) /\
  (not_text T d "mc_pwr_out_perc" -> mc_pwr_out_perc (pv_core v) = motor_grid_default) /\
  (fc_peak_eff_override (pv_core v) = None ->
    (forall l, given_text T d "fc_eff_map" l -> fc_eff_map (pv_core v) = l) /\
    (not_text T d "fc_eff_map" -> In (pv_type v, fc_eff_map (pv_core v)) engine_types)) /\
  (mc_peak_eff_override (pv_core v) = None -> exists m, mc_eff_map (pv_core v) = Some m /\
    (forall l, given_text T d "mc_eff_map" l -> m = l) /\
    (not_text T d "mc_eff_map" -> motor_map_default (pv_core v) m)).
Proof.
  intros H. destruct (maps_made T d d' v H) as (u & t & E4 & E5 & V & _ & _ & _ & M1 & M2 & M3 & M4 & _).
  destruct (derived_maps _ _ E5) as (D1 & D2 & D3 & D4 & D5).
  assert (P : fc_peak_eff_override (pv_core v) = fc_peak_eff_override (pv_core u) /\ mc_peak_eff_override (pv_core v) = mc_peak_eff_override (pv_core u)).
  { pose proof (parameters_kept _ _ E5) as P. unfold same_parameters in P. decompose [and] P. auto. }
  destruct P as (P1 & P2). rewrite D1, D2, P1, P2.
  split. { intros l G. exact (map_text T d _ l _ _ G M2). }
  split. { intros G. rewrite engine_grid_is. exact (map_plain T d _ _ _ G M2). }
  split. { intros l G. exact (map_text T d _ l _ _ G M3). }
  split. { intros G. rewrite motor_grid_is. exact (map_plain T d _ _ _ G M3). }
  split.
  - intros N. rewrite (D4 N). split.
    + intros l (s & G1 & G2). unfold read_literal in M1. rewrite G1, G2 in M1. exact M1.
    + intros G. rewrite (not_text_none T d _ G) in M1. now apply engine_default_is.
  - intros N. exists (used_map (pv_core u)). split; [apply (D5 N)|]. unfold used_map. rewrite M4. split.
    + intros l (s & G1 & G2). unfold read_literal. now rewrite G1, G2.
    + intros G. rewrite (not_text_none T d _ G). apply motor_default_is. unfold default_mc_eff_map. now rewrite D3.
Qed.
(** ** Using the same dict again *)
Section Again.
  Context {F : Type} {N : Num F} (T : texts F).
  (* conversion is idempotent, entry by entry *)
  Lemma find_key k e : find (fun e => String.eqb (fst e) k) keys_and_types = Some e -> fst e = k.
  Proof. intros E. apply find_some in E as [_ E]. now apply String.eqb_eq. Qed.
  Lemma again_attr (d d' d'' : pydict F) v w : from_dict T d = Ok (d', v) -> from_dict T d' = Ok (d'', w) ->
    forall k t x, find (fun e => String.eqb (fst e) k) keys_and_types = Some (k, t) -> t <> TArr ->
      ~ In k ["veh_override_kg"; "fc_peak_eff_override"; "mc_peak_eff_override"]%string -> pget d' k = Some x -> attribute v k = Some x -> attribute w k = Some x.
  Proof.
    intros H H' k t x E NT NS P A. apply (kept T d' d'' w k t x H' E); [|exact NS|exact P].
    destruct (from_dict_open T d d' v H) as (d1 & d2 & u & c & E1 & E2 & E3 & E4 & E5 & V).
    pose proof (convert_all_get T d2 d' E3 k) as C. destruct (pget d2 k) as [y|]; [|congruence]. destruct C as (x' & C1 & C2). assert (x' = x) by congruence. subst x'.
    unfold conv1 in C2. rewrite E in C2. destruct (String.eqb_spec k "props") as [->|K].
    - cbn in E. injection E as <-. destruct (construct_spec d' u E4) as (S & _). unfold construct in E4. apply bind_ok in E4 as ([] & _ & E4).
      repeat (let G := fresh "G" in apply bind_ok in E4 as (? & G & E4)). match goal with Q : gP d' = Ok _ |- _ => destruct (gP_e d' _ Q) as [GG|(GG & _)] end; [|congruence].
      rewrite P in GG. injection GG as ->. exact I.
    - replace (mem k ["veh_override_kg"; "mc_eff_map"; "fc_peak_eff_override"; "mc_peak_eff_override"]%string) with false in C2.
      + cbn [andb] in C2. destruct t; cbn [convert] in C2; try congruence; try (apply bind_ok in C2 as (z & _ & C2)); injection C2 as <-; exact I.
      + symmetry. destruct (mem k _) eqn:Q; [|reflexivity]. apply mem_in in Q. exfalso. cbn [In] in Q, NS. destruct Q as [<-|[<-|[<-|[<-|[]]]]]; try (apply NS; tauto). cbn in E. injection E as <-. congruence.
  Qed.
End Again.

Definition given_number (T : texts R) (o : option (pyval R)) (m : option R) : Prop :=
  match o with None | Some VNone => m = None | Some w => exists x, to_F T w = Ok x /\ m = Some x end.
Lemma mass_attr (T : texts R) d d' v : from_dict T d = Ok (d', v) ->
  exists m, given_number T (pget d "veh_override_kg") m /\ pget d' "veh_override_kg" = Some (opt_num m) /\
    override_of (pv_core v) = match m with Some x => if Rlt_dec 0 x then Some x else None | None => None end.
Proof.
  intros H. destruct (from_dict_open T d d' v H) as (d1 & d2 & u & c & E1 & E2 & E3 & E4 & E5 & V).
  destruct (fill_maps_spec T d d1 E1) as (t0 & m0 & m & _ & _ & _ & _ & _ & _ & _ & _ & _ & M). destruct (fill_rest_spec T d1 d2 E2) as (_ & _ & _ & (w & W1 & W2) & _).
  rewrite M in W2 by notin. pose proof (convert_all_get T d2 d' E3 "veh_override_kg") as C. rewrite W1 in C. destruct C as (x & C1 & C2).
  assert (A : attribute u "veh_override_kg" = Some (as_list x)) by (apply (attr_spec d' u E4 _ _ C1); apply mem_in; reflexivity).
  assert (AU : attribute u "veh_override_kg" = Some (opt_num (veh_override_kg (pv_core u)))).
  { destruct (construct_spec d' u E4) as (_ & _ & L & _). clear - L. destruct u as [c sc se ye te wh vals rho afr]. reflexivity. }
  assert (OV : override_of (pv_core v) = override_of (pv_core u)) by (rewrite V; cbn [pv_core with_core]; exact (override_of_derived _ _ E5)).
  assert (Q : exists m, given_number T (pget d "veh_override_kg") m /\ x = opt_num m).
  { unfold given_number. unfold conv1 in C2. cbn [String.eqb Ascii.eqb Bool.eqb] in C2.
    assert (NI : forall w b, np_isnan (F := R) w = Ok b -> b = false).
    { intros w0 b0. destruct w0; cbn; intros Q; try discriminate; try congruence. injection Q as <-. unfold is_nan. unR. now rewrite Reqb_same. }
    destruct (pget d "veh_override_kg") as [[| | | | | | |]|]; [subst w; cbn in C2; injection C2 as <-; now exists None|..|subst w; cbn in C2; injection C2 as <-; now exists None];
      destruct W2 as (bb & W2 & ->); rewrite (NI _ _ W2) in C2; cbn -[to_F] in C2; try discriminate W2;
      apply bind_ok in C2 as (z & Z1 & Z2); injection Z2 as <-; exists (Some z); (split; [now exists z|reflexivity]). }
  destruct Q as (m1 & G & ->). exists m1. split; [exact G|]. split; [exact C1|]. rewrite OV. unfold override_of.
  rewrite AU in A. assert (X : veh_override_kg (pv_core u) = m1). { apply opt_num_inj. destruct m1; cbn [as_list opt_num] in *; congruence. }
  now rewrite X.
Qed.

Lemma attribute_none (v : pyveh R) k : length (pv_vals v) = 18%nat -> ~ In k copy_keys -> attribute v k = None.
Proof.
  intros L H. unfold attribute. destruct (pget (copy_dict v) k) as [x|] eqn:E; [|reflexivity]. exfalso. apply H. rewrite <- (keys_of_copy v L).
  apply pget_in in E. exact (in_map fst _ _ E).
Qed.
Lemma find_first (l : list (string * ty)) k : In k (map fst l) -> exists t, find (fun e => String.eqb (fst e) k) l = Some (k, t).
Proof.
  induction l as [|[k' t'] l IH]; [intros []|]. cbn [map fst find In]. intros [->|H].
  - rewrite String.eqb_refl. eauto.
  - destruct (String.eqb_spec k' k) as [->|]; [eauto|]. now apply IH.
Qed.
Lemma find_total k : In k copy_keys -> exists t, find (fun e => String.eqb (fst e) k) keys_and_types = Some (k, t).
Proof.
  intros H. apply find_first, mem_in. apply mem_in in H. assert (Q : forallb (fun k => mem k (map fst keys_and_types)) copy_keys = true) by (vm_compute; reflexivity).
  rewrite forallb_forall in Q. apply Q. now apply mem_in.
Qed.
Lemma arrays_are k : In k copy_keys -> find (fun e => String.eqb (fst e) k) keys_and_types = Some (k, TArr) ->
  In k ["fc_eff_map"; "fc_pwr_out_perc"; "mc_pwr_out_perc"; "mc_eff_map"]%string.
Proof.
  intros I E. apply find_some in E as [E _].
  assert (Q : forallb (fun e => match snd e with TArr => (mem (fst e) keys_to_remove || mem (fst e) ["fc_eff_map"; "fc_pwr_out_perc"; "mc_pwr_out_perc"; "mc_eff_map"]%string)%bool | _ => true end) keys_and_types = true) by reflexivity.
  rewrite forallb_forall in Q. apply Q in E. cbn [fst snd] in E. apply Bool.orb_true_iff in E as [E|E]; [|now apply mem_in].
  assert (Q' : forallb (fun k => negb (mem k keys_to_remove)) copy_keys = true) by (vm_compute; reflexivity). rewrite forallb_forall in Q'. apply Q' in I. rewrite E in I. discriminate.
Qed.
Lemma again (T : texts R) d d' d'' v w : from_dict T d = Ok (d', v) -> from_dict T d' = Ok (d'', w) ->
  (forall k, ~ In k map_names -> k <> "veh_override_kg"%string -> attribute w k = attribute v k) /\
  override_of (pv_core w) = override_of (pv_core v) /\
  fc_pwr_out_perc (pv_core w) = engine_grid_default /\ mc_pwr_out_perc (pv_core w) = motor_grid_default /\
  (fc_peak_eff_override (pv_core v) = None -> mc_peak_eff_override (pv_core v) = None -> default_maps w).
Proof.
  intros H H'. pose proof (dict_coherent T d d' v H) as CV. pose proof (dict_coherent T d' d'' w H') as CW.
  assert (AT : forall k, ~ In k map_names -> k <> "veh_override_kg"%string -> attribute w k = attribute v k).
  { intros k NM NO. destruct (in_dec String.string_dec k copy_keys) as [I|I].
    2: { rewrite !attribute_none; auto; [apply CV|apply CW]. }
    destruct (find_total k I) as (t & E). destruct (in_dec String.string_dec k ["fc_peak_eff_override"; "mc_peak_eff_override"]%string) as [P|P].
    - destruct (peak_entry T d d' v k H P) as (p & A1 & A2). destruct (peak_attr T d d' v k H P) as (p1 & A3 & A4). destruct (peak_attr T d' d'' w k H' P) as (q & B1 & B2).
      assert (p1 = p). { clear - A1 A3. unfold peak_ok in *. destruct (pget d k) as [x|]; [destruct (to_F T x)|]; congruence. } subst p1.
      rewrite A4, B2. do 2 f_equal. pose proof (peak_ok_between T _ _ A1) as BT. unfold peak_ok in B1. destruct A2 as [(A2 & ->)|A2]; rewrite A2 in B1; [exact B1|].
      destruct p as [x|]; cbn [opt_num to_F] in B1.
      + revert B1. unR. cbn in BT. destruct (Rltb_spec 0 x), (Rltb_spec x 1); cbn [andb]; try lra; auto.
      + rewrite R_guard in B1. exact B1.
    - assert (NC : ~ In k changed_keys). { intros Q. cbn [In changed_keys map_names] in Q, NM. destruct Q as [<-|[<-|[<-|[]]]]; [now apply NO|apply NM; tauto|apply NM; tauto]. }
      destruct (pget d' k) as [x|] eqn:G.
      + assert (AV : attribute v k = Some (as_list x)) by exact (final_attr T d d' v k x H G NC).
        assert (NT : t <> TArr) by (intros ->; apply NM; now apply arrays_are).
        assert (NN : ~ In k ["veh_override_kg"; "fc_peak_eff_override"; "mc_peak_eff_override"]%string). { intros Q. cbn [In] in Q, P. destruct Q as [<-|Q]; [now apply NO|]. apply P. exact Q. }
        destruct x as [| | | | | |l|]; try (rewrite AV; apply (again_attr T d d' d'' v w H H' k t _ E NT NN G AV)).
        exfalso. destruct (from_dict_open T d d' v H) as (d1 & d2 & u & c & E1 & E2 & E3 & E4 & E5 & V).
        pose proof (convert_all_get T d2 d' E3 k) as C. destruct (pget d2 k) as [y|]; [|congruence]. destruct C as (x' & C1 & C2). assert (x' = VArr l) by congruence. subst x'.
        unfold conv1 in C2. rewrite E in C2. destruct (String.eqb_spec k "props") as [->|K].
        * unfold construct in E4. apply bind_ok in E4 as ([] & _ & E4). repeat (let G := fresh "G" in apply bind_ok in E4 as (? & G & E4)).
          match goal with Q : gP d' = Ok _ |- _ => destruct (gP_e d' _ Q) as [GG|(GG & _)] end; congruence.
        * destruct (mem k _ && _)%bool eqn:Q.
          { apply Bool.andb_true_iff in Q as [_ Q]. destruct y; try discriminate. }
          destruct t; cbn [convert] in C2; try congruence; apply bind_ok in C2 as (z & _ & C2); discriminate.
      + (* absent: one of the three parameters with a default *)
        destruct (from_dict_open T d d' v H) as (d1 & d2 & u & c & E1 & E2 & E3 & E4 & E5 & V).
        destruct (from_dict_open T d' d'' w H') as (d1' & d2' & u' & c' & E1' & E2' & E3' & E4' & E5' & V').
        assert (OP : In k ["props"; "regen_a"; "regen_b"]%string).
        { destruct (in_dec String.string_dec k optional) as [O|O]; [|exfalso; exact (required_spec d' u E4 k I O G)].
          assert (Y : pget d' "veh_year" <> None). { apply (fun Q => Q) . destruct (fill_rest_spec T d1 d2 E2) as (_ & _ & _ & _ & (y & Y & _) & _). pose proof (convert_all_get T d2 d' E3 "veh_year") as C. rewrite Y in C. destruct C as (z & -> & _). discriminate. }
          cbn [In optional map_names] in O, NM, P |- *. repeat (destruct O as [<-|O]; [tauto|]); destruct O. }
        assert (NMK : ~ In k map_keys) by (cbn [In] in OP; destruct OP as [<-|[<-|[<-|[]]]]; notin).
        assert (NR : ~ In k rest_keys) by (cbn [In] in OP; destruct OP as [<-|[<-|[<-|[]]]]; notin).
        pose proof (proj2 (present_back T d' d'' w H' k NMK NR) G) as G'.
        rewrite V, V', (derived_attr u c E5 k NC), (derived_attr u' c' E5' k NC).
        destruct (construct_spec d' u E4) as (_ & _ & L & _ & _ & _ & S1 & S2 & S3 & _). destruct (construct_spec d'' u' E4') as (_ & _ & L' & _ & _ & _ & S1' & S2' & S3' & _).
        clear - G G' OP L L' S1 S2 S3 S1' S2' S3'. unfold attribute. destruct u as [c0 sc se ye te wh vals rho afr], u' as [c1 sc' se' ye' te' wh' vals' rho' afr']. cbn [pv_vals pv_core pv_rho pv_afr] in *.
        destruct (explode18 _ L) as (x1 & x2 & x3 & x4 & x5 & x6 & x7 & x8 & x9 & x10 & x11 & x12 & x13 & x14 & x15 & x16 & x17 & x18 & ->).
        destruct (explode18 _ L') as (y1 & y2 & y3 & y4 & y5 & y6 & y7 & y8 & y9 & y10 & y11 & y12 & y13 & y14 & y15 & y16 & y17 & y18 & ->).
        cbn [In] in OP. destruct OP as [<-|[<-|[<-|[]]]].
        * specialize (S3 G). specialize (S3' G'). change (Some (VProps (veh_props c1) rho' afr') = Some (VProps (veh_props c0) rho afr)). congruence.
        * specialize (S1 G). specialize (S1' G'). change (Some (VNum (regen_a c1)) = Some (VNum (regen_a c0))). congruence.
        * specialize (S2 G). specialize (S2' G'). change (Some (VNum (regen_b c1)) = Some (VNum (regen_b c0))). congruence. }
  split; [exact AT|].
  destruct (mass_attr T d d' v H) as (m & _ & M2 & ->). destruct (mass_attr T d' d'' w H') as (m' & M1' & _ & ->). rewrite M2 in M1'.
  assert (m' = m). { destruct m; cbn in M1'; [destruct M1' as (x & Q & ->); congruence|congruence]. } subst m'. split; [reflexivity|].
  destruct (maps_made T d d' v H) as (_ & _ & _ & _ & _ & _ & _ & _ & _ & _ & _ & _ & NL).
  assert (NT : forall k, In k map_names -> not_text T d' k).
  { intros k I s E. specialize (NL k I). unfold read_literal in NL. rewrite E in NL. destruct (to_literal T s); [reflexivity|discriminate|discriminate]. }
  destruct (dict_maps T d' d'' w H') as (_ & G1 & _ & G2 & G3 & G4).
  assert (NT' : forall k, mem k map_names = true -> not_text T d' k) by (intros k Q; apply NT; now apply mem_in).
  split; [apply G1, NT'; reflexivity|]. split; [apply G2, NT'; reflexivity|]. intros N1 N2.
  destruct (peak_core v (co_vals _ CV)) as (P1 & P2). destruct (peak_core w (co_vals _ CW)) as (Q1 & Q2).
  rewrite AT in Q1 by (try notin; discriminate). rewrite AT in Q2 by (try notin; discriminate).
  assert (X1 : fc_peak_eff_override (pv_core w) = None) by (apply opt_num_inj; rewrite P1, N1 in Q1; cbn in *; congruence).
  assert (X2 : mc_peak_eff_override (pv_core w) = None) by (apply opt_num_inj; rewrite P2, N2 in Q2; cbn in *; congruence).
  destruct (G3 X1) as (_ & G5). destruct (G4 X2) as (mm & G6 & _ & G7).
  split; [apply G1, NT'; reflexivity|]. split; [apply G5, NT'; reflexivity|]. split; [apply G2, NT'; reflexivity|]. exists mm. split; [exact G6|]. apply G7, NT'. reflexivity.
Qed.
