(** Proofs about from_dict: type conversion and construction (C79). *)
From Coq Require Import Lia Ascii.
From Verif Require Import Num Numpy ListFacts CycleModel CycleSpec VehModel SimModel SimState FrameProofs VehSpec VehProofs VehProofs2 VehProofs3 VehDictModel DictSpec DictProofs DictProofs2 DictProofs3 DictProofs4.

Section Made.
  Context {F : Type} {N : Num F} (T : texts F).
  Definition conv1 (k : string) (v : pyval F) : Res (pyval F) :=
    if String.eqb k "props" then Ok v
    else if (mem k ["veh_override_kg"; "mc_eff_map"; "fc_peak_eff_override"; "mc_peak_eff_override"]%string
             && match v with VNone => true | _ => false end)%bool then Ok v
    else match find (fun e => String.eqb (fst e) k) keys_and_types with
         | Some (_, t) => convert T t v
         | None => Err KeyError
         end.
  Lemma convert_all_get (d d' : pydict F) : convert_all T d = Ok d' ->
    forall k, match pget d k with None => pget d' k = None | Some v => exists v', pget d' k = Some v' /\ conv1 k v = Ok v' end.
  Proof.
    revert d'. induction d as [|[k v] r IH]; intros d' H k'.
    - injection H as <-. reflexivity.
    - cbn [convert_all] in H. fold (conv1 k v) in H. destruct (conv1 k v) as [v'|] eqn:E; [|discriminate]. cbn [bindR] in H.
      destruct (convert_all T r) as [r'|] eqn:ER; [|discriminate]. cbn [bindR] in H. injection H as <-. cbn [pget].
      destruct (String.eqb_spec k k') as [->|K]; [eauto|]. now apply IH.
  Qed.
  Lemma mem_in k l : mem k l = true <-> In k l.
  Proof.
    unfold mem. rewrite existsb_exists. split; [intros (x & I & E); apply String.eqb_eq in E; now subst|]. intros I. exists k. split; [exact I|apply String.eqb_refl].
  Qed.
  Lemma convert_all_known (d d' : pydict F) : convert_all T d = Ok d' -> forall k v, In (k, v) d -> k = "props"%string \/ In k (map fst keys_and_types).
  Proof.
    revert d'. induction d as [|[k v] r IH]; intros d' H k' w I; [destruct I|].
    cbn [convert_all] in H. fold (conv1 k v) in H. destruct (conv1 k v) as [v'|] eqn:E; [|discriminate]. cbn [bindR] in H.
    destruct (convert_all T r) as [r'|] eqn:ER; [|discriminate]. destruct I as [I|I]; [|eapply IH; eauto]. injection I as <- <-.
    unfold conv1 in E. destruct (String.eqb_spec k "props"); [now left|]. right.
    destruct (mem k _ && _)%bool eqn:M.
    - apply andb_prop in M as [M _]. unfold mem in M. apply existsb_exists in M as (x & I & Q). apply String.eqb_eq in Q. subst x.
      cbn [In] in I. repeat (destruct I as [<-|I]; [apply mem_in; reflexivity|]). destruct I.
    - destruct (find _ _) as [[k0 t]|] eqn:FI; [|discriminate]. apply find_some in FI as [FI Q]. apply String.eqb_eq in Q. cbn in Q. subst k0. apply (in_map fst _ _ FI).
  Qed.
  Definition as_list (w : pyval F) : pyval F := match w with VArr l => VList l | _ => w end.

  Lemma bind_ok {A B} (r : Res A) (k : A -> Res B) y : bindR r k = Ok y -> exists x, r = Ok x /\ k x = Ok y.
  Proof. destruct r as [x|]; [eauto|discriminate]. Qed.
  Lemma gFs_spec (d : pydict F) ks : forall l, gFs d ks = Ok l -> Forall2 (fun k x => gF d k = Ok x) ks l.
  Proof.
    induction ks as [|k ks IH]; intros l H; cbn [gFs] in H.
    - injection H as <-. constructor.
    - apply bind_ok in H as (x & E & H). apply bind_ok in H as (xs & E' & H). injection H as <-. constructor; auto.
  Qed.
  Lemma gF_e (d : pydict F) k x : gF d k = Ok x -> pget d k = Some (VNum x).
  Proof. unfold gF. destruct (pget d k) as [[]|]; congruence. Qed.
  Lemma gZ_e (d : pydict F) k x : gZ d k = Ok x -> pget d k = Some (VInt x).
  Proof. unfold gZ. destruct (pget d k) as [[]|]; congruence. Qed.
  Lemma gB_e (d : pydict F) k x : gB d k = Ok x -> pget d k = Some (VBool x).
  Proof. unfold gB. destruct (pget d k) as [[]|]; congruence. Qed.
  Lemma gS_e (d : pydict F) k x : gS d k = Ok x -> pget d k = Some (VStr x).
  Proof. unfold gS. destruct (pget d k) as [[]|]; congruence. Qed.
  Lemma gA_e (d : pydict F) k x : gA d k = Ok x -> pget d k = Some (VArr x).
  Proof. unfold gA. destruct (pget d k) as [[]|]; congruence. Qed.
  Lemma gOF_e (d : pydict F) k x : gOF d k = Ok x -> pget d k = Some (opt_num x) \/ (pget d k = None /\ x = None).
  Proof. unfold gOF. destruct (pget d k) as [[]|]; intros H; try discriminate; injection H as <-; cbn; auto. Qed.
  Lemma gOA_e (d : pydict F) k x : gOA d k = Ok x -> pget d k = Some (match x with Some l => VArr l | None => VNone end).
  Proof. unfold gOA. destruct (pget d k) as [[]|]; intros H; try discriminate; injection H as <-; reflexivity. Qed.
  Lemma gD_e (d : pydict F) k x y : gD d k x = Ok y -> pget d k = Some (VNum y) \/ (pget d k = None /\ y = x).
  Proof. unfold gD. destruct (pget d k) eqn:E; intros H; [left; rewrite <- E; now apply gF_e|right; split; congruence]. Qed.
  Lemma gP_e (d : pydict F) p : gP d = Ok p -> pget d "props" = Some (VProps (fst (fst p)) (snd (fst p)) (snd p)) \/
    (pget d "props" = None /\ p = (mkprops (lit 12 10) (lit 981 100) (lit 337 10), lit 75 100, lit 147 10)).
  Proof. unfold gP. destruct (pget d "props") as [[]|]; intros H; try discriminate; injection H as <-; auto. Qed.
  Lemma pt_of_e s t : match pt_of s with Some p => Ok p | None => Err TypeError end = Ok t -> s = pt_text t.
  Proof.
    unfold pt_of. repeat match goal with |- context [String.eqb s ?k] => destruct (String.eqb_spec s k) as [->|]; [intros H; injection H as <-; reflexivity|] end. discriminate.
  Qed.

  Lemma construct_spec (d : pydict F) u : construct d = Ok u ->
    Forall (fun e => match pget d (fst e) with Some w => snd e = as_list w | None => In (fst e) optional end) (copy_dict u) /\
    (forall e, In e d -> ~ In (fst e) keys_to_remove) /\
    length (pv_vals u) = 18%nat /\ is_template (pv_core u) = String.eqb (pv_scenario u) template_name /\
    fc_eff_type (pv_core u) = fc_of (pv_type u) /\ num_wheels (pv_core u) = nofZ (pv_wheels u) /\
    (pget d "regen_a" = None -> regen_a (pv_core u) = nofZ 500) /\ (pget d "regen_b" = None -> regen_b (pv_core u) = lit 99 100) /\
    (pget d "props" = None -> (veh_props (pv_core u), pv_rho u, pv_afr u) = (mkprops (lit 12 10) (lit 981 100) (lit 337 10), lit 75 100, lit 147 10)) /\
    (pget d "fc_peak_eff_override" = None -> fc_peak_eff_override (pv_core u) = None) /\
    (pget d "mc_peak_eff_override" = None -> mc_peak_eff_override (pv_core u) = None).
  Proof.
    intros H. unfold construct in H. apply bind_ok in H as ([] & EX & H).
    repeat (apply bind_ok in H as (? & ?E & H)). 
    match type of H with Ok ?x = Ok _ => assert (U : u = x) by congruence end. clear H.
    repeat match goal with
    | E : gF _ _ = Ok _ |- _ => apply gF_e in E
    | E : gZ _ _ = Ok _ |- _ => apply gZ_e in E
    | E : gB _ _ = Ok _ |- _ => apply gB_e in E
    | E : gS _ _ = Ok _ |- _ => apply gS_e in E
    | E : gA _ _ = Ok _ |- _ => apply gA_e in E
    | E : gOF _ _ = Ok _ |- _ => apply gOF_e in E
    | E : gOA _ _ = Ok _ |- _ => apply gOA_e in E
    | E : gD _ _ _ = Ok _ |- _ => apply gD_e in E
    | E : gP _ = Ok _ |- _ => apply gP_e in E
    | E : gFs _ _ = Ok _ |- _ => apply gFs_spec in E
    | E : match pt_of _ with _ => _ end = Ok _ |- _ => apply pt_of_e in E; match type of E with ?s = _ => subst s end
    end.
    match goal with E : Forall2 _ val_keys ?l |- _ => rename E into EV; rename l into vals end.
    assert (LV : length vals = 18%nat). { symmetry. change 18%nat with (length val_keys). clear - EV. induction EV; cbn; congruence. }
    destruct (explode18 _ LV) as (y1 & y2 & y3 & y4 & y5 & y6 & y7 & y8 & y9 & y10 & y11 & y12 & y13 & y14 & y15 & y16 & y17 & y18 & VE). rewrite VE in EV.
    unfold val_keys in EV. repeat (let E := fresh "E" in apply F2c in EV as [E EV]; apply gF_e in E). clear EV.
    split; [|split].
    { rewrite U. unfold copy_dict. cbn [pv_core pv_scenario pv_selection pv_year pv_type pv_wheels pv_vals pv_rho pv_afr val_keys app map fst snd]. rewrite VE. cbn [combine map fst snd app]. clear U LV VE EX.
      repeat (apply Forall_cons; [cbn beta iota delta [fst snd];
        first [match goal with E : pget d ?k = Some _ |- context [pget d ?k] => rewrite E; first [reflexivity|match type of E with context [match ?o with Some _ => _ | None => _ end] => destruct o; reflexivity end] end |
               match goal with E : pget d ?k = Some _ \/ _ |- context [pget d ?k] => destruct E as [E|[E ->]]; rewrite E; [first [reflexivity|match type of E with context [opt_num ?o] => destruct o; reflexivity end]|apply mem_in; reflexivity] end | idtac] |]).
      apply Forall_nil. }
    { intros e I R. destruct (existsb (fun e => mem (fst e) keys_to_remove) d) eqn:X; [discriminate|].
      assert (Q : existsb (fun e => mem (fst e) keys_to_remove) d = true) by (apply existsb_exists; exists e; split; [exact I|now apply mem_in]). congruence. }
    rewrite U. cbn [pv_core pv_scenario pv_type pv_wheels pv_vals pv_rho pv_afr is_template fc_eff_type num_wheels regen_a regen_b veh_props fc_peak_eff_override mc_peak_eff_override].
    split; [exact LV|]. do 3 (split; [reflexivity|]). clear U LV VE EX.
    split; [|split; [|split; [|split]]]; intros Q; match type of Q with pget d ?k = None => match goal with E : pget d k = Some _ \/ _ |- _ => destruct E as [E|[_ ->]]; [congruence|try reflexivity] end end.
  Qed.

  Definition changed_keys : list string := ["veh_override_kg"; "fc_eff_map"; "mc_eff_map"]%string.
  Lemma pget_F2 (l l' : pydict F) (ks : list string) : Forall2 (fun e e' => fst e = fst e' /\ (In (fst e) ks \/ snd e = snd e')) l l' ->
    forall k, ~ In k ks -> pget l k = pget l' k.
  Proof.
    induction 1 as [|[k v] [k' v'] l l' [A B] _ IH]; intros x X; [reflexivity|]. cbn [fst snd] in *. subst k'. cbn [pget].
    destruct (String.eqb_spec k x) as [->|]; [|now apply IH]. destruct B as [B|B]; [tauto|congruence].
  Qed.
  Lemma F2_refl (ks : list string) (l : pydict F) : Forall2 (fun e e' => fst e = fst e' /\ (In (fst e) ks \/ snd e = snd e')) l l.
  Proof. induction l; constructor; auto. Qed.
  Lemma derived_attr (u : pyveh F) c : set_derived (pv_core u) = Ok c -> forall k, ~ In k changed_keys -> attribute (with_core u c) k = attribute u k.
  Proof.
    intros H. unfold attribute. apply pget_F2. open_dv H OD. rewrite (od_v' _ _ _ _ _ _ _ _ _ _ OD). clear H OD.
    destruct u as [c0 sc se ye te wh vals rho afr]. unfold with_core, copy_dict. cbn [pv_core pv_scenario pv_selection pv_year pv_type pv_wheels pv_vals pv_rho pv_afr].
    unfold set_veh_mass.
    destruct (use_override _); (apply Forall2_app; [repeat (apply Forall2_cons; [split; [reflexivity|first [right; reflexivity|left; apply mem_in; reflexivity]]|]); apply Forall2_nil|
      apply Forall2_app; [apply F2_refl|repeat (apply Forall2_cons; [split; [reflexivity|right; reflexivity]|]); apply Forall2_nil]]).
  Qed.
  (** ** from_dict, opened *)
  Lemma from_dict_open (d d' : pydict F) v : from_dict T d = Ok (d', v) ->
    exists d1 d2 u c, fill_maps T d = Ok d1 /\ fill_rest T d1 = Ok d2 /\ convert_all T d2 = Ok d' /\ construct d' = Ok u /\
      set_derived (pv_core u) = Ok c /\ v = with_core u c.
  Proof.
    intros H. unfold from_dict in H. apply bind_ok in H as (d1 & E1 & H). apply bind_ok in H as (d2 & E2 & H). apply bind_ok in H as (d3 & E3 & H).
    apply bind_ok in H as (u & E4 & H). apply bind_ok in H as (v' & E5 & H). unfold py_set_derived in E5. apply bind_ok in E5 as (c & E5 & E6).
    assert (d3 = d' /\ v' = v) as [-> ->] by (split; congruence). exists d1, d2, u, c. repeat split; auto; congruence.
  Qed.
  Lemma attr_spec (d : pydict F) u : construct d = Ok u -> forall k w, pget d k = Some w -> In k copy_keys -> attribute u k = Some (as_list w).
  Proof.
    intros H k w E I. destruct (construct_spec d u H) as (A & _ & L & _). unfold attribute.
    rewrite <- (keys_of_copy u L) in I. clear H L. revert I A. generalize (copy_dict u). intros l. induction l as [|[k0 x] l IH]; intros I A; [destruct I|].
    cbn [pget]. inversion A as [|? ? A1 A2]; subst. cbn [fst snd] in A1. destruct (String.eqb_spec k0 k) as [->|K].
    - rewrite E in A1. now subst x.
    - apply IH; [|exact A2]. destruct I as [I|I]; [cbn in I; congruence|exact I].
  Qed.
  Lemma required_spec (d : pydict F) u : construct d = Ok u -> forall k, In k copy_keys -> ~ In k optional -> pget d k <> None.
  Proof.
    intros H k I O. destruct (construct_spec d u H) as (A & _ & L & _). rewrite <- (keys_of_copy u L) in I. apply in_map_iff in I as (e & <- & I).
    rewrite Forall_forall in A. specialize (A e I). cbn beta in A. destruct (pget d (fst e)); [discriminate|tauto].
  Qed.
  (** Keys present at the end were given or are among those filled in. *)
  Lemma present_back (d d' : pydict F) v : from_dict T d = Ok (d', v) -> forall k, ~ In k map_keys -> ~ In k rest_keys -> (pget d' k = None <-> pget d k = None).
  Proof.
    intros H k K1 K2. destruct (from_dict_open d d' v H) as (d1 & d2 & u & c & E1 & E2 & E3 & _).
    destruct (fill_maps_spec T d d1 E1) as (t & m0 & m & _ & _ & _ & _ & _ & _ & _ & _ & _ & M). destruct (fill_rest_spec T d1 d2 E2) as (R & _).
    rewrite <- (M k K1), <- (R k K2). pose proof (convert_all_get d2 d' E3 k) as C. destruct (pget d2 k); [|tauto]. destruct C as (v' & -> & _). split; discriminate.
  Qed.
  Lemma missing_required (d : pydict F) k : In k copy_keys -> ~ In k optional -> pget d k = None -> exists e, from_dict T d = Err e.
  Proof.
    intros I O E. destruct (from_dict T d) as [[d' v]|e] eqn:H; [|eauto]. exfalso.
    destruct (from_dict_open d d' v H) as (d1 & d2 & u & c & E1 & E2 & E3 & E4 & _). apply (required_spec d' u E4 k I O).
    destruct (in_dec String.string_dec k map_keys) as [M|M].
    - destruct (fill_maps_spec T d d1 E1) as (t & m0 & m & T1 & T2 & _). cbn [In map_keys] in M.
      repeat (destruct M as [<-|M]; [first [congruence | destruct O; apply mem_in; reflexivity]|]). destruct M.
    - destruct (in_dec String.string_dec k rest_keys) as [R|R]; [|now apply (present_back d d' v H)].
      cbn [In rest_keys] in R. destruct R as [<-|R].
      + destruct (fill_rest_spec T d1 d2 E2) as (_ & _ & S & _). destruct (fill_maps_spec T d d1 E1) as (t & m0 & m & _ & _ & _ & _ & _ & _ & _ & _ & _ & MK).
        rewrite <- (MK "stop_start"%string) in E by (intros Q; apply mem_in in Q; discriminate). pose proof (convert_all_get d2 d' E3 "stop_start") as C. rewrite (S E) in C. exact C.
      + repeat (destruct R as [<-|R]; [destruct O; apply mem_in; reflexivity|]). destruct R.
  Qed.
  Lemma in_pget (d : pydict F) k w : In (k, w) d -> pget d k <> None.
  Proof. induction d as [|[k' x] d IH]; intros I; [destruct I|]. cbn [pget]. destruct (String.eqb_spec k' k); [discriminate|]. destruct I as [I|I]; [congruence|now apply IH]. Qed.
  Lemma pget_in (d : pydict F) k w : pget d k = Some w -> In (k, w) d.
  Proof. induction d as [|[k' x] d IH]; [discriminate|]. cbn [pget]. destruct (String.eqb_spec k' k) as [->|]; intros H; [injection H as ->; now left|right; now apply IH]. Qed.
  Lemma unknown_key (d : pydict F) k w : In (k, w) d -> ~ In k copy_keys -> exists e, from_dict T d = Err e.
  Proof.
    intros I NI. destruct (from_dict T d) as [[d' v]|e] eqn:H; [|eauto]. exfalso. destruct (from_dict_open d d' v H) as (d1 & d2 & u & c & E1 & E2 & E3 & E4 & _).
    assert (M : ~ In k map_keys /\ ~ In k rest_keys).
    { split; intros Q; apply NI; cbn [In map_keys rest_keys] in Q; repeat (destruct Q as [<-|Q]; [apply mem_in; reflexivity|]); destruct Q. }
    pose proof (in_pget d k w I) as P. assert (P' : pget d' k <> None) by (intros Q; apply P; now apply (present_back d d' v H k)).
    destruct (pget d' k) as [x|] eqn:X; [|congruence]. apply pget_in in X as X'. destruct (construct_spec d' u E4) as (_ & R & _). specialize (R _ X'). cbn [fst] in R.
    pose proof (convert_all_get d2 d' E3 k) as C. destruct (pget d2 k) as [y|] eqn:Y; [|congruence]. apply pget_in in Y. destruct (convert_all_known d2 d' E3 k y Y) as [->|J].
    - apply NI. apply mem_in. reflexivity.
    - apply NI. unfold copy_keys. apply filter_In. split; [exact J|]. destruct (mem k keys_to_remove) eqn:Q; [apply mem_in in Q; tauto|reflexivity].
  Qed.
End Made.
