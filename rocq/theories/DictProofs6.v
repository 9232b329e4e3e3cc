(** Proofs about from_dict: what becomes of the entries (C79). *)
From Coq Require Import Lia Ascii.
From Verif Require Import Num Numpy ListFacts CycleModel CycleSpec VehModel SimModel SimState FrameProofs VehSpec VehProofs VehProofs2 VehProofs3 VehDictModel DictSpec DictProofs DictProofs2 DictProofs3 DictProofs4 DictProofs5.
Local Open Scope R_scope.

Section Entries.
  Context {F : Type} {N : Num F} (T : texts F).
  Ltac notin := let Q := fresh in intros Q; apply mem_in in Q; discriminate.
  Lemma conv1_typed k t (w : pyval F) : find (fun e => String.eqb (fst e) k) keys_and_types = Some (k, t) -> of_type t w -> conv1 T k w = Ok w.
  Proof.
    intros E O. unfold conv1. rewrite E. destruct (String.eqb_spec k "props") as [->|K]; [reflexivity|].
    destruct t, w; try destruct O; cbn [andb]; rewrite ?Bool.andb_false_r; try reflexivity.
    exfalso. apply find_some in E as [I _]. revert I K. clear. intros I K.
    assert (Q : forallb (fun e => match snd e with TProps => String.eqb (fst e) "props" | _ => true end) keys_and_types = true) by reflexivity.
    rewrite forallb_forall in Q. apply Q in I. cbn [fst snd] in I. apply String.eqb_eq in I. contradiction.
  Qed.
  (** The dict handed to the constructor, entry by entry. *)
  Lemma entry_kept (d d' : pydict F) v k t w : from_dict T d = Ok (d', v) -> find (fun e => String.eqb (fst e) k) keys_and_types = Some (k, t) ->
    of_type t w -> ~ In k ["veh_override_kg"; "fc_peak_eff_override"; "mc_peak_eff_override"]%string -> pget d k = Some w -> pget d' k = Some w.
  Proof.
    intros H E O NS P. destruct (from_dict_open T d d' v H) as (d1 & d2 & u & c & E1 & E2 & E3 & E4 & _).
    destruct (fill_maps_spec T d d1 E1) as (t0 & m0 & m & T1 & _ & _ & T2 & _ & _ & _ & _ & _ & M). destruct (fill_rest_spec T d1 d2 E2) as (R & S & _ & _ & (y & Y1 & Y2) & _).
    assert (P1 : pget d1 k = Some w).
    { destruct (in_dec String.string_dec k map_keys) as [Q|Q]; [|now rewrite M].
      cbn [In map_keys] in Q. destruct Q as [<-|Q].
      - cbn in E. injection E as <-. destruct w; try destruct O. rewrite P in T1. injection T1 as <-. exact T2.
      - repeat (destruct Q as [<-|Q]; [cbn in E; injection E as <-; destruct w; destruct O|]). destruct Q. }
    assert (P2 : pget d2 k = Some w).
    { destruct (in_dec String.string_dec k rest_keys) as [Q|Q]; [|now rewrite R].
      cbn [In rest_keys] in Q. destruct Q as [<-|[<-|[<-|[<-|[<-|[]]]]]]; try (exfalso; apply NS; apply mem_in; reflexivity).
      - cbn in E. injection E as <-. destruct w; try destruct O. now apply S.
      - cbn in E. injection E as <-. destruct w; try destruct O. rewrite P1 in Y2. cbn in Y2. destruct Y2 as [(_ & Y2)|Y2]; [|discriminate]. congruence. }
    pose proof (convert_all_get T d2 d' E3 k) as C. rewrite P2 in C. destruct C as (w' & -> & C). rewrite (conv1_typed k t w E O) in C. congruence.
  Qed.
  Lemma find_in k t : find (fun e => String.eqb (fst e) k) keys_and_types = Some (k, t) -> In k (map fst keys_and_types).
  Proof. intros E. apply find_some in E as [I _]. apply (in_map fst _ _ I). Qed.
  Lemma final_attr (d d' : pydict F) v k w : from_dict T d = Ok (d', v) -> pget d' k = Some w -> ~ In k changed_keys -> attribute v k = Some (as_list w).
  Proof.
    intros H P C. assert (K : In k copy_keys).
    { destruct (in_dec String.string_dec k copy_keys) as [I|I]; [exact I|]. exfalso. destruct (from_dict_open T d d' v H) as (d1 & d2 & u & c & E1 & E2 & E3 & E4 & _).
      pose proof (convert_all_get T d2 d' E3 k) as G. destruct (pget d2 k) as [y|] eqn:Y; [|congruence]. apply pget_in in Y. destruct (construct_spec d' u E4) as (_ & R & _).
      apply pget_in in P. specialize (R _ P). cbn [fst] in R. destruct (convert_all_known T d2 d' E3 k y Y) as [->|J].
      - apply I. apply mem_in. reflexivity.
      - apply I. unfold copy_keys. apply filter_In. split; [exact J|]. destruct (mem k keys_to_remove) eqn:Q; [apply mem_in in Q; tauto|reflexivity]. }
    destruct (from_dict_open T d d' v H) as (d1 & d2 & u & c & E1 & E2 & E3 & E4 & E5 & ->).
    rewrite (derived_attr u c E5 k C). now apply (attr_spec d' u E4).
  Qed.
  Lemma kept (d d' : pydict F) v k t w : from_dict T d = Ok (d', v) -> find (fun e => String.eqb (fst e) k) keys_and_types = Some (k, t) ->
    of_type t w -> ~ In k ["veh_override_kg"; "fc_peak_eff_override"; "mc_peak_eff_override"]%string -> pget d k = Some w -> attribute v k = Some w.
  Proof.
    intros H E O NS P. pose proof (entry_kept d d' v k t w H E O NS P) as P'.
    assert (C : ~ In k changed_keys).
    { intros C. cbn [In changed_keys] in C. destruct C as [<-|[<-|[<-|[]]]]; [apply NS; apply mem_in; reflexivity| |]; cbn in E; injection E as <-; destruct w; destruct O. }
    rewrite (final_attr d d' v k w H P' C). f_equal. destruct t, w; try destruct O; reflexivity.
  Qed.
  (** Peak overrides. *)
  Definition peak_ok (o : option (pyval F)) (p : option F) : Prop :=
    match o with
    | None => p = None
    | Some v => match to_F T v with Ok x => p = if (nltb n0 x && nltb x n1)%bool then Some x else None | Err _ => p = None end
    end.
  Lemma peak_entry (d d' : pydict F) v k : from_dict T d = Ok (d', v) -> In k ["fc_peak_eff_override"; "mc_peak_eff_override"]%string ->
    exists p, peak_ok (pget d k) p /\ (pget d' k = None /\ p = None \/ pget d' k = Some (opt_num p)).
  Proof.
    intros H I. destruct (from_dict_open T d d' v H) as (d1 & d2 & u & c & E1 & E2 & E3 & E4 & _).
    destruct (fill_maps_spec T d d1 E1) as (t0 & m0 & m & _ & _ & _ & _ & _ & _ & _ & _ & _ & M). destruct (fill_rest_spec T d1 d2 E2) as (_ & _ & _ & _ & _ & _ & P1 & P2).
    assert (Q : pget d2 k = pget (clean_override T d1 k) k /\ pget d1 k = pget d k /\ find (fun e => String.eqb (fst e) k) keys_and_types = Some (k, TFloat) /\
      mem k ["veh_override_kg"; "mc_eff_map"; "fc_peak_eff_override"; "mc_peak_eff_override"]%string = true /\ String.eqb k "props" = false).
    { cbn [In] in I. destruct I as [<-|[<-|[]]]; (split; [assumption|split; [apply M; notin|repeat split; reflexivity]]). }
    destruct Q as (Q1 & Q2 & Q3 & Q4 & Q5). rewrite clean_override_spec, Q2 in Q1. pose proof (convert_all_get T d2 d' E3 k) as C. rewrite Q1 in C.
    unfold peak_ok. destruct (pget d k) as [w|].
    - destruct C as (w' & C1 & C2). unfold conv1 in C2. rewrite Q3, Q4, Q5 in C2. destruct (to_F T w) as [x|].
      + eexists. split; [reflexivity|]. right. rewrite C1. destruct (nltb n0 x && nltb x n1)%bool; cbn in C2 |- *; congruence.
      + exists None. split; [reflexivity|]. right. cbn in C2 |- *. congruence.
    - exists None. split; [reflexivity|]. left. auto.
  Qed.
  Lemma peak_attr (d d' : pydict F) v k : from_dict T d = Ok (d', v) -> In k ["fc_peak_eff_override"; "mc_peak_eff_override"]%string ->
    exists p, peak_ok (pget d k) p /\ attribute v k = Some (opt_num p).
  Proof.
    intros H I. destruct (peak_entry d d' v k H I) as (p & A & B). exists p. split; [exact A|]. assert (C : ~ In k changed_keys) by (cbn [In] in I; destruct I as [<-|[<-|[]]]; notin).
    destruct B as [(B & ->)|B].
    - destruct (from_dict_open T d d' v H) as (d1 & d2 & u & c & E1 & E2 & E3 & E4 & E5 & ->). rewrite (derived_attr u c E5 k C).
      destruct (construct_spec d' u E4) as (_ & _ & L & _ & _ & _ & _ & _ & _ & S1 & S2).
      cbn [opt_num]. unfold attribute. destruct u as [c0 sc se ye te wh vals rho afr]. cbn [pv_vals pv_core] in *.
      destruct (explode18 _ L) as (x1 & x2 & x3 & x4 & x5 & x6 & x7 & x8 & x9 & x10 & x11 & x12 & x13 & x14 & x15 & x16 & x17 & x18 & ->).
      cbn [In] in I. destruct I as [<-|[<-|[]]].
      + specialize (S1 B). change (Some (opt_num (fc_peak_eff_override c0)) = Some VNone). now rewrite S1.
      + specialize (S2 B). change (Some (opt_num (mc_peak_eff_override c0)) = Some VNone). now rewrite S2.
    - rewrite (final_attr d d' v k _ H B C). now destruct p.
  Qed.
  (** Year. *)
  Lemma year_attr (d d' : pydict F) v s : from_dict T d = Ok (d', v) -> pget d "veh_year" = None -> pget d "scenario_name" = Some (VStr s) ->
    pv_year v = match leading_year s with Some y => y | None => 0%Z end.
  Proof.
    intros H E S. destruct (from_dict_open T d d' v H) as (d1 & d2 & u & c & E1 & E2 & E3 & E4 & E5 & V).
    destruct (fill_maps_spec T d d1 E1) as (t0 & m0 & m & _ & _ & _ & _ & _ & _ & _ & _ & _ & M). destruct (fill_rest_spec T d1 d2 E2) as (_ & _ & _ & _ & (y & Y1 & Y2) & _).
    rewrite M, E in Y2 by notin. destruct Y2 as (s' & S' & ->). rewrite M in S' by notin. rewrite S in S'. injection S' as <-. cbn [as_text] in Y1.
    pose proof (convert_all_get T d2 d' E3 "veh_year") as C. rewrite Y1 in C. destruct C as (w & C1 & C2). cbn in C2. injection C2 as <-.
    assert (A := final_attr d d' v "veh_year" _ H C1 ltac:(notin)). cbn [as_list] in A. change (Some (VInt (F := F) (pv_year v)) = Some (VInt (match leading_year s with Some y => y | None => 0%Z end))) in A. congruence.
  Qed.
  (** Maps handed to the constructor. *)
  Definition map_given (d : pydict F) (k : string) (dflt m : list F) : Prop :=
    match read_literal T (pget d k) with Some (Items l) => m = l | Some _ => False | None => m = dflt end.
  Lemma maps_made (d d' : pydict F) v : from_dict T d = Ok (d', v) -> exists u t,
    construct d' = Ok u /\ set_derived (pv_core u) = Ok (pv_core v) /\ v = with_core u (pv_core v) /\
    pget d "fc_eff_type" = Some t /\ pv_type v = as_text T t /\ pget d "fc_eff_map" <> None /\
    (match read_literal T (pget d "fc_eff_map") with Some (Items l) => fc_eff_map (pv_core u) = l | Some _ => False
     | None => default_fc_map (pv_type v) = Ok (fc_eff_map (pv_core u)) end) /\
    map_given d "fc_pwr_out_perc" fc_pwr_out_perc_default (fc_pwr_out_perc (pv_core u)) /\
    map_given d "mc_pwr_out_perc" mc_pwr_out_perc_default (mc_pwr_out_perc (pv_core u)) /\
    mc_eff_map (pv_core u) = match read_literal T (pget d "mc_eff_map") with Some (Items l) => Some l | _ => None end /\
    (forall k, In k ["fc_eff_map"; "fc_pwr_out_perc"; "mc_pwr_out_perc"; "mc_eff_map"]%string -> read_literal T (pget d' k) = None).
  Proof.
    intros H. destruct (from_dict_open T d d' v H) as (d1 & d2 & u & c & E1 & E2 & E3 & E4 & E5 & V).
    destruct (fill_maps_spec T d d1 E1) as (t & m0 & m & T1 & T2 & T3 & T4 & T5 & T6 & T7 & T8 & T9 & M). destruct (fill_rest_spec T d1 d2 E2) as (R & _).
    destruct (construct_spec d' u E4) as (A & _ & L & _).
    assert (X : forall k w, In k map_keys -> pget d1 k = Some w -> conv1 T k w = Ok w -> pget d' k = Some w /\ attribute u k = Some (as_list w)).
    { intros k w I P C0. assert (P2 : pget d2 k = Some w). { rewrite R; [exact P|]. cbn [In map_keys] in I. destruct I as [<-|[<-|[<-|[<-|[<-|[]]]]]]; notin. }
      pose proof (convert_all_get T d2 d' E3 k) as C. rewrite P2 in C. destruct C as (w' & C1 & C2). assert (w' = w) by congruence. subst w'. split; [exact C1|].
      apply (attr_spec d' u E4 k w C1). cbn [In map_keys] in I. destruct I as [<-|[<-|[<-|[<-|[<-|[]]]]]]; apply mem_in; reflexivity. }
    exists u, t. split; [exact E4|]. split; [rewrite V; exact E5|]. split; [rewrite V; reflexivity|]. split; [exact T1|].
    destruct u as [c0 sc se ye te wh vals rho afr]. cbn [pv_vals pv_core] in *.
    destruct (X "fc_eff_type"%string _ ltac:(apply mem_in; reflexivity) T4 eq_refl) as (_ & X1). change (Some (VStr (F := F) te) = Some (VStr (as_text T t))) in X1. injection X1 as X1.
    assert (PT : pv_type v = as_text T t) by (rewrite V; exact X1). split; [exact PT|]. split; [congruence|].
    assert (CV : forall k l, In k ["fc_eff_map"; "fc_pwr_out_perc"; "mc_pwr_out_perc"; "mc_eff_map"]%string -> conv1 T k (VArr l) = Ok (VArr l)).
    { intros k l I. cbn [In] in I. destruct I as [<-|[<-|[<-|[<-|[]]]]]; reflexivity. }
    (* a map entry that the constructor accepted is an array *)
    assert (Y : forall k w, In k ["fc_eff_map"; "fc_pwr_out_perc"; "mc_pwr_out_perc"]%string -> pget d1 k = Some w -> (exists l, w = VArr l) \/ (exists x, w = VNum x) \/ w = VNone).
    { intros k w I P. cbn [In] in I. destruct I as [<-|[<-|[<-|[]]]].
      - rewrite T5 in P. injection P as <-. destruct (read_literal T (Some m0)) as [[| |]|]; cbn [from_literal] in T3; subst; eauto. destruct T3 as (l & _ & ->). eauto.
      - rewrite T7 in P. injection P as <-. destruct (read_literal T (pget d "fc_pwr_out_perc")) as [[| |]|]; cbn [from_literal]; eauto.
      - rewrite T8 in P. injection P as <-. destruct (read_literal T (pget d "mc_pwr_out_perc")) as [[| |]|]; cbn [from_literal]; eauto. }
    assert (Z : forall k w, In k ["fc_eff_map"; "fc_pwr_out_perc"; "mc_pwr_out_perc"]%string -> pget d1 k = Some w -> exists l, w = VArr l /\ pget d' k = Some (VArr l) /\ attribute (mkpv c0 sc se ye te wh vals rho afr) k = Some (VList l)).
    { intros k w I P. assert (GA : exists l, pget d' k = Some (VArr l)).
      { unfold construct in E4. cbn [In] in I. apply bind_ok in E4 as ([] & _ & E4). repeat (let E := fresh "G" in apply bind_ok in E4 as (? & E & E4)).
        destruct I as [<-|[<-|[<-|[]]]]; match goal with G : gA d' ?k = Ok _ |- context [pget d' ?k] => apply gA_e in G; eauto end. }
      destruct GA as (l & GA). assert (P2 : pget d2 k = Some w). { rewrite R; [exact P|]. cbn [In] in I. destruct I as [<-|[<-|[<-|[]]]]; notin. }
      pose proof (convert_all_get T d2 d' E3 k) as C. rewrite P2 in C. destruct C as (w' & C1 & C2). assert (w' = VArr l) by congruence. subst w'.
      destruct (Y k w I P) as [(l' & ->)|[(x & ->)| ->]].
      - exists l'. rewrite CV in C2 by (cbn [In] in *; tauto). assert (l' = l) by congruence. subst l'. split; [reflexivity|]. split; [exact C1|].
        apply (attr_spec d' _ E4 k _ C1). cbn [In] in I. destruct I as [<-|[<-|[<-|[]]]]; apply mem_in; reflexivity.
      - exfalso. cbn [In] in I. destruct I as [<-|[<-|[<-|[]]]]; cbn in C2; discriminate.
      - exfalso. cbn [In] in I. destruct I as [<-|[<-|[<-|[]]]]; cbn in C2; discriminate. }
    destruct (Z "fc_eff_map"%string m ltac:(apply mem_in; reflexivity) T5) as (l1 & Z1 & Z2 & Z3). change (Some (VList (fc_eff_map c0)) = Some (VList l1)) in Z3. injection Z3 as Z3.
    destruct (Z "fc_pwr_out_perc"%string _ ltac:(apply mem_in; reflexivity) T7) as (l2 & W1 & W2 & W3). change (Some (VList (fc_pwr_out_perc c0)) = Some (VList l2)) in W3. injection W3 as W3.
    destruct (Z "mc_pwr_out_perc"%string _ ltac:(apply mem_in; reflexivity) T8) as (l3 & U1 & U2 & U3). change (Some (VList (mc_pwr_out_perc c0)) = Some (VList l3)) in U3. injection U3 as U3.
    assert (ME : exists w, pget d' "mc_eff_map" = Some w /\ (w = VNone \/ exists l, w = VArr l) /\ Some (opt_list (mc_eff_map c0)) = Some (as_list w) /\
      w = match read_literal T (pget d "mc_eff_map") with Some (Items l) => VArr l | _ => VNone end).
    { destruct (X "mc_eff_map"%string _ ltac:(apply mem_in; reflexivity) T9) as (K1 & K2).
      - destruct (read_literal T (pget d "mc_eff_map")) as [[| |]|]; reflexivity.
      - eexists. split; [exact K1|]. split; [|split; [exact K2|reflexivity]]. destruct (read_literal T (pget d "mc_eff_map")) as [[| |]|]; eauto. }
    destruct ME as (w & K1 & K2 & K3 & K4).
    split. { rewrite T2. destruct (read_literal T (Some m0)) as [[| |]|]; cbn [from_literal] in T3; try congruence. destruct T3 as (l & D & E). rewrite PT, D. congruence. }
    split. { unfold map_given. cbn [pv_core]. destruct (read_literal T (pget d "fc_pwr_out_perc")) as [[| |]|]; cbn [from_literal] in W1; congruence. }
    split. { unfold map_given. cbn [pv_core]. destruct (read_literal T (pget d "mc_pwr_out_perc")) as [[| |]|]; cbn [from_literal] in U1; congruence. }
    split. { subst w. destruct (read_literal T (pget d "mc_eff_map")) as [[| |]|]; destruct (mc_eff_map c0); cbn in K3; congruence. }
    intros k I. cbn [In] in I. destruct I as [<-|[<-|[<-|[<-|[]]]]]; [rewrite Z2|rewrite W2|rewrite U2|rewrite K1]; try reflexivity. destruct K2 as [->|(l & ->)]; reflexivity.
  Qed.
End Entries.
