(** Proofs about veh_equal, second part (C48), and about from_dict (C79). *)
From Coq Require Import Lia Ascii.
From Verif Require Import Num Numpy ListFacts CycleModel CycleSpec VehModel SimModel SimState FrameProofs VehSpec VehProofs VehProofs2 VehProofs3 VehDictModel DictSpec DictProofs DictProofs2 DictProofs3.
Local Open Scope R_scope.

Lemma near_refl l : near l l.
Proof. left. split; [reflexivity|]. intros i _. rewrite Rminus_diag_eq, Rabs_R0 by reflexivity. lra. Qed.
Lemma settings_refl v : same_settings v v.
Proof. constructor; try reflexivity. apply Forall_forall. reflexivity. Qed.
Lemma equal_sym (v w : pyveh R) m m' : length (pv_vals v) = 18%nat -> length (pv_vals w) = 18%nat ->
  mc_eff_map (pv_core v) = Some m -> mc_eff_map (pv_core w) = Some m' -> veh_equal v w = veh_equal w v.
Proof.
  intros LV LW MM MM'. rewrite !equal_zip by assumption. apply zip_sym.
  destruct v as [c sc se ye te wh vals rho afr], w as [c' sc' se' ye' te' wh' vals' rho' afr']. cbn [pv_vals pv_core] in *.
  destruct (explode18 _ LV) as (x1 & x2 & x3 & x4 & x5 & x6 & x7 & x8 & x9 & x10 & x11 & x12 & x13 & x14 & x15 & x16 & x17 & x18 & ->).
  destruct (explode18 _ LW) as (y1 & y2 & y3 & y4 & y5 & y6 & y7 & y8 & y9 & y10 & y11 & y12 & y13 & y14 & y15 & y16 & y17 & y18 & ->).
  unfold copy_dict. cbn [pv_core pv_scenario pv_selection pv_year pv_type pv_wheels pv_vals pv_rho pv_afr val_keys combine map app fst snd]. rewrite MM, MM'. cbn [opt_list].
  assert (SO : forall o o' : option R, match opt_num o, opt_num o' with VList _, VList _ => True | VList _, _ | _, VList _ => False | _, _ => True end).
  { intros [?|] [?|]; exact Logic.I. }
  repeat (apply Forall2_cons; [split; [reflexivity|cbn [fst snd]; apply entry_ne_sym; first [exact Logic.I|apply SO]]|]). apply Forall2_nil.
Qed.
(** All differences. *)
Section Diff.
  Context {F : Type} {N : Num F}.
  Lemma diff_spec (d1 d2 : pydict F) : forall ks, diff_loop d1 d2 = Ok ks ->
    (eq_loop d1 d2 = Ok true <-> forall k, In k ks -> k = "veh_override_kg"%string) /\
    (forall k, In k ks <-> exists a b, In (k, a) d1 /\ pget d2 k = Some b /\ entry_ne k a b = Ok true).
  Proof.
    induction d1 as [|[k a] r IH]; intros ks H.
    - injection H as <-. split; [split; [intros _ k []|reflexivity]|]. intros k. split; [intros []|]. intros (a & b & [] & _).
    - cbn [diff_loop] in H. unfold pitem in H. destruct (pget d2 k) as [b|] eqn:E; [|discriminate]. cbn [bindR] in H.
      destruct (entry_ne k a b) as [ne|] eqn:E2; [|discriminate]. cbn [bindR] in H. destruct (diff_loop r d2) as [rest|] eqn:E3; [|discriminate]. cbn [bindR] in H.
      assert (ks = if ne then k :: rest else rest) by congruence. subst ks. clear H. destruct (IH rest eq_refl) as (A & B). cbn [eq_loop]. unfold pitem. rewrite E. cbn [bindR]. rewrite E2. cbn [bindR]. split.
      + destruct ne; cbn [andb]; [|exact A]. destruct (String.eqb_spec k "veh_override_kg") as [K|K]; cbn [negb].
        * rewrite A. split; [intros H x [X|X]; [congruence|auto]|intros H x X; apply H; now right].
        * split; [discriminate|]. intros H. destruct K. apply H. now left.
      + intros x. destruct ne.
        * split.
          -- intros [X|X]; [subst x; exists a, b; cbn; auto|]. apply B in X as (a' & b' & P & Q & S). exists a', b'. cbn; auto.
          -- intros (a' & b' & [P|P] & Q & S); [injection P as <- <-; now left|]. right. apply B. eauto.
        * rewrite B. split; intros (a' & b' & P & Q & S); exists a', b'.
          -- cbn; auto.
          -- split; [|auto]. destruct P as [P|P]; [|exact P]. injection P as <- <-. congruence.
  Qed.
End Diff.

(** ** from_dict *)
Section FromDict.
  Context {F : Type} {N : Num F} (T : texts F).
  Lemma pget_pset (d : pydict F) k v k' : pget (pset d k v) k' = if String.eqb k k' then Some v else pget d k'.
  Proof.
    induction d as [|[a w] r IH]; cbn [pset pget]; [reflexivity|]. destruct (String.eqb_spec a k) as [->|A]; cbn [pget]; [destruct (String.eqb k k'); reflexivity|].
    rewrite IH. destruct (String.eqb_spec a k') as [->|B]; [|reflexivity]. destruct (String.eqb_spec k k'); [congruence|reflexivity].
  Qed.
  Lemma pget_same (d : pydict F) k v : pget (pset d k v) k = Some v. Proof. now rewrite pget_pset, String.eqb_refl. Qed.
  Lemma pget_other (d : pydict F) k v k' : k <> k' -> pget (pset d k v) k' = pget d k'.
  Proof. intros H. rewrite pget_pset. destruct (String.eqb_spec k k'); [congruence|reflexivity]. Qed.
  Definition map_keys : list string := ["fc_eff_type"; "fc_eff_map"; "fc_pwr_out_perc"; "mc_pwr_out_perc"; "mc_eff_map"]%string.
  Definition rest_keys : list string := ["stop_start"; "veh_override_kg"; "veh_year"; "fc_peak_eff_override"; "mc_peak_eff_override"]%string.
  Ltac others := repeat rewrite pget_other by (intros Q; subst; cbn in *; tauto).

  Lemma fill_maps_spec (d d1 : pydict F) : fill_maps T d = Ok d1 ->
    exists t m0 m, pget d "fc_eff_type" = Some t /\ pget d "fc_eff_map" = Some m0 /\
      match read_literal T (Some m0) with Some l => m = from_literal l | None => exists l, default_fc_map (as_text T t) = Ok l /\ m = VArr l end /\
      pget d1 "fc_eff_type" = Some (VStr (as_text T t)) /\ pget d1 "fc_eff_map" = Some m /\ (exists n, plen m = Ok n) /\
      pget d1 "fc_pwr_out_perc" = Some (match read_literal T (pget d "fc_pwr_out_perc") with Some l => from_literal l | None => VArr fc_pwr_out_perc_default end) /\
      pget d1 "mc_pwr_out_perc" = Some (match read_literal T (pget d "mc_pwr_out_perc") with Some l => from_literal l | None => VArr mc_pwr_out_perc_default end) /\
      pget d1 "mc_eff_map" = Some (match read_literal T (pget d "mc_eff_map") with Some (Items l) => VArr l | _ => VNone end) /\
      forall k, ~ In k map_keys -> pget d1 k = pget d k.
  Proof.
    intros H. unfold fill_maps in H. unfold pitem at 1 in H. destruct (pget d "fc_eff_type") as [t|] eqn:ET; [|discriminate]. cbn [bindR] in H.
    set (da := pset d "fc_eff_type" (VStr (as_text T t))) in *.
    assert (EM : pget da "fc_eff_map" = pget d "fc_eff_map") by (apply pget_other; discriminate). rewrite EM in H.
    assert (Q : exists m0 m, pget d "fc_eff_map" = Some m0 /\
      match read_literal T (Some m0) with Some l => m = from_literal l | None => exists l, default_fc_map (as_text T t) = Ok l /\ m = VArr l end /\
      bindR (match read_literal T (pget d "fc_eff_map") with
            | Some l => Ok (pset da "fc_eff_map" (from_literal l))
            | None => do _ <- pitem da "fc_eff_map"; do m <- default_fc_map (as_text T t); Ok (pset da "fc_eff_map" (VArr m)) end) (fun x => Ok x) = Ok (pset da "fc_eff_map" m)).
    { unfold pitem. rewrite EM. destruct (pget d "fc_eff_map") as [m0|] eqn:E0.
      - exists m0. destruct (read_literal T (Some m0)) as [l|]; [exists (from_literal l); auto|]. unfold pitem in H. rewrite EM in H. cbn [bindR] in H |- *.
        destruct (default_fc_map (as_text T t)) as [l|]; [|discriminate]. exists (VArr l). cbn [bindR]. eauto.
      - cbn [read_literal] in H. unfold pitem in H. rewrite EM in H. discriminate. }
    destruct Q as (m0 & m & E0 & SP & Q).
    destruct (match read_literal T (pget d "fc_eff_map") with
            | Some l => Ok (pset da "fc_eff_map" (from_literal l))
            | None => do _ <- pitem da "fc_eff_map"; do m <- default_fc_map (as_text T t); Ok (pset da "fc_eff_map" (VArr m)) end) as [db|] eqn:ED; [|discriminate Q].
    cbn [bindR] in Q, H. assert (db = pset da "fc_eff_map" m) by congruence. subst db. clear Q ED.
    set (p := match read_literal T (pget (pset da "fc_eff_map" m) "fc_pwr_out_perc") with Some l => from_literal l | None => VArr fc_pwr_out_perc_default end) in H.
    set (dc := pset (pset da "fc_eff_map" m) "fc_pwr_out_perc" p) in H.
    unfold pitem in H. assert (X1 : pget dc "fc_eff_map" = Some m) by (unfold dc; rewrite pget_other by discriminate; apply pget_same).
    assert (X2 : pget dc "fc_pwr_out_perc" = Some p) by apply pget_same. rewrite X1, X2 in H. cbn [bindR] in H.
    destruct (plen m) as [n|] eqn:PL; [|discriminate]. cbn [bindR] in H. destruct (plen p) as [q|]; [|discriminate]. cbn [bindR] in H.
    destruct (assertR _); [|discriminate]. cbn [bindR] in H. set (p2 := match read_literal T (pget dc "mc_pwr_out_perc") with Some l => from_literal l | None => VArr mc_pwr_out_perc_default end) in H. rewrite pget_same in H. cbn [bindR] in H.
    destruct (plen p2) as [q2|]; [|discriminate]. cbn [bindR] in H. destruct (assertR _); [|discriminate]. cbn [bindR] in H.
    match type of H with Ok ?x = Ok _ => assert (D1 : d1 = x) by congruence end. clear H. exists t, m0, m. split; [reflexivity|]. split; [exact E0|]. split; [exact SP|].
    assert (Z : forall k, k <> "mc_eff_map"%string -> k <> "mc_pwr_out_perc"%string -> pget d1 k = pget dc k) by (intros k A B; rewrite D1, !pget_other by congruence; reflexivity).
    split. { rewrite Z by discriminate. unfold dc, da. rewrite !pget_other by discriminate. apply pget_same. }
    split. { rewrite Z by discriminate. exact X1. }
    split. { eauto. }
    split. { rewrite Z by discriminate. rewrite X2. unfold p, da. rewrite !pget_other by discriminate. reflexivity. }
    split. { rewrite D1, pget_other by discriminate. rewrite pget_same. unfold p2, dc, da. rewrite !pget_other by discriminate. reflexivity. }
    split. { rewrite D1, pget_same. unfold dc, da. rewrite !pget_other by discriminate. reflexivity. }
    intros k K. unfold map_keys in K. cbn [In] in K. rewrite Z by (intros ->; tauto). unfold dc, da. rewrite !pget_other by (intros <-; tauto). reflexivity.
  Qed.
  (** The optional entries. *)
  Lemma clean_override_get d k k' : k <> k' -> pget (clean_override T d k) k' = pget d k'.
  Proof. intros H. unfold clean_override. destruct (pget d k); [apply pget_other; congruence|reflexivity]. Qed.
  Lemma clean_override_spec d k : pget (clean_override T d k) k =
    match pget d k with
    | None => None
    | Some v => Some (match to_F T v with Ok x => if (nltb n0 x && nltb x n1)%bool then VNum x else VNone | Err _ => VNone end)
    end.
  Proof. unfold clean_override. destruct (pget d k) eqn:E; [apply pget_same|exact E]. Qed.
  Lemma fill_rest_spec (d d1 : pydict F) : fill_rest T d = Ok d1 ->
    (forall k, ~ In k rest_keys -> pget d1 k = pget d k) /\
    (forall b, pget d "stop_start" = Some (VBool b) -> pget d1 "stop_start" = Some (VBool b)) /\ (pget d "stop_start" = None -> pget d1 "stop_start" = None) /\
    (exists v, pget d1 "veh_override_kg" = Some v /\ match pget d "veh_override_kg" with
       | None | Some VNone => v = VNone | Some w => exists b, np_isnan w = Ok b /\ v = if b then VNone else w end) /\
    (exists y, pget d1 "veh_year" = Some (VInt y) /\ match pget d "veh_year" with
       | Some w => (np_isnan w = Ok false /\ to_Z T w = Ok y) \/ np_isnan w = Ok true
       | None => exists s, pget d "scenario_name" = Some s /\ y = match leading_year (as_text T s) with Some y => y | None => 0%Z end end) /\
    (exists s t, pget d "veh_pt_type" = Some (VStr s) /\ pt_of s = Some t) /\
    pget d1 "fc_peak_eff_override" = pget (clean_override T d "fc_peak_eff_override") "fc_peak_eff_override" /\
    pget d1 "mc_peak_eff_override" = pget (clean_override T d "mc_peak_eff_override") "mc_peak_eff_override".
  Proof.
    intros H. unfold fill_rest in H.
    match type of H with bindR ?r _ = _ => destruct r as [da|] eqn:EA; [|discriminate] end. cbn [bindR] in H.
    assert (A : (forall k, k <> "stop_start"%string -> pget da k = pget d k) /\ (forall b, pget d "stop_start" = Some (VBool b) -> pget da "stop_start" = Some (VBool b)) /\ (pget d "stop_start" = None -> pget da "stop_start" = None)).
    { destruct (pget d "stop_start") as [v|] eqn:E.
      - destruct (np_isnan v) as [b|] eqn:EN; [|discriminate]. cbn [bindR] in EA. assert (da = if b then pset d "stop_start" (VBool false) else d) by congruence. subst da. split; [|split].
        + intros k K. destruct b; [apply pget_other; congruence|reflexivity].
        + intros b' Q. injection Q as ->. cbn in EN. injection EN as <-. exact E.
        + discriminate.
      - injection EA as <-. repeat split; auto; congruence. }
    destruct A as (A1 & A2 & A3). clear EA.
    match type of H with bindR ?r _ = _ => destruct r as [db|] eqn:EB; [|discriminate] end. cbn [bindR] in H.
    assert (B : (forall k, k <> "veh_override_kg"%string -> pget db k = pget da k) /\ (exists v, pget db "veh_override_kg" = Some v /\ match pget d "veh_override_kg" with
       | None | Some VNone => v = VNone | Some w => exists b, np_isnan w = Ok b /\ v = if b then VNone else w end)).
    { rewrite A1 in EB by discriminate. pose proof (A1 "veh_override_kg"%string ltac:(discriminate)) as AO. destruct (pget d "veh_override_kg") as [v|].
      - destruct v; try discriminate EB.
        + injection EB as <-. split; [intros k K; apply pget_other; congruence|]. exists VNone. split; [apply pget_same|reflexivity].
        + cbn [np_isnan bindR] in EB. injection EB as <-. split; [reflexivity|]. eexists. split; [exact AO|]. exists false. auto.
        + cbn [np_isnan bindR] in EB. injection EB as <-. split; [reflexivity|]. eexists. split; [exact AO|]. exists false. auto.
        + cbn [np_isnan bindR] in EB. injection EB as <-. split; [intros k K; destruct (is_nan x); [apply pget_other; congruence|reflexivity]|].
          destruct (is_nan x) eqn:NX; eexists; (split; [first [apply pget_same|exact AO]|]); [exists true|exists false]; cbn [np_isnan]; rewrite NX; auto.
      - injection EB as <-. split; [intros k K; apply pget_other; congruence|]. exists VNone. split; [apply pget_same|reflexivity]. }
    destruct B as (B1 & B2). clear EB.
    match type of H with bindR ?r _ = _ => destruct r as [miss|] eqn:EM; [|discriminate] end. cbn [bindR] in H.
    match type of H with bindR ?r _ = _ => destruct r as [dc|] eqn:EC; [|discriminate] end. cbn [bindR] in H.
    unfold pitem in H. destruct (pget dc "veh_year") as [yv|] eqn:EY; [|discriminate]. cbn [bindR] in H.
    destruct (to_Z T yv) as [y|] eqn:EZ; [|discriminate]. cbn [bindR] in H.
    destruct (pget (pset dc "veh_year" (VInt y)) "veh_pt_type") as [p|] eqn:EP; [|discriminate]. cbn [bindR] in H.
    destruct (assertR _) as [[]|] eqn:AS; [|discriminate]. cbn [bindR] in H. match type of H with Ok ?x = Ok _ => assert (D1 : d1 = x) by congruence end. clear H.
    rewrite !B1 in EM by discriminate. rewrite !A1 in EM by discriminate.
    assert (C : forall k, k <> "veh_year"%string -> pget dc k = pget db k).
    { intros k K. destruct miss; [|congruence]. destruct (pget db "scenario_name") as [s|] eqn:ES; unfold pitem in EC; rewrite ES in EC; [|discriminate]. cbn [bindR] in EC. injection EC as <-. apply pget_other. congruence. }
    assert (Y : match pget d "veh_year" with
       | Some w => (np_isnan w = Ok false /\ to_Z T w = Ok y) \/ np_isnan w = Ok true
       | None => exists s, pget d "scenario_name" = Some s /\ y = match leading_year (as_text T s) with Some y => y | None => 0%Z end end).
    { destruct (pget d "veh_year") as [w|] eqn:EW.
      - destruct miss; [now right|]. left. split; [exact EM|]. assert (dc = db) by congruence. subst dc. rewrite B1, A1, EW in EY by discriminate. congruence.
      - injection EM as <-. unfold pitem in EC. rewrite B1, A1 in EC by discriminate. destruct (pget d "scenario_name") as [s|]; [|discriminate]. cbn [bindR] in EC. exists s. split; [reflexivity|].
        injection EC as <-. rewrite pget_same in EY. injection EY as <-. cbn in EZ. congruence. }
    set (dd := pset dc "veh_year" (VInt y)) in *.
    assert (D : forall k, k <> "veh_year"%string -> pget dd k = pget dc k) by (intros k K; apply pget_other; congruence).
    assert (Z : forall k, k <> "fc_peak_eff_override"%string -> k <> "mc_peak_eff_override"%string -> pget d1 k = pget dd k).
    { intros k K1 K2. rewrite D1, !clean_override_get by congruence. reflexivity. }
    split. { intros k K. unfold rest_keys in K. cbn [In] in K. rewrite Z, D, C, B1, A1 by (intros ->; tauto). reflexivity. }
    split. { intros b Q. rewrite Z, D, C, B1 by discriminate. now apply A2. }
    split. { intros Q. rewrite Z, D, C, B1 by discriminate. now apply A3. }
    split. { destruct B2 as (v & B2 & B3). exists v. split; [|exact B3]. now rewrite Z, D, C by discriminate. }
    split. { exists y. split; [|exact Y]. rewrite Z by discriminate. apply pget_same. }
    split. { rewrite D, C, B1, A1 in EP by discriminate. destruct p; try discriminate. exists s. destruct (pt_of s) as [t|]; [|discriminate]. now exists t. }
    split.
    - rewrite D1, clean_override_get, !clean_override_spec by discriminate. rewrite D, C, B1, A1 by discriminate. reflexivity.
    - rewrite D1, !clean_override_spec, clean_override_get by discriminate. rewrite D, C, B1, A1 by discriminate. reflexivity.
  Qed.
End FromDict.
