(** Property C105: which vehicle attributes a label reads (python/fastsim/simdrivelabel.py). *)
From Coq Require Import Lia.
From Verif Require Import Num Numpy ListFacts CycleModel CycleSpec VehModel SimModel SimState WalkModel PostModel UtilModel LabelModel
  FrameProofs WalkProofs SimSpec SimDemo LabelSpec LabelProps SimProps PlainSpec PlainSpec2 PlainProofs4 PlainProofs6.
Local Open Scope R_scope.

(** Vehicles that a run cannot tell apart have the same label; a plug-in hybrid's label also reads the charger
    efficiency, the tank and the original motor map. *)
Theorem C105_label : forall (v w : vehicle R) (udds hwfet : cyc R) (year : Z), wf udds -> wf hwfet -> drives_alike v w ->
  (veh_pt_type v = PHEV -> chg_eff w = chg_eff v /\ fs_kwh w = fs_kwh v /\ mc_eff_array w = mc_eff_array v) ->
  same_label (get_label_fe udds hwfet v year) (get_label_fe udds hwfet w year).
Proof. intros v w c h y W W' A P. exact (al_label v w c h y A W W' P). Qed.
(** In particular the charger efficiency of an electric vehicle is ignored (0.86 is used, see C49_electric), and the
    tank of every vehicle without a plug. *)
Theorem C105_charger : forall (v : vehicle R) (udds hwfet : cyc R) (year : Z) (eff : R), wf udds -> wf hwfet ->
  veh_pt_type v <> PHEV -> same_label (get_label_fe udds hwfet v year) (get_label_fe udds hwfet (with_charger v eff) year).
Proof.
  intros v c h y e W W' P. apply C105_label; auto; [constructor; reflexivity|]. intros Q. contradiction.
Qed.
Theorem C105_tank : forall (v : vehicle R) (udds hwfet : cyc R) (year : Z) (kwh : R), wf udds -> wf hwfet ->
  veh_pt_type v <> PHEV -> same_label (get_label_fe udds hwfet v year) (get_label_fe udds hwfet (with_tank v kwh) year).
Proof.
  intros v c h y e W W' P. apply C105_label; auto; [apply tank_alike|]. intros Q. contradiction.
Qed.
(** 'Energy from the wall is energy from the battery over the charger efficiency of the vehicle' is false for electric vehicles. *)
Theorem C105_wall_refuted : exists (v : vehicle R) (out : ldict R) (wall battery : R), veh_pt_type v = BEV /\ chg_eff v = 1 / 2 /\
  get_label_fe demo_trip demo_trip v 2016 = Ok out /\ has out "adjUddsKwhPerMile" wall /\ has out "adjUddsEssKwhPerMile" battery /\
  battery = 0.86 * wall.
Proof.
  destruct C49_case as (o & E). pose proof (C105_charger demo_bev demo_trip demo_trip 2016 (1 / 2) demo_trip_wf demo_trip_wf) as S.
  rewrite E in S. unfold same_label in S. specialize (S ltac:(discriminate)).
  destruct (get_label_fe demo_trip demo_trip (with_charger demo_bev (1 / 2)) 2016) as [out|] eqn:L; [|contradiction].
  destruct (C49_electric _ _ _ _ _ L eq_refl) as (u & h & bu & bh & eu & eh & ku & kh & kc & ec & rg & _ & _ & _ & _ & _ & _ & H1 & _ & _ & _ & H2 & H3 & _).
  exists (with_charger demo_bev (1 / 2)), out, ku, eu. repeat split; auto.
Qed.
Example C105_case : exists a b : ldict R, get_label_fe demo_trip demo_trip demo_bev 2016 = Ok a /\
  get_label_fe demo_trip demo_trip (with_charger demo_bev (1 / 2)) 2016 = Ok b /\ dget a "netRangeMiles" = dget b "netRangeMiles".
Proof.
  destruct C49_case as (o & E). pose proof (C105_charger demo_bev demo_trip demo_trip 2016 (1 / 2) demo_trip_wf demo_trip_wf ltac:(discriminate)) as S.
  rewrite E in S. unfold same_label in S. destruct (get_label_fe demo_trip demo_trip (with_charger demo_bev (1 / 2)) 2016) as [out|] eqn:L; [|contradiction].
  exists o, out. repeat split; auto. apply S. discriminate.
Qed.
