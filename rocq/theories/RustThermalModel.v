(** Model of the thermal calculations of the compiled package: rust/fastsim-core/src/thermal.rs and vehicle_thermal.rs.
    What a step takes from the simulation itself (powers and speeds of the step before, the time step) is its input.
    Not modelled: the battery (it has parameters but no calculation), the solar load of the cabin (never assigned) and the
    histories.  PI is the decimal that reads as the f64 constant.  A failing assert! is [AssertionError]. *)
From Verif Require Import Num Numpy CycleModel VehModel SimModel SimState UtilModel RustVehModel RustUtilModel.

(** ** vehicle_thermal.rs *)
(** HVACModel, vehicle_thermal.rs:99-131. *)
Record hvac (F : Type) := mkhvac {
  hv_set : F; hv_p_gain : F; hv_i_gain : F; hv_d_gain : F; hv_max : F; hv_band : F;
  hv_p : F; hv_i : F; hv_d : F; hv_frac : F; hv_waste : bool; hv_aux_max : F; hv_cop : F }.
Arguments mkhvac {F}. Arguments hv_set {F}. Arguments hv_p_gain {F}. Arguments hv_i_gain {F}. Arguments hv_d_gain {F}. Arguments hv_max {F}.
Arguments hv_band {F}. Arguments hv_p {F}. Arguments hv_i {F}. Arguments hv_d {F}. Arguments hv_frac {F}. Arguments hv_waste {F}.
Arguments hv_aux_max {F}. Arguments hv_cop {F}.
(** FcTempEffModel and FcTempEffComponent, vehicle_thermal.rs:26-78; offset, slope or lag, minimum. *)
Inductive eff_model (F : Type) := Linear (offset slope minimum : F) | Exponential (offset lag minimum : F).
Arguments Linear {F}. Arguments Exponential {F}.
(** vehicle_thermal.rs:26-36 *)
Inductive eff_comp := Catalyst | CatAndFC | FuelConverter.
(** The parameters of VehicleThermal that are read, vehicle_thermal.rs:359-438; fc_model is None if External. *)
Record vthermal (F : Type) := mkvthermal {
  vt_fc_c : F; vt_fc_l : F; vt_fc_htc_stop : F; vt_fc_comb : F; vt_tstat_sto : F; vt_tstat_delta : F; vt_rad_eps : F;
  vt_fc_model : option (eff_model F * eff_comp);
  vt_cab_c : F; vt_cab_len : F; vt_cab_width : F; vt_cab_r : F; vt_cab_htc_stop : F;
  vt_exh_internal : bool; vt_exh_ha_amb : F; vt_exh_ha_int : F; vt_exh_c : F;
  vt_cat_internal : bool; vt_cat_l : F; vt_cat_c : F; vt_cat_htc_stop : F; vt_lightoff : F; vt_cat_eta : F }.
Arguments mkvthermal {F}. Arguments vt_fc_c {F}. Arguments vt_fc_l {F}. Arguments vt_fc_htc_stop {F}. Arguments vt_fc_comb {F}.
Arguments vt_tstat_sto {F}. Arguments vt_tstat_delta {F}. Arguments vt_rad_eps {F}. Arguments vt_fc_model {F}. Arguments vt_cab_c {F}.
Arguments vt_cab_len {F}. Arguments vt_cab_width {F}. Arguments vt_cab_r {F}. Arguments vt_cab_htc_stop {F}. Arguments vt_exh_internal {F}.
Arguments vt_exh_ha_amb {F}. Arguments vt_exh_ha_int {F}. Arguments vt_exh_c {F}. Arguments vt_cat_internal {F}. Arguments vt_cat_l {F}.
Arguments vt_cat_c {F}. Arguments vt_cat_htc_stop {F}. Arguments vt_lightoff {F}. Arguments vt_cat_eta {F}.

(** ** The state, thermal.rs:1018-1096, by component *)
Record fc_state (F : Type) := mkfc { fc_te : F; fc_coeff : F; fc_share : F; fc_qdot : F; fc_to_amb : F; fc_to_htr : F; fc_htc : F; fc_lambda : F; fc_adiabatic : F }.
Arguments mkfc {F}. Arguments fc_te {F}. Arguments fc_coeff {F}. Arguments fc_share {F}. Arguments fc_qdot {F}. Arguments fc_to_amb {F}.
Arguments fc_to_htr {F}. Arguments fc_htc {F}. Arguments fc_lambda {F}. Arguments fc_adiabatic {F}.
(** thermal.rs:1039-1052 *)
Record cab_state (F : Type) := mkcab { cab_te : F; cab_prev : F; cab_to_amb : F; cab_from_hvac : F; cab_aux : F }.
Arguments mkcab {F}. Arguments cab_te {F}. Arguments cab_prev {F}. Arguments cab_to_amb {F}. Arguments cab_from_hvac {F}. Arguments cab_aux {F}.
(** thermal.rs:1054-1070 *)
Record exh_state (F : Type) := mkexh { exh_mdot : F; exh_hdot : F; exh_te_in : F; exh_to_amb : F; exh_te : F; exh_from : F; exh_net : F }.
Arguments mkexh {F}. Arguments exh_mdot {F}. Arguments exh_hdot {F}. Arguments exh_te_in {F}. Arguments exh_to_amb {F}. Arguments exh_te {F}.
Arguments exh_from {F}. Arguments exh_net {F}.
(** thermal.rs:1072-1092 *)
Record cat_state (F : Type) := mkcat { cat_qdot : F; cat_htc : F; cat_to_amb : F; cat_te : F; cat_te_in : F; cat_re : F; cat_from : F; cat_net : F }.
Arguments mkcat {F}. Arguments cat_qdot {F}. Arguments cat_htc {F}. Arguments cat_to_amb {F}. Arguments cat_te {F}. Arguments cat_te_in {F}.
Arguments cat_re {F}. Arguments cat_from {F}. Arguments cat_net {F}.
(** The state with the controller of the cabin, which the code keeps in the parameters (None: External). *)
Record thermal (F : Type) := mkth { th_fc : fc_state F; th_cab : cab_state F; th_hvac : option (hvac F); th_exh : exh_state F; th_cat : cat_state F; th_amb : F }.
Arguments mkth {F}. Arguments th_fc {F}. Arguments th_cab {F}. Arguments th_hvac {F}. Arguments th_exh {F}. Arguments th_cat {F}. Arguments th_amb {F}.
(** fc_kw_in_ach, fc_kw_out_ach, fs_kw_out_ach, mps_ach and mph_ach at i-1, the time step, the entry of the ambient temperatures
    if given, and whether the vehicle is a BEV. *)
Record drive (F : Type) := mkdrive { d_kw_in : F; d_kw_out : F; d_fs_out : F; d_mps : F; d_mph : F; d_dt : F; d_amb : option F; d_bev : bool }.
Arguments mkdrive {F}. Arguments d_kw_in {F}. Arguments d_kw_out {F}. Arguments d_fs_out {F}. Arguments d_mps {F}. Arguments d_mph {F}.
Arguments d_dt {F}. Arguments d_amb {F}. Arguments d_bev {F}.

Section RustThermal.
  Context {F : Type} {N : Num F}.
  Local Open Scope num_scope.

  (** std::f64::consts::PI *)
  Definition f64_pi : F := lit 3141592653589793 1000000000000000.
  (** get_sphere_conv_params, vehicle_thermal.rs:177-190. *)
  Definition sphere_params (re : F) : F * F :=
    if re <? nofZ 4 then (lit 989 1000, lit 330 1000)
    else if re <? nofZ 40 then (lit 911 1000, lit 385 1000)
    else if re <? nofZ 4000 then (lit 683 1000, lit 466 1000)
    else if re <? nofZ 40000 then (lit 193 1000, lit 618 1000)
    else (lit 27 1000, lit 805 1000).
  (** vehicle_thermal.rs:477-480 *)
  Definition tstat_fo (p : vthermal F) : F := vt_tstat_sto p + vt_tstat_delta p.
  (** fc_area_ext and cat_area_ext, vehicle_thermal.rs:482-491. *)
  Definition area_ext (l : F) : F := f64_pi * npow l (n2 / nofZ 4).
  (** The heat transfer coefficient of a sphere, thermal.rs:453-459, 737-742. *)
  Definition sphere_htc (re film l : F) : Res F :=
    let c := sphere_params re in
    do pr <- get_pr film; do k <- get_k film;
    Ok (fst c * npow re (snd c) * npow pr (n1 / nofZ 3) * k / l).

  (** set_fc_thermal_calcs, thermal.rs:405-477. *)
  Definition set_fc_thermal (pp : @pprops F) (p : vthermal F) (d : drive F) (amb : F) (s : fc_state F) : Res (fc_state F) :=
    let mix := n1 + fc_lambda s * pp_fuel_afr pp in
    do h_amb <- get_h amb;
    do adiabatic <- get_te_from_h ((mix * h_amb + r_get_fuel_lhv pp * nofZ 1000 * nmin (fc_lambda s) n1) / mix);
    let share := nmax (nmin (vt_fc_comb p * (adiabatic - fc_te s)) n1) n0 in
    let qdot := share * (d_kw_in d - d_kw_out d) in
    let film := lit 1 2 * (fc_te s + amb) in
    do mu <- get_mu film;
    let re := r_get_rho film None * d_mps d * vt_fc_l p / mu in
    do passive <- (if d_mps d <? n1 then Ok (vt_fc_htc_stop p) else sphere_htc re film (vt_fc_l p));
    do htc <- r_interpolate (fc_te s) [vt_tstat_sto p; tstat_fo p] [passive; passive * vt_rad_eps p] false;
    let to_amb := htc * lit 1 1000 * area_ext (vt_fc_l p) * (fc_te s - amb) in
    Ok (mkfc (fc_te s) (fc_coeff s) share qdot to_amb (fc_to_htr s) htc (fc_lambda s) adiabatic).

  (** The conductance of the shell of the cabin, thermal.rs:482-514, in kW per degree. *)
  Definition cab_conductance (p : vthermal F) (d : drive F) (film : F) : Res F :=
    do mu <- get_mu film; do pr <- get_pr film; do k <- get_k film;
    let re_l := r_get_rho film None * d_mps d * vt_cab_len p / mu in
    let nu := if re_l <? nofZ 500000 then lit 664 1000 * npow re_l (lit 1 2) * npow pr (n1 / nofZ 3)
              else (lit 37 1000 * npow re_l (lit 8 10) - nofZ 871) * pr in
    Ok (if d_mph d >? n2
        then lit 1 1000 * (vt_cab_len p * vt_cab_width p) / (n1 / (nu * k / vt_cab_len p) + vt_cab_r p)
        else lit 1 1000 * (vt_cab_len p * vt_cab_width p) / (n1 / vt_cab_htc_stop p + vt_cab_r p)).

  (** set_cab_thermal_calcs, thermal.rs:479-621: cabin, controller and heat taken from the engine. *)
  Definition set_cab_thermal (p : vthermal F) (d : drive F) (amb fc_te to_htr : F) (c : cab_state F) (h : hvac F) : Res (cab_state F * hvac F * F) :=
    do g <- cab_conductance p d (lit 1 2 * (cab_te c + amb));
    let to_amb := g * (cab_te c - amb) in
    let dset := cab_te c - hv_set h in
    let damb := cab_te c - amb in
    let finish from aux h' to_htr' :=
      Ok (mkcab (cab_te c + (from - to_amb) / vt_cab_c p * d_dt d) (cab_te c) to_amb from aux, h', to_htr') in
    let ctl p i d cop := mkhvac (hv_set h) (hv_p_gain h) (hv_i_gain h) (hv_d_gain h) (hv_max h) (hv_band h) p i d (hv_frac h) (hv_waste h) (hv_aux_max h) cop in
    if ((cab_te c <=? hv_set h + hv_band h) && (cab_te c >=? hv_set h - hv_band h))%bool
    then finish n0 (cab_aux c) (ctl (hv_p h) n0 (hv_d h) (hv_cop h)) to_htr
    else
      let pc := hv_p_gain h * dset in
      let ic := hv_i h + hv_i_gain h * dset * d_dt d in
      let dc := hv_d_gain h * ((cab_te c - cab_prev c) / d_dt d) in
      let ideal := (cab_te c + lit 27315 100) / (if nabs damb <? nofZ 5 then nofZ 5 else nabs damb) in
      let cop := ideal * hv_frac h in
      do _ <- assertR (cop >? n0);
      if cab_te c >? hv_set h + hv_band h then
        let ic := nmin (if ic <? n0 then n0 else ic) (hv_max h) in
        let want := nmax (- pc - ic - dc) (- hv_max h) in
        let aux := nmax (nmin (- want / cop) (hv_aux_max h)) n0 in
        finish (- aux * cop) aux (ctl pc ic dc cop) to_htr
      else
        let ic := nmax (if ic >? n0 then n0 else ic) (- hv_max h) in
        let want := nmin (- pc - ic - dc) (hv_max h) in
        if hv_waste h then
          let from := nmax (nmin want ((fc_te - cab_te c) * lit 1 10 * vt_cab_c p / d_dt d)) n0 in
          do _ <- assertR (negb (d_bev d));
          finish from (cab_aux c) (ctl pc ic dc cop) from
        else
          let aux := nmax (nmin (want / cop) (hv_aux_max h)) n0 in
          finish (aux * cop) aux (ctl pc ic dc cop) to_htr.

  (** set_exhport_thermal_calcs, thermal.rs:623-707. *)
  Definition set_exh_thermal (pp : @pprops F) (p : vthermal F) (d : drive F) (fc : fc_state F) (s : exh_state F) : Res (exh_state F) :=
    let mdot := d_fs_out d / r_get_fuel_lhv pp * (n1 + pp_fuel_afr pp * fc_lambda fc) in
    let hdot := (n1 - fc_share fc) * (d_kw_in d - d_kw_out d) in
    do te_in <- (if mdot >? lit 5 10000 then do t <- get_te_from_h (hdot * nofZ 1000 / mdot); Ok (nmin t (fc_adiabatic fc)) else Ok (exh_te_in s));
    let out := exh_te s - fc_te fc in
    let nominal := vt_exh_ha_amb p * out in
    let most := vt_exh_c p * nofZ 1000 * out / d_dt d in
    let to_amb := if out >? n0 then nmin nominal most else nmax nominal most in
    do h_in <- get_h te_in; do h_te <- get_h (exh_te s);
    let gap := te_in - exh_te s in
    let a := vt_exh_ha_int p * gap in
    let b := mdot * (h_in - h_te) in
    let e := vt_exh_c p * nofZ 1000 * gap / d_dt d in
    let from := if gap >? n0 then nmin (nmin a b) e else nmax (nmax a b) e in
    let net := from - to_amb in
    Ok (mkexh mdot hdot te_in to_amb (exh_te s + net / (vt_exh_c p * nofZ 1000) * d_dt d) from net).

  (** set_cat_thermal_calcs, thermal.rs:717-822: the catalyst, and the heat transfer coefficient left in the state of the engine. *)
  Definition set_cat_thermal (p : vthermal F) (d : drive F) (amb adiabatic fc_htc : F) (e : exh_state F) (s : cat_state F) : Res (cat_state F * F) :=
    let film := lit 1 2 * (cat_te s + amb) in
    do mu <- get_mu film;
    let re := r_get_rho film None * d_mps d * vt_cat_l p / mu in
    do x <- (if d_mps d <? n1 then Ok (vt_cat_htc_stop p, fc_htc) else do q <- sphere_htc re film (vt_cat_l p); Ok (cat_htc s, q));
    let htc := fst x in
    let out := cat_te s - amb in
    let nominal := htc * area_ext (vt_cat_l p) * out in
    let most := vt_cat_c p * nofZ 1000 * out / d_dt d in
    let to_amb := if out >? n0 then nmin nominal most else nmax nominal most in
    do te_in <- (if exh_mdot e >? lit 5 10000
                 then do t <- get_te_from_h ((exh_hdot e * nofZ 1000 - exh_from e) / exh_mdot e); Ok (nmin t adiabatic) else Ok (cat_te_in s));
    do h_in <- get_h te_in; do h_te <- get_h (cat_te s);
    let gap := te_in - cat_te s in
    let flow := exh_mdot e * (h_in - h_te) in
    let from := if gap >? n0 then nmin flow (vt_cab_c p * nofZ 1000 * gap / d_dt d) else nmax flow (vt_cat_c p * nofZ 1000 * gap / d_dt d) in
    let net := n0 + from - to_amb in
    Ok (mkcat n0 htc to_amb (cat_te s + net * lit 1 1000 / vt_cat_c p * d_dt d) te_in re from net, snd x).

  (** set_thermal_calcs, thermal.rs:369-403. *)
  Definition set_thermal (pp : @pprops F) (p : vthermal F) (d : drive F) (s : thermal F) : Res (thermal F) :=
    let amb := match d_amb d with Some a => a | None => th_amb s end in
    do fc <- (match vt_fc_model p with Some _ => set_fc_thermal pp p d amb (th_fc s) | None => Ok (th_fc s) end);
    do ch <- (match th_hvac s with
              | Some h => do x <- set_cab_thermal p d amb (fc_te fc) (fc_to_htr fc) (th_cab s) h; Ok (fst (fst x), Some (snd (fst x)), snd x)
              | None => Ok (th_cab s, None, fc_to_htr fc)
              end);
    let fc := mkfc (fc_te fc) (fc_coeff fc) (fc_share fc) (fc_qdot fc) (fc_to_amb fc) (snd ch) (fc_htc fc) (fc_lambda fc) (fc_adiabatic fc) in
    do e <- (if vt_exh_internal p then set_exh_thermal pp p d fc (th_exh s) else Ok (th_exh s));
    do k <- (if vt_cat_internal p then set_cat_thermal p d amb (fc_adiabatic fc) (fc_htc fc) e (th_cat s) else Ok (th_cat s, fc_htc fc));
    let te := match vt_fc_model p with
              | Some _ => fc_te fc + (fc_qdot fc - fc_to_amb fc - fc_to_htr fc) / vt_fc_c p * d_dt d
              | None => fc_te fc end in
    Ok (mkth (mkfc te (fc_coeff fc) (fc_share fc) (fc_qdot fc) (fc_to_amb fc) (fc_to_htr fc) (snd k) (fc_lambda fc) (fc_adiabatic fc))
             (fst (fst ch)) (snd (fst ch)) e (fst k) amb).

  (** thermal_soak_walk, thermal.rs:709-715: the thermal calculations of one step after the other. *)
  Fixpoint thermal_walk (pp : @pprops F) (p : vthermal F) (ds : list (drive F)) (s : thermal F) : Res (thermal F) :=
    match ds with
    | [] => Ok s
    | d :: r => do s' <- set_thermal pp p d s; thermal_walk pp p r s'
    end.

  (** The temperature coefficient of set_fc_power, thermal.rs:917-958. *)
  Definition temp_coeff (p : vthermal F) (fc_te cat_te old : F) : F :=
    match vt_fc_model p with
    | None => old
    | Some (Linear offset slope minimum, _) => nmax minimum (nmin n1 (offset + slope * fc_te))
    | Some (Exponential offset lag minimum, comp) =>
        let grow te := nmax (n1 - nexp (- n1 / lag * (te - offset))) minimum in
        match comp with
        | FuelConverter => grow fc_te
        | CatAndFC => if cat_te <? vt_lightoff p then grow fc_te * vt_cat_eta p else old
        | Catalyst => grow cat_te
        end
    end.
  (** The coefficient in the state and fc_kw_in_ach[i] for an output and the efficiency read from the map, thermal.rs:913-979;
      the two branches at 960-979 divide by the same two numbers. *)
  Definition thermal_fuel (p : vthermal F) (s : thermal F) (kw_out eff : F) : F * F :=
    if kw_out =? n0 then (fc_coeff (th_fc s), n0)
    else let k := temp_coeff p (fc_te (th_fc s)) (cat_te (th_cat s)) (fc_coeff (th_fc s)) in (k, kw_out / eff / k).
  (** aux_in_kw[i] in set_misc_calcs, thermal.rs:824-837, from its entries from i on. *)
  Definition thermal_aux (no_elec : bool) (aux_kw alt_eff : F) (aux_in : list F) (s : thermal F) : Res F :=
    match aux_in with
    | [] => Err IndexError
    | a :: _ => Ok ((if forallb (fun x => x =? n0) aux_in then (if no_elec then aux_kw / alt_eff else aux_kw) else a) + cab_aux (th_cab s))
    end.

  (** ThermalState::new and default, thermal.rs:1099-1168. *)
  Definition new_thermal (amb fc cab exh cat : option F) (h : option (hvac F)) : thermal F :=
    let a := match amb with Some a => a | None => nofZ 22 end in
    let or o := match o with Some x => x | None => a end in
    mkth (mkfc (or fc) n0 n0 n0 n0 n0 n0 n1 (nofZ 22)) (mkcab (or cab) (or cab) n0 n0 n0) h
         (mkexh n0 n0 (nofZ 22) n0 (or exh) n0 n0) (mkcat n0 n0 n0 (or cat) (nofZ 22) n0 n0 n0) a.
  (** HVACModel::default, vehicle_thermal.rs:135-154. *)
  Definition default_hvac : hvac F :=
    mkhvac (nofZ 22) (lit 1 10) (lit 1 100) (lit 1 10) (nofZ 5) n1 n0 n0 n0 (lit 75 1000) true (nofZ 5) n0.
  (** VehicleThermal::default, vehicle_thermal.rs:442-474, with the models of exhaust port and catalyst as given. *)
  Definition default_vthermal (exh cat : bool) : vthermal F :=
    mkvthermal (nofZ 150) n1 (nofZ 50) (lit 1 10000) (nofZ 85) (nofZ 5) (nofZ 5) (Some (Exponential n0 (nofZ 25) (lit 2 10), FuelConverter))
      (nofZ 125) n2 n2 (lit 2 100) (nofZ 10) exh (nofZ 5) (nofZ 100) (nofZ 10) cat (lit 50 100) (nofZ 15) (nofZ 10) (nofZ 400) (lit 3 10).
End RustThermal.
