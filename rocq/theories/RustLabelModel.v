(** Model of rust/fastsim-core/src/simdrivelabel.rs ("label.rs"): get_label_fe (173-387), get_label_fe_phev (402-697),
    get_net_accel (147-163) and make_accel_trace (124-138), and of sim_drive_accel (impl.rs:462-478).  Definitions only.

    The two standard cycles are parameters; the long parameters are those of the same longparams.json that Python reads
    (the two copies are identical files), so uf_knots and adj_params of LabelModel.v are used.  The two cycles sit in a
    HashMap and are visited in no particular order; neither visit reads what the other writes, so the order is fixed
    here.  Printing is not modelled.  A panic is an Err here. *)
From Verif Require Import Num Numpy CycleModel VehModel SimModel SimState WalkModel PostModel UtilModel LabelModel
  RustModel RustWalkModel RustPostModel RustVehModel.

(** LabelFe, label.rs:23-50, without veh, adj_params, phev_calcs and res_found.  adj_cs_comb_mpgge, adj_cd_comb_mpgge and
    net_phev_cd_miles are None but for plug-in hybrids. *)
Record rlabel (F : Type) := mkrlabel {
  rl_lab_udds_mpgge : F; rl_lab_hwy_mpgge : F; rl_lab_comb_mpgge : F;
  rl_lab_udds_kwh_per_mi : F; rl_lab_hwy_kwh_per_mi : F; rl_lab_comb_kwh_per_mi : F;
  rl_adj_udds_mpgge : F; rl_adj_hwy_mpgge : F; rl_adj_comb_mpgge : F;
  rl_adj_udds_kwh_per_mi : F; rl_adj_hwy_kwh_per_mi : F; rl_adj_comb_kwh_per_mi : F;
  rl_adj_udds_ess_kwh_per_mi : F; rl_adj_hwy_ess_kwh_per_mi : F; rl_adj_comb_ess_kwh_per_mi : F;
  rl_net_range_miles : F; rl_uf : F;
  rl_adj_cs_comb_mpgge : option F; rl_adj_cd_comb_mpgge : option F; rl_net_phev_cd_miles : option F;
  rl_net_accel : F; rl_trace_miss_speed_mph : F }.
Arguments mkrlabel {F}. Arguments rl_lab_udds_mpgge {F}. Arguments rl_lab_hwy_mpgge {F}. Arguments rl_lab_comb_mpgge {F}.
Arguments rl_lab_udds_kwh_per_mi {F}. Arguments rl_lab_hwy_kwh_per_mi {F}. Arguments rl_lab_comb_kwh_per_mi {F}.
Arguments rl_adj_udds_mpgge {F}. Arguments rl_adj_hwy_mpgge {F}. Arguments rl_adj_comb_mpgge {F}.
Arguments rl_adj_udds_kwh_per_mi {F}. Arguments rl_adj_hwy_kwh_per_mi {F}. Arguments rl_adj_comb_kwh_per_mi {F}.
Arguments rl_adj_udds_ess_kwh_per_mi {F}. Arguments rl_adj_hwy_ess_kwh_per_mi {F}. Arguments rl_adj_comb_ess_kwh_per_mi {F}.
Arguments rl_net_range_miles {F}. Arguments rl_uf {F}. Arguments rl_adj_cs_comb_mpgge {F}. Arguments rl_adj_cd_comb_mpgge {F}.
Arguments rl_net_phev_cd_miles {F}. Arguments rl_net_accel {F}. Arguments rl_trace_miss_speed_mph {F}.

Section RustLabel.
  Context {F : Type} {N : Num F}.
  Local Open Scope num_scope.

  (** uf_array[first_grtr(&rechg_freq_miles, x).unwrap() - 1], label.rs:352-357, 468-473, 520-521, 648-654, 676-677. *)
  Definition r_uf (x : F) : Res F :=
    do k <- r_cell (map fst uf_knots) x; r_get (map snd uf_knots) k.
  (** diff, utils.rs:31-40: a zero and then the differences; the slice ..-1 of an empty array panics. *)
  Definition r_diff (l : list F) : Res (list F) :=
    match l with [] => Err IndexError | _ => Ok (n0 :: diff l) end.
  (** a * b of ndarrays, which are stretched like numpy's and panic otherwise. label.rs:540-546, 667-668 *)
  Definition r_mul (a b : list F) : Res (list F) :=
    if Nat.eqb (length a) (length b) then Ok (zipw nmul a b)
    else match a, b with
         | _, [y] => Ok (map (fun x => x * y) a)
         | [x], _ => Ok (map (fun y => x * y) b)
         | _, _ => Err PlainException
         end.
  (** a % b of floats: the sign is that of a; nan for b = 0. label.rs:456 *)
  Definition r_rem (a b : F) : F :=
    if b =? n0 then n0 / n0
    else let q := a / b in a - (if q <? n0 then nofZ (nceil q) else nofZ (nfloor q)) * b.
  (** x.floor() as usize and x.ceil() as usize: negative numbers give 0. label.rs:534, 553, 626, 630, 657 *)
  Definition r_floor_usize (x : F) : nat := Z.to_nat (nfloor x).
  (** label.rs:622 *)
  Definition r_ceil_usize (x : F) : nat := Z.to_nat (nceil x).
  (** .max()? of an array; an empty one is an error. label.rs:525, 551, 643, 672-687 *)
  Definition r_max (l : list F) : Res F := match l with [] => Err PlainException | a :: r => Ok (nmaxl a r) end.
  (** arr[arr.len() - n]: usize underflow panics. label.rs:501-502, 525, 659-664, 671-673 *)
  Definition r_from_end (l : list F) (n : nat) : Res F :=
    if Nat.leb n (length l) then r_get l (length l - n) else Err IndexError.

  (** The loop that fills adj_iter_cd_miles after its first entry, label.rs:621-637. *)
  Fixpoint r_cd_miles_from (floor : nat) (cd_ess trans_ess mi : F) (kwh : list F) (before : F) (c n : nat) : Res (list F) :=
    match n with
    | O => Ok []
    | S n' =>
        do x <- (if Nat.leb c floor then do k <- r_get kwh c; Ok (before + cd_ess * mi / k)
                 else if Nat.eqb c (floor + 1) then do k <- r_get kwh c; Ok (before + trans_ess * mi / k)
                 else Ok n0);
        do r <- r_cd_miles_from floor cd_ess trans_ess mi kwh x (S c) n';
        Ok (x :: r)
    end.

  (** The adjusted mileage of a cycle of [mi] miles on [kwh] of fuel, label.rs:556-569, 587-600. *)
  Definition r_adj_mpgge (intercept slope mi kwh : F) : F :=
    nmax (n1 / (intercept + slope / (mi / (kwh / label_kwh_per_gge))))
         (mi / (kwh / label_kwh_per_gge) * (n1 - label_max_epa_adj)).
  (** The adjusted battery energy per mile, label.rs:571-585, 602-616. *)
  Definition r_adj_iter_kwh (intercept slope k : F) : F :=
    if k =? n0 then n0
    else n1 / nmax (n1 / (intercept + slope / ((n1 / k) * label_kwh_per_gge)))
                   ((n1 - label_max_epa_adj) * ((n1 / k) * label_kwh_per_gge)) * label_kwh_per_gge.
  (** regen_soc_buffer, label.rs:423-431. *)
  Definition r_regen_soc_buffer (veh : vehicle F) (mc_peak_eff : F) : F :=
    nmin ((lit 1 2 * veh_kg veh * nsq (nofZ 60 * (n1 / MPH_PER_MPS))) * (n1 / nofZ 3600) * (n1 / nofZ 1000)
            * max_regen veh * mc_peak_eff / ess_max_kwh veh)
         ((max_soc veh - min_soc veh) / n2).

  (** The calculation for one cycle from its three runs, label.rs:444-687.  Python's cdMpg is the field cd_adj_mpg here
      (the field cd_mpg is the mileage of the charge-sustaining run in both).  Fields that nothing reads (cd_fs_gal,
      cd_fs_kwh, cd_mpg, cd_lab_mpg, cs_ess_kwh, cs_ess_kwh_per_mi) are left out. *)
  Definition r_phev_values (veh : vehicle F) (mc_peak_eff intercept slope : F) (r : phev_runs F) : Res (phev_calc F) :=
    let delta := cd_soc_first r - cd_soc_last r in
    let total := (max_soc veh - min_soc veh) * ess_max_kwh veh / cd_batt r in
    let cycs := total / cd_mi r in
    let whole := nofZ (nfloor cycs) in
    let frac := r_rem cycs whole in
    do iter_uf <- mapR r_uf (map (fun k => nofN k * cd_mi r) (seq 0 (Z.to_nat (nceil cycs + 1))));
    let trans_ess := cd_batt r * frac in
    let cs_gal := cs_fs_kwh r / label_kwh_per_gge in
    let trans_gal := cs_gal * (n1 - frac) in
    let trans_kwh := cs_fs_kwh r * (n1 - frac) in
    do uf_diff <- r_diff iter_uf;
    do d_last <- r_from_end uf_diff 1;
    do uf_last <- r_from_end iter_uf 1;
    let uf_gpm := map (fun x => x / cs_mi r) [trans_gal * d_last; cs_gal * (n1 - uf_last)] in
    let no_end := (max_soc veh - r_regen_soc_buffer veh mc_peak_eff - cs_min_soc r <? lit 1 100) in
    let cd_miles := if no_end then nofZ 1000 else nofZ (nceil cycs) * cs_mi r in
    let cs_mpg := cs_mi r / cs_gal in
    do lab_uf <- r_uf cd_miles;
    do uf_max <- r_max iter_uf;
    do gpm_cd <- r_from_end uf_gpm 2;
    let cd_adj_mpg := uf_max / gpm_cd in
    let lab_mpgge := n1 / (lab_uf / cd_adj_mpg + (n1 - lab_uf) / cs_mpg) in
    let iter_kwh := n0 :: repeat (cd_batt r) (r_floor_usize cycs) ++ [trans_ess; n0] in
    do prod <- r_mul (firstn (length iter_kwh - 2) (skipn 1 iter_kwh)) (skipn 1 uf_diff);
    let lab_kwh := nsum (n0 :: prod ++ [n0]) / uf_max in
    let adj_iter_mpgge := repeat n0 (r_floor_usize cycs)
      ++ [r_adj_mpgge intercept slope (cs_mi r) trans_kwh; r_adj_mpgge intercept slope (cs_mi r) (cs_fs_kwh r)] in
    let adj_iter_kwh := map (r_adj_iter_kwh intercept slope) iter_kwh in
    do rest <- r_cd_miles_from (r_floor_usize cycs) (cd_batt r) trans_ess (cs_mi r) adj_iter_kwh n0 1 (r_ceil_usize cycs + 1);
    let iter_cd := n0 :: rest in
    do iter_cd_max <- r_max iter_cd;
    let adj_cd := if no_end then nofZ 1000 else iter_cd_max in
    do adj_iter_uf <- mapR r_uf iter_cd;
    do adj_diff <- r_diff adj_iter_uf;
    do m2 <- r_from_end adj_iter_mpgge 2;
    do dd <- r_from_end adj_diff 2;
    do m1 <- r_from_end adj_iter_mpgge 1;
    do u2 <- r_from_end adj_iter_uf 2;
    let adj_gpm := repeat n0 (r_floor_usize cycs) ++ [(n1 / m2) * dd; (n1 / m1) * (n1 - u2)] in
    do adj_prod <- r_mul adj_iter_kwh adj_diff;
    do g2 <- r_from_end adj_gpm 2;
    do auf_max <- r_max adj_iter_uf;
    do g1 <- r_from_end adj_gpm 1;
    let adj_cd_mpgge := n1 / g2 * auf_max in
    let adj_cs_mpgge := n1 / g1 * (n1 - auf_max) in
    do adj_uf <- r_uf adj_cd;
    let ess := nsum adj_prod / auf_max in
    Ok (mkphev ((max_soc veh - min_soc veh) * ess_max_kwh veh) delta total cycs frac iter_uf
          (max_soc veh - whole * delta) (cd_batt r * tr_mi r * frac) cs_gal trans_gal uf_gpm cd_miles cs_mpg lab_uf
          cd_adj_mpg lab_mpgge iter_kwh lab_kwh adj_iter_mpgge adj_iter_kwh iter_cd adj_cd adj_iter_uf adj_gpm adj_cd_mpgge
          adj_cs_mpgge adj_uf (n1 / (adj_uf / adj_cd_mpgge + (n1 - adj_uf) / adj_cs_mpgge)) (ess / chg_eff veh) ess).
  (** The three runs over one cycle, label.rs:436-497. *)
  Definition r_phev_runs_of (d : sdrive F) : Res (phev_runs F) :=
    let veh := d_veh d in
    do cd <- r_sim_drive_post d (Some (max_soc veh)) None;
    let batt := battery_kwh_per_mi (snd cd) in
    let cd := fst cd in
    let cycs := (max_soc veh - min_soc veh) * ess_max_kwh veh / batt / sum_dist cd in
    do tr <- r_sim_drive_post cd (Some (max_soc veh - nofZ (nfloor cycs) * (soc_first cd - soc_last cd))) None;
    do cs <- r_sim_drive_post (fst tr) (Some (min_soc veh + lit 1 100)) None;
    Ok (mkruns (soc_first cd) (soc_last cd) batt (sum_dist cd) (sum_fs_kwh cd) (sum_dist (fst tr)) (sum_dist (fst cs))
               (sum_fs_kwh (fst cs)) (least_soc (fst cs))).

  (** sim_drive_accel, impl.rs:462-478. *)
  Definition r_sim_drive_accel (d : sdrive F) : Res (sdrive F * post_scalars F) :=
    let v := d_veh d in
    do d1 <- r_walk d (match veh_pt_type v with CONV | HEV => (max_soc v + min_soc v) / n2 | _ => max_soc v end) None;
    do p <- r_set_post_scalars d1; Ok (d1, p).
  (** make_accel_trace, label.rs:124-138. *)
  Definition r_accel_cycle : cyc F :=
    mkcyc (map (fun k => nofN k * lit 1 10) (seq 0 3000)) (n0 :: repeat (n1 * nofZ 90 / MPH_PER_MPS) 2999)
          (repeat n0 3000) (repeat n0 3000).
  (** get_net_accel after the run, label.rs:151-162. *)
  Definition r_net_accel (mph times : list F) : Res F :=
    if existsb (fun x => x >=? nofZ 60) mph then r_interpolate (nofZ 60) mph times false else Ok (nofZ 1000).

  (** trace_miss_speed_mph, label.rs:212-220. *)
  Definition r_trace_miss_mph (u h : post_scalars F) : F :=
    let worse m p := let x := trace_miss_speed_mps p * MPH_PER_MPS in if x >? m then x else m in
    worse (worse n0 u) h.
  (** The results for all but plug-in hybrids, label.rs:231-310; the fields not assigned are zero. *)
  Definition r_label_values (veh : vehicle F) (adj : adj_coef F) (u h : post_scalars F) (accel miss : F) : rlabel F :=
    match veh_pt_type veh with
    | BEV =>
        let bu := battery_kwh_per_mi u in
        let bh := battery_kwh_per_mi h in
        let one intercept slope lab :=
          n1 / nmax (n1 / (intercept + slope / ((n1 / lab) * label_kwh_per_gge)))
                    ((n1 / lab) * label_kwh_per_gge * (n1 - label_max_epa_adj)) * label_kwh_per_gge / label_chg_eff in
        let au := one (city_intercept adj) (city_slope adj) bu in
        let ah := one (hwy_intercept adj) (hwy_slope adj) bh in
        let ac := lit 55 100 * au + lit 45 100 * ah in
        mkrlabel n0 n0 n0 bu bh (lit 55 100 * bu + lit 45 100 * bh) n0 n0 n0 au ah ac
          (au * label_chg_eff) (ah * label_chg_eff) (ac * label_chg_eff) (ess_max_kwh veh / (ac * label_chg_eff)) n0
          None None None accel miss
    | _ =>
        let mu := mpgge u in
        let mh := mpgge h in
        let au := n1 / (city_intercept adj + city_slope adj / mu) in
        let ah := n1 / (hwy_intercept adj + hwy_slope adj / mh) in
        mkrlabel mu mh (n1 / (lit 55 100 / mu + lit 45 100 / mh)) n0 n0 n0
          au ah (n1 / (lit 55 100 / au + lit 45 100 / ah)) n0 n0 n0 n0 n0 n0 n0 n0 None None None accel miss
    end.
  (** label.rs:311-366 *)
  Definition r_phev_label (veh : vehicle F) (u h : phev_calc F) (accel miss : F) : Res (rlabel F) :=
    let mpg a b := n1 / (lit 55 100 / a + lit 45 100 / b) in
    let kwh a b := lit 55 100 * a + lit 45 100 * b in
    let cs := mpg (adjCsMpgge u) (adjCsMpgge h) in
    let cd := mpg (adjCdMpgge u) (adjCdMpgge h) in
    let mi := kwh (adjCdMiles u) (adjCdMiles h) in
    do uf <- r_uf mi;
    Ok (mkrlabel (labMpgge u) (labMpgge h) (mpg (labMpgge u) (labMpgge h))
          (labKwhPerMile u) (labKwhPerMile h) (kwh (labKwhPerMile u) (labKwhPerMile h))
          (adjMpgge u) (adjMpgge h) (mpg (adjMpgge u) (adjMpgge h))
          (adjKwhPerMile u) (adjKwhPerMile h) (kwh (adjKwhPerMile u) (adjKwhPerMile h))
          (adjEssKwhPerMile u) (adjEssKwhPerMile h) (kwh (adjEssKwhPerMile u) (adjEssKwhPerMile h))
          ((fs_kwh veh / label_kwh_per_gge - mi / cd) * cs + mi) uf (Some cs) (Some cd) (Some mi) accel miss).
  (** get_label_fe, label.rs:173-387; [year]: veh_year.  The acceleration run comes last; here its result is an argument
      of the functions above. *)
  Definition r_get_label_fe (udds hwfet : cyc F) (veh : vehicle F) (year : Z) : Res (rlabel F) :=
    do u <- r_sim_drive_post (new_sd veh label_props default_sim_params udds) None None;
    do h <- r_sim_drive_post (new_sd veh label_props default_sim_params hwfet) None None;
    let miss := r_trace_miss_mph (snd u) (snd h) in
    let adj := adj_params year in
    do out <- match veh_pt_type veh with
              | PHEV =>
                  do peak <- r_mc_peak_eff veh;
                  do ru <- r_phev_runs_of (fst u);
                  do cu <- r_phev_values veh peak (city_intercept adj) (city_slope adj) ru;
                  do rh <- r_phev_runs_of (fst h);
                  do ch <- r_phev_values veh peak (hwy_intercept adj) (hwy_slope adj) rh;
                  do _ <- r_phev_label veh cu ch n0 miss;
                  Ok (fun accel => r_phev_label veh cu ch accel miss)
              | _ => Ok (fun accel => Ok (r_label_values veh adj (snd u) (snd h) accel miss))
              end;
    do a <- r_sim_drive_accel (new_sd veh label_props default_sim_params r_accel_cycle);
    do t <- r_net_accel (map (fun r => mph_ach (spd r)) (d_rows (fst a))) (time_s r_accel_cycle);
    out t.
End RustLabel.
