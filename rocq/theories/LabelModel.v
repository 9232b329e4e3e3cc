(** Model of python/fastsim/simdrivelabel.py: get_label_fe (20-450, use_rust=False) and of
    run_simdrive_for_accel_test (simdrive.py:2420-2433).  Definitions only.

    The two standard cycles (module-level cyc_udds and cyc_hwfet) are parameters.  Printing is not modelled. *)
From Coq Require Import Ascii.
From Verif Require Import Num Numpy CycleModel VehModel SimModel SimState WalkModel PostModel UtilModel.

(** ufArray of resources/longparams.json in units of 0.00001 (the file has some of these values with a rounding error
    in the last place, e.g. 0.024550000000000002). *)
Definition uf_table : list Z := [
    0; 2455; 7257; 11878; 16268; 20440; 24401; 28152; 31698; 35043; 38194; 41188; 43992; 46652; 49148; 51506; 53737;
    55812; 57771; 59611; 61347; 62998; 64532; 65990; 67362; 68662; 69897; 71049; 72141; 73185; 74176; 75126; 76005;
    76848; 77648; 78411; 79141; 79825; 80476; 81095; 81691; 82264; 82800; 83317; 83808; 84278; 84731; 85160; 85571;
    85966; 86348; 86716; 87065; 87403; 87727; 88038; 88338; 88625; 88904; 89174; 89435; 89690; 89932; 90167; 90396;
    90617; 90832; 91038; 91239; 91433; 91620; 91800; 91975; 92146; 92313; 92475; 92633; 92786; 92936; 93082; 93224;
    93363; 93498; 93628; 93754; 93878; 93999; 94115; 94229; 94340; 94450; 94557; 94659; 94760; 94859; 94955; 95050;
    95142; 95233; 95321; 95408; 95494; 95576; 95657; 95737; 95816; 95892; 95967; 96041; 96114; 96185; 96255; 96323;
    96390; 96457; 96523; 96587; 96649; 96710; 96770; 96829; 96887; 96943; 96999; 97053; 97107; 97159; 97208; 97255;
    97302; 97348; 97393; 97436; 97478; 97520; 97561; 97602; 97642; 97681; 97720; 97758; 97795; 97832; 97869; 97904;
    97939; 97973; 98007; 98040; 98073; 98106; 98139; 98170; 98200; 98229; 98258; 98287; 98314; 98340; 98366; 98392;
    98417; 98441; 98465; 98488; 98511; 98533; 98554; 98575; 98595; 98615; 98634; 98653; 98671; 98689; 98707; 98724;
    98741; 98757; 98773; 98789; 98805; 98820; 98835; 98850; 98864; 98878; 98892; 98906; 98920; 98934; 98948; 98961;
    98974; 98987; 99000; 99012; 99024; 99037; 99048; 99060; 99072; 99083; 99094; 99105; 99115; 99126; 99136; 99146;
    99156; 99166; 99176; 99186; 99195; 99205; 99214; 99223; 99232; 99241; 99249; 99258; 99267; 99275; 99284; 99293;
    99301; 99309; 99317; 99325; 99333; 99341; 99348; 99356; 99363; 99371; 99379; 99386; 99393; 99401; 99408; 99415;
    99422; 99429; 99436; 99442; 99449; 99455; 99461; 99468; 99474; 99480; 99487; 99493; 99499; 99504; 99510; 99516;
    99521; 99527; 99533; 99538; 99544; 99549; 99555; 99560; 99566; 99571; 99576; 99581; 99586; 99591; 99596; 99601;
    99606; 99611; 99616; 99621; 99625; 99629; 99634; 99638; 99642; 99647; 99651; 99655; 99659; 99663; 99667; 99672;
    99676; 99679; 99683; 99687; 99690; 99694; 99698; 99701; 99705; 99709; 99713; 99716; 99720; 99724; 99727; 99731;
    99734; 99737; 99741; 99744; 99747; 99750; 99753; 99756; 99759; 99762; 99765; 99768; 99772; 99775; 99778; 99781;
    99784; 99787; 99790; 99793; 99795; 99798; 99801; 99804; 99807; 99810; 99813; 99816; 99818; 99821; 99823; 99826;
    99828; 99831; 99833; 99835; 99837; 99839; 99841; 99843; 99844; 99846; 99848; 99850; 99852; 99853; 99855; 99857;
    99859; 99860; 99862; 99864; 99865; 99867; 99869; 99870; 99872; 99874; 99875; 99877; 99878; 99880; 99881; 99882;
    99884; 99885; 99886; 99887; 99888; 99890; 99891; 99892; 99893; 99895; 99896; 99897; 99898; 99899; 99900; 99902;
    99903; 99904; 99905; 99906; 99907; 99908; 99909; 99910; 99911; 99912; 99913; 99915; 99916; 99917; 99918; 99919;
    99920; 99921; 99922; 99922; 99923; 99924; 99925; 99925; 99926; 99927; 99928; 99928; 99929; 99930; 99930; 99931;
    99932; 99932; 99933; 99933; 99934; 99935; 99935; 99936; 99936; 99937; 99938; 99938; 99939; 99940; 99940; 99941;
    99941; 99942; 99943; 99943; 99944; 99944; 99945; 99946; 99946; 99947; 99948; 99948; 99949; 99949; 99950; 99951;
    99951; 99952; 99952; 99953; 99954; 99954; 99955; 99956; 99956; 99957; 99957; 99958; 99959; 99959; 99960; 99961;
    99961; 99962; 99962; 99963; 99964; 99964; 99965; 99965; 99966; 99967; 99967; 99968; 99968; 99969; 99969; 99970;
    99970; 99971; 99971; 99972; 99972; 99973; 99973; 99973; 99974; 99974; 99975; 99975; 99976; 99976; 99976; 99977;
    99977; 99977; 99978; 99978; 99978; 99979; 99979; 99979; 99979; 99980; 99980; 99980; 99981; 99981; 99981; 99982;
    99982; 99982; 99983; 99983; 99983; 99983; 99984; 99984; 99984; 99985; 99985; 99985; 99986; 99986; 99986; 99987;
    99987; 99987; 99988; 99988; 99988; 99988; 99989; 99989; 99989; 99990; 99990; 99990; 99991; 99991; 99991; 99991;
    99991; 99992; 99992; 99992; 99992; 99992; 99992; 99992; 99993; 99993; 99993; 99993; 99993; 99993; 99994; 99994;
    99994; 99994; 99994; 99994; 99994; 99995; 99995; 99995; 99995; 99995; 99995; 99996; 99996; 99996; 99996; 99996;
    99996; 99996; 99997; 99997; 99997; 99997; 99997; 99997; 99998; 99998; 99998; 99998; 99998; 99998; 99998; 99999;
    99999; 99999; 99999; 99999; 99999; 100000; 100000; 100000; 100000]%Z.

(** One entry of LD_FE_Adj_Coef, longparams.json:1210-1223. *)
Record adj_coef (F : Type) := mkadj { city_intercept : F; city_slope : F; hwy_intercept : F; hwy_slope : F }.
Arguments mkadj {F}. Arguments city_intercept {F}. Arguments city_slope {F}. Arguments hwy_intercept {F}. Arguments hwy_slope {F}.

(** What the PHEV calculation reads of the three runs over one cycle: charge depleting (first and last SOC,
    battery_kwh_per_mi, miles, fuel), transition (miles) and charge sustaining (miles, fuel, least SOC). *)
(** simdrivelabel.py:185-260 *)
Record phev_runs (F : Type) := mkruns {
  cd_soc_first : F; cd_soc_last : F; cd_batt : F; cd_mi : F; cd_fs_kwh : F;
  tr_mi : F; cs_mi : F; cs_fs_kwh : F; cs_min_soc : F }.
Arguments mkruns {F}. Arguments cd_soc_first {F}. Arguments cd_soc_last {F}. Arguments cd_batt {F}. Arguments cd_mi {F}.
Arguments cd_fs_kwh {F}. Arguments tr_mi {F}. Arguments cs_mi {F}. Arguments cs_fs_kwh {F}. Arguments cs_min_soc {F}.
(** The entries of phev_calcs for one cycle that matter for the results, simdrivelabel.py:184-397. *)
Record phev_calc (F : Type) := mkphev {
  cdEssKwh : F; deltaSoc : F; totalCdMiles : F; cdCycs : F; cdFracInTrans : F; labIterUf : list F; transInitSoc : F;
  transEssKwh : F; csFsGal : F; transFsGal : F; labUfGpm : list F; cdMiles : F; csMpg : F; labUf : F; cdMpg : F; labMpgge : F;
  labIterKwhPerMile : list F; labKwhPerMile : F; adjIterMpgge : list F; adjIterKwhPerMile : list F; adjIterCdMiles : list F;
  adjCdMiles : F; adjIterUf : list F; adjIterUfGpm : list F; adjCdMpgge : F; adjCsMpgge : F; adjUf : F; adjMpgge : F;
  adjKwhPerMile : F; adjEssKwhPerMile : F }.
Arguments mkphev {F}. Arguments cdEssKwh {F}. Arguments deltaSoc {F}. Arguments totalCdMiles {F}. Arguments cdCycs {F}.
Arguments cdFracInTrans {F}. Arguments labIterUf {F}. Arguments transInitSoc {F}. Arguments transEssKwh {F}. Arguments csFsGal {F}.
Arguments transFsGal {F}. Arguments labUfGpm {F}. Arguments cdMiles {F}. Arguments csMpg {F}. Arguments labUf {F}. Arguments cdMpg {F}.
Arguments labMpgge {F}. Arguments labIterKwhPerMile {F}. Arguments labKwhPerMile {F}. Arguments adjIterMpgge {F}.
Arguments adjIterKwhPerMile {F}. Arguments adjIterCdMiles {F}. Arguments adjCdMiles {F}. Arguments adjIterUf {F}.
Arguments adjIterUfGpm {F}. Arguments adjCdMpgge {F}. Arguments adjCsMpgge {F}. Arguments adjUf {F}. Arguments adjMpgge {F}.
Arguments adjKwhPerMile {F}. Arguments adjEssKwhPerMile {F}.

(** Values of the returned dict. simdrivelabel.py:50-480 (values of out). *)
Inductive lval (F : Type) := LNum (x : F) | LVeh (v : vehicle F) | LAdj (a : adj_coef F) | LCalcs (u h : phev_calc F) | LText (s : string).
Arguments LNum {F}. Arguments LVeh {F}. Arguments LAdj {F}. Arguments LCalcs {F}. Arguments LText {F}.
(** simdrivelabel.py:50-480 (out) *)
Definition ldict (F : Type) : Type := list (string * lval F).

Section Label.
  Context {F : Type} {N : Num F}.
  Local Open Scope num_scope.

  (** Python dicts: d[k] = v and d[k]. simdrivelabel.py:58-480 (out[k] = v). *)
  Fixpoint dset (d : ldict F) (k : string) (v : lval F) : ldict F :=
    match d with [] => [(k, v)] | (k', w) :: r => if String.eqb k' k then (k, v) :: r else (k', w) :: dset r k v end.
  (** simdrivelabel.py:58-480 (out[k]) *)
  Fixpoint dget (d : ldict F) (k : string) : option (lval F) :=
    match d with [] => None | (k', w) :: r => if String.eqb k' k then Some w else dget r k end.
  (** simdrivelabel.py:85-480 (several out[k] = x) *)
  Definition dnums (d : ldict F) (l : list (string * F)) : ldict F := fold_left (fun d kx => dset d (fst kx) (LNum (snd kx))) l d.
  (** simdrivelabel.py:85-130 (several out[k] = 0) *)
  Definition dzeros (d : ldict F) (l : list string) : ldict F := dnums d (map (fun k => (k, n0)) l).

  (** simdrivelabel.py:72-77 and longparams.json:1210-1223. *)
  Definition adj_params (veh_year : Z) : adj_coef F :=
    if (veh_year <? 2017)%Z then mkadj (lit 3259 1000000) (lit 11805 10000) (lit 1376 1000000) (lit 13466 10000)
    else mkadj (lit 4091 1000000) (lit 11601 10000) (lit 3191 1000000) (lit 12945 10000).

  (** scipy's interp1d(kind='previous'): the value at the last knot not after [x]; ValueError outside the knots. *)
  (** simdrivelabel.py:82 (interpf) *)
  Fixpoint prev_from (x y0 : F) (knots : list (F * F)) : F :=
    match knots with [] => y0 | (x1, y1) :: r => if x <? x1 then y0 else prev_from x y1 r end.
  (** simdrivelabel.py:82 (interpf) *)
  Definition interp_prev (knots : list (F * F)) (x : F) : Res F :=
    match knots with
    | [] => Err ValueError
    | (x0, y0) :: r => if ((x <? x0) || (x >? fst (last knots (x0, y0))))%bool then Err ValueError else Ok (prev_from x y0 r)
    end.
  (** rechgFreqMiles (0, 1, 3, 5, ..., 1201) with ufArray, simdrivelabel.py:80-82. *)
  Definition uf_knots : list (F * F) :=
    combine (n0 :: map (fun k => nofN (2 * k + 1)) (seq 0 601)) (map (fun z => lit z 100000) uf_table).
  (** simdrivelabel.py:82 *)
  Definition interpf (x : F) : Res F := interp_prev uf_knots x.
  (** simdrivelabel.py:211, 369 (interpf of an array) *)
  Fixpoint mapR {A B} (f : A -> Res B) (l : list A) : Res (list B) :=
    match l with [] => Ok [] | a :: r => do b <- f a; do bs <- mapR f r; Ok (b :: bs) end.

  (** 1 / (0.55 / city + 0.45 / highway), simdrivelabel.py:93-94, 118-119, 405-421. *)
  Definition comb_mpgge (city hwy : F) : F := n1 / (lit 55 100 / city + lit 45 100 / hwy).
  (** 0.55 * city + 0.45 * highway, simdrivelabel.py:103-104, 140-141, 410-433. *)
  Definition comb_kwh (city hwy : F) : F := lit 55 100 * city + lit 45 100 * hwy.
  (** 1 / (intercept + slope / mpgge), simdrivelabel.py:113-117. *)
  Definition adj_mpgge (intercept slope mpgge : F) : F := n1 / (intercept + slope / mpgge).
  (** kwh_per_gge of params.PhysicalProperties() and max_epa_adj of SimDriveParams(), simdrivelabel.py:13-14;
      params.chg_eff, parameters.py:158. *)
  Definition label_kwh_per_gge : F := lit 337 10.
  (** simdrivelabel.py:14 *)
  Definition label_max_epa_adj : F := lit 3 10.
  (** parameters.py:158 *)
  Definition label_chg_eff : F := lit 86 100.
  (** simdrivelabel.py:131-139: battery consumption adjusted, before the charger. *)
  Definition adj_kwh (intercept slope kwh_mi : F) : F :=
    n1 / nmax (n1 / (intercept + slope / ((n1 / kwh_mi) * label_kwh_per_gge)))
              ((n1 / kwh_mi) * label_kwh_per_gge * (n1 - label_max_epa_adj)) * label_kwh_per_gge.

  (** get_label_fe for all but PHEVs, simdrivelabel.py:85-162.  [mu], [mh]: mpgge of the two runs; [bu], [bh]: their
      battery_kwh_per_mi.  A run without fuel has mpgge = 0, a Python int, so that the divisions raise. *)
  Definition label_values (out : ldict F) (veh : vehicle F) (adj : adj_coef F) (mu mh bu bh : F) : Res (ldict F) :=
    let bev := match veh_pt_type veh with BEV => true | _ => false end in
    do _ <- (if (negb bev && ((mu =? n0) || (mh =? n0)))%bool then Err ZeroDivisionError else Ok tt);
    let out := if bev then dzeros out ["labUddsMpgge"; "labHwyMpgge"; "labCombMpgge"]%string
               else dnums out [("labUddsMpgge", mu); ("labHwyMpgge", mh); ("labCombMpgge", comb_mpgge mu mh)]%string in
    let out := if bev then dnums out [("labUddsKwhPerMile", bu); ("labHwyKwhPerMile", bh); ("labCombKwhPerMile", comb_kwh bu bh)]%string
               else dzeros out ["labUddsKwhPerMile"; "labHwyKwhPerMile"; "labCombKwhPerMile"]%string in
    let out :=
      if bev then dzeros out ["labUddsMpgge"; "labHwyMpgge"; "labCombMpgge"; "adjUddsMpgge"; "adjHwyMpgge"; "adjCombMpgge"]%string
      else let u := adj_mpgge (city_intercept adj) (city_slope adj) mu in
           let h := adj_mpgge (hwy_intercept adj) (hwy_slope adj) mh in
           dnums out [("adjUddsMpgge", u); ("adjHwyMpgge", h); ("adjCombMpgge", comb_mpgge u h)]%string in
    let out :=
      if bev then
        let u := adj_kwh (city_intercept adj) (city_slope adj) bu / label_chg_eff in
        let h := adj_kwh (hwy_intercept adj) (hwy_slope adj) bh / label_chg_eff in
        let c := comb_kwh u h in
        dnums out [("adjUddsKwhPerMile", u); ("adjHwyKwhPerMile", h); ("adjCombKwhPerMile", c);
                   ("adjUddsEssKwhPerMile", u * label_chg_eff); ("adjHwyEssKwhPerMile", h * label_chg_eff);
                   ("adjCombEssKwhPerMile", c * label_chg_eff); ("netRangeMiles", ess_max_kwh veh / (c * label_chg_eff))]%string
      else (* two of the names are one string in the source *)
        dzeros out ["adjUddsKwhPerMile"; "adjHwyKwhPerMile"; "adjCombKwhPerMile"; "adjUddsEssKwhPerMile";
                    "adjHwyEssKwhPerMile"; "adjCombEssKwhPerMilenetRangeMiles"]%string in
    Ok (dset out "UF" (LNum n0)).

  (** a % b of numpy; for b = 0 it is nan. simdrivelabel.py:201. *)
  Definition np_mod (a b : F) : F := if b =? n0 then n0 / n0 else a - nofZ (nfloor (a / b)) * b.
  (** a * b of numpy arrays: equal lengths, or one of length 1. simdrivelabel.py:162-330. *)
  Definition np_mul (a b : list F) : Res (list F) :=
    if Nat.eqb (length a) (length b) then Ok (zipw nmul a b)
    else match a, b with
         | _, [y] => Ok (map (fun x => x * y) a)
         | [x], _ => Ok (map (fun y => x * y) b)
         | _, _ => Err ValueError
         end.
  (** simdrivelabel.py:297, 351 (int(np.floor(x))) *)
  Definition floor_nat (x : F) : nat := Z.to_nat (nfloor x).
  (** simdrivelabel.py:214, 347 (int(np.ceil(x))) *)
  Definition ceil_nat (x : F) : nat := Z.to_nat (nceil x).
  (** simdrivelabel.py:176-180 *)
  Definition regen_soc_buffer (veh : vehicle F) (mc_peak_eff : F) : F :=
    nmin ((lit 1 2 * veh_kg veh * nsq (nofZ 60 * (n1 / MPH_PER_MPS))) * (n1 / nofZ 3600) * (n1 / nofZ 1000)
            * max_regen veh * mc_peak_eff / ess_max_kwh veh)
         ((max_soc veh - min_soc veh) / n2).
  (** SOC that the transition run starts with, simdrivelabel.py:193-197, 214-217. *)
  Definition total_cd_miles (veh : vehicle F) (batt : F) : F := (max_soc veh - min_soc veh) * ess_max_kwh veh / batt.
  (** simdrivelabel.py:218 *)
  Definition trans_init_soc (veh : vehicle F) (soc_first soc_last batt mi : F) : F :=
    max_soc veh - nofZ (nfloor (total_cd_miles veh batt / mi)) * (soc_first - soc_last).
  (** The loop that fills adjIterCdMiles, simdrivelabel.py:344-358; [c] counts the entries after the first. *)
  Fixpoint cd_miles_from (cdc : F) (cd_ess trans_ess mi : F) (kwh : list F) (before : F) (c n : nat) : Res (list F) :=
    match n with
    | O => Ok []
    | S n' =>
        do x <- (if nofN c <=? nofZ (nfloor cdc) then
                   do k <- pyget kwh (Z.of_nat c); Ok (before + cd_ess * mi / k)
                 else if nofN c =? nofZ (nfloor cdc) + n1 then
                   do k <- pyget kwh (Z.of_nat c); Ok (before + trans_ess * mi / k)
                 else Ok n0);
        do r <- cd_miles_from cdc cd_ess trans_ess mi kwh x (S c) n';
        Ok (x :: r)
    end.
  (** simdrivelabel.py:305, 365 (max of an array) *)
  Definition lmax_arr (l : list F) : Res F := match l with [] => Err ValueError | a :: r => Ok (nmaxl a r) end.

  (** One pass of the loop over the two cycles, simdrivelabel.py:183-397. *)
  Definition phev_values (veh : vehicle F) (mc_peak_eff intercept slope : F) (r : phev_runs F) : Res (phev_calc F) :=
    let cycs := total_cd_miles veh (cd_batt r) / cd_mi r in
    let frac := np_mod cycs (nofZ (nfloor cycs)) in
    do iter_uf <- mapR interpf (map (fun k => nofN k * cd_mi r) (seq 0 (Z.to_nat (nceil cycs + 1))));
    let trans_ess := cd_batt r * frac in
    let cs_gal := cs_fs_kwh r / label_kwh_per_gge in
    let trans_gal := cs_gal * (n1 - frac) in
    let trans_kwh := cs_fs_kwh r * (n1 - frac) in
    do d_last <- pyget (diff iter_uf) (-1);
    do uf_last <- pyget iter_uf (-1);
    let uf_gpm := map (fun x => x / cs_mi r) [trans_gal * d_last; cs_gal * (n1 - uf_last)] in
    let no_end := (max_soc veh - regen_soc_buffer veh mc_peak_eff - cs_min_soc r <? lit 1 100) in
    let cd_miles := if no_end then nofZ 1000 else nofZ (nceil cycs) * cs_mi r in
    let cs_mpg := cs_mi r / cs_gal in
    do lab_uf <- interpf cd_miles;
    do uf_max <- lmax_arr iter_uf;
    do gpm_cd <- pyget uf_gpm (-2);
    let cd_mpg := uf_max / gpm_cd in
    let lab_mpgge := n1 / (lab_uf / cd_mpg + (n1 - lab_uf) / cs_mpg) in
    let iter_kwh := n0 :: repeat (cd_batt r) (floor_nat cycs) ++ [trans_ess; n0] in
    do prod <- np_mul (removelast (tl iter_kwh)) (diff iter_uf);
    let lab_kwh := nsum (n0 :: prod ++ [n0]) / uf_max in
    let mpg_of kwh := cs_mi r / (kwh / label_kwh_per_gge) in
    let adj_of kwh := nmax (n1 / (intercept + slope / mpg_of kwh)) (mpg_of kwh * (n1 - label_max_epa_adj)) in
    let adj_iter_mpgge := repeat n0 (floor_nat cycs) ++ [adj_of trans_kwh; adj_of (cs_fs_kwh r)] in
    let adj_iter_kwh := map (fun k => if k =? n0 then n0 else
          n1 / nmax (n1 / (intercept + slope / ((n1 / k) * label_kwh_per_gge)))
                    ((n1 - label_max_epa_adj) * ((n1 / k) * label_kwh_per_gge)) * label_kwh_per_gge) iter_kwh in
    do rest <- cd_miles_from cycs (cd_batt r) trans_ess (cs_mi r) adj_iter_kwh n0 1 (Z.to_nat (nceil cycs) + 1);
    let iter_cd := n0 :: rest in
    do iter_cd_max <- lmax_arr iter_cd;
    let adj_cd := if no_end then nofZ 1000 else iter_cd_max in
    do adj_iter_uf <- mapR interpf iter_cd;
    do dd <- pyget (diff adj_iter_uf) (-2);
    do m2 <- pyget adj_iter_mpgge (-2);
    do m1 <- pyget adj_iter_mpgge (-1);
    do u2 <- pyget adj_iter_uf (-2);
    let adj_gpm := repeat n0 (floor_nat cycs) ++ [(n1 / m2) * dd; (n1 / m1) * (n1 - u2)] in
    do adj_prod <- np_mul adj_iter_kwh (n0 :: diff adj_iter_uf);
    do g2 <- pyget adj_gpm (-2);
    do g1 <- pyget adj_gpm (-1);
    do auf_max <- lmax_arr adj_iter_uf;
    let adj_cd_mpgge := n1 / g2 * auf_max in
    let adj_cs_mpgge := n1 / g1 * (n1 - auf_max) in
    do adj_uf <- interpf adj_cd;
    let ess := nsum adj_prod / auf_max in
    Ok (mkphev ((max_soc veh - min_soc veh) * ess_max_kwh veh) (cd_soc_first r - cd_soc_last r)
          (total_cd_miles veh (cd_batt r)) cycs frac iter_uf
          (trans_init_soc veh (cd_soc_first r) (cd_soc_last r) (cd_batt r) (cd_mi r))
          (cd_batt r * tr_mi r * frac) cs_gal trans_gal uf_gpm cd_miles cs_mpg lab_uf cd_mpg lab_mpgge iter_kwh lab_kwh
          adj_iter_mpgge adj_iter_kwh iter_cd adj_cd adj_iter_uf adj_gpm adj_cd_mpgge adj_cs_mpgge adj_uf
          (n1 / (adj_uf / adj_cd_mpgge + (n1 - adj_uf) / adj_cs_mpgge)) (ess / chg_eff veh) ess).
  (** simdrivelabel.py:399-447 *)
  Definition phev_label (out : ldict F) (veh : vehicle F) (u h : phev_calc F) : Res (ldict F) :=
    let cs := comb_mpgge (adjCsMpgge u) (adjCsMpgge h) in
    let cd := comb_mpgge (adjCdMpgge u) (adjCdMpgge h) in
    let mi := comb_kwh (adjCdMiles u) (adjCdMiles h) in
    do uf <- interpf mi;
    Ok (dnums (dset out "phev_calcs" (LCalcs u h))
      [("labUddsMpgge", labMpgge u); ("labHwyMpgge", labMpgge h); ("labCombMpgge", comb_mpgge (labMpgge u) (labMpgge h));
       ("labUddsKwhPerMile", labKwhPerMile u); ("labHwyKwhPerMile", labKwhPerMile h);
       ("labCombKwhPerMile", comb_kwh (labKwhPerMile u) (labKwhPerMile h));
       ("adjUddsMpgge", adjMpgge u); ("adjHwyMpgge", adjMpgge h); ("adjCombMpgge", comb_mpgge (adjMpgge u) (adjMpgge h));
       ("adjCsCombMpgge", cs); ("adjCdCombMpgge", cd);
       ("adjUddsKwhPerMile", adjKwhPerMile u); ("adjHwyKwhPerMile", adjKwhPerMile h);
       ("adjCombKwhPerMile", comb_kwh (adjKwhPerMile u) (adjKwhPerMile h));
       ("adjUddsEssKwhPerMile", adjEssKwhPerMile u); ("adjHwyEssKwhPerMile", adjEssKwhPerMile h);
       ("adjCombEssKwhPerMile", comb_kwh (adjEssKwhPerMile u) (adjEssKwhPerMile h));
       ("UF", uf); ("netPhevCDMiles", mi);
       ("netRangeMiles", (fs_kwh veh / label_kwh_per_gge - mi / cd) * cs + mi)]%string).

  (** run_simdrive_for_accel_test, simdrive.py:2420-2433 (set_post_scalars does not matter here). *)
  Definition run_simdrive_for_accel_test (d : sdrive F) : Res (sdrive F) :=
    match veh_pt_type (d_veh d) with
    | CONV | HEV => sim_drive_walk d (mid_soc (d_veh d)) None
    | _ => sim_drive_walk d (max_soc (d_veh d)) None
    end.
  (** The cycle of the acceleration test, simdrivelabel.py:54-59: 0 to 299.9 s in steps of 0.1 s. *)
  Definition accel_cycle : cyc F :=
    mkcyc (map (fun k => nofN k * lit 1 10) (seq 0 3000)) (n0 :: repeat (n1 * nofZ 90 / MPH_PER_MPS) 2999)
          (repeat n0 3000) (repeat n0 3000).
  (** Time to 60 mph, simdrivelabel.py:458-464.  For speeds that are not increasing np.interp may find another
      crossing than the first. *)
  Definition net_accel (mph times : list F) : F :=
    if existsb (fun x => x >=? nofZ 60) mph then interp1 (nofZ 60) (combine mph times) else nofZ 1000.

  (** simdrivelabel.py:13 *)
  Definition label_props : physprops F := mkprops (lit 12 10) (lit 981 100) label_kwh_per_gge.
  (** simdrivelabel.py:90-330 (dist_mi.sum()) *)
  Definition sum_dist (d : sdrive F) : F := sum_rows d (fun r => dist_mi_ach (spd r)).
  (** simdrivelabel.py:90-330 (fs_kwh_out_ach.sum()) *)
  Definition sum_fs_kwh (d : sdrive F) : F := sum_rows d (fun r => fs_kwh_out_ach (fc r)).
  (** sd[key].soc.min(); simdrivelabel.py:267, 362 *)
  Definition least_soc (d : sdrive F) : F := fold_left nmin (map (fun r => soc (dec r)) (d_rows d)) (soc_first d).
  (** The runs of the loop over the cycles for one cycle, simdrivelabel.py:187-257: [cd] is the run from max_soc. *)
  Definition phev_runs_of (cd : sdrive F) : Res (phev_runs F) :=
    let veh := d_veh cd in
    let batt := battery_kwh_per_mi (set_post_scalars cd) in
    do tr <- sim_drive cd (Some (trans_init_soc veh (soc_first cd) (soc_last cd) batt (sum_dist cd))) None;
    do cs <- sim_drive tr (Some (min_soc veh + lit 1 100)) None;
    Ok (mkruns (soc_first cd) (soc_last cd) batt (sum_dist cd) (sum_fs_kwh cd) (sum_dist tr) (sum_dist cs) (sum_fs_kwh cs)
               (least_soc cs)).
  (** get_label_fe, simdrivelabel.py:20-487; [year]: veh_year.  set_nested_values does nothing without keyword
      arguments. *)
  Definition get_label_fe (udds hwfet : cyc F) (veh : vehicle F) (year : Z) : Res (ldict F) :=
    do u <- sim_drive (new_sd veh label_props default_sim_params udds) None None;
    do h <- sim_drive (new_sd veh label_props default_sim_params hwfet) None None;
    let adj := adj_params year in
    let out := [("veh", LVeh veh); ("adjParams", LAdj adj)]%string in
    do out <- match veh_pt_type veh with
              | PHEV =>
                  do u <- sim_drive u (Some (max_soc veh)) None;
                  do h <- sim_drive h (Some (max_soc veh)) None;
                  do peak <- get_mcPeakEff veh;
                  do ru <- phev_runs_of u;
                  do cu <- phev_values veh peak (city_intercept adj) (city_slope adj) ru;
                  do rh <- phev_runs_of h;
                  do ch <- phev_values veh peak (hwy_intercept adj) (hwy_slope adj) rh;
                  phev_label out veh cu ch
              | _ => label_values out veh adj (post_mpgge u) (post_mpgge h)
                       (battery_kwh_per_mi (set_post_scalars u)) (battery_kwh_per_mi (set_post_scalars h))
              end;
    do a <- run_simdrive_for_accel_test (new_sd veh label_props default_sim_params accel_cycle);
    Ok (dset (dset out "netAccel" (LNum (net_accel (map (fun r => mph_ach (spd r)) (d_rows a)) (time_s accel_cycle))))
             "resFound" (LText "model needs to be implemented for this")).
End Label.
