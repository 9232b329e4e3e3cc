(** Model of python/fastsim/cycle.py.  Definitions only; proofs are in CycleProofs*.v.

    [cyc] holds the four arrays of a cycle: it stands both for the dict form with keys
    time_s/mps/grade/road_type used by the module-level functions and for the array
    attributes of class Cycle.  [Cycle] adds the name.  [pdict] is a general Python dict
    with string keys, for the functions that walk over all keys. *)
From Verif Require Import Num Numpy.
Open Scope string_scope.
Open Scope list_scope.

(** cycle.py:460-463 (dict form), 102-105 (class attributes). *)
Record cyc (F : Type) := mkcyc {
  time_s : list F;
  mps : list F;
  grade : list F;
  road_type : list F
}.
Arguments mkcyc {F}. Arguments time_s {F}. Arguments mps {F}.
Arguments grade {F}. Arguments road_type {F}.

(** cycle.py:96-106. *)
Record Cycle (F : Type) := mkCycle { cdata : cyc F; cname : string }.
Arguments mkCycle {F}. Arguments cdata {F}. Arguments cname {F}.

(** One sample point of a cycle: an element of zip(ts, vs, gs, rs), cycle.py:412. *)
Record sample (F : Type) := mksample { s_t : F; s_v : F; s_g : F; s_r : F }.
Arguments mksample {F}. Arguments s_t {F}. Arguments s_v {F}.
Arguments s_g {F}. Arguments s_r {F}.

(** A Python dict value: array of numbers or string.  Other value types are not modelled. *)
(** cycle.py:227-235, 439-463 (values of cycle dicts) *)
Inductive pval (F : Type) := Arr (l : list F) | Str (s : string).
Arguments Arr {F}. Arguments Str {F}.
(** A Python dict with string keys in insertion order, keys distinct. cycle.py:227-235 (cycle dicts). *)
Definition pdict (F : Type) := list (string * pval F).

(** cycle.py:141-170 (d[k] of a Python dict) *)
Fixpoint dget {V} (d : list (string * V)) (k : string) : option V :=
  match d with
  | [] => None
  | (k', v) :: r => if String.eqb k' k then Some v else dget r k
  end.
(** cycle.py:466-490 (d.keys()) *)
Definition dkeys {V} (d : list (string * V)) : list string := map fst d.
(** [d[k] = v]: replace in place, or append. cycle.py:141-170, 493-526 (d[k] = v). *)
Fixpoint dset {V} (d : list (string * V)) (k : string) (v : V) : list (string * V) :=
  match d with
  | [] => [(k, v)]
  | (k', v') :: r => if String.eqb k' k then (k', v) :: r else (k', v') :: dset r k v
  end.
(** cycle.py:466-490, 558-561 (k in ...) *)
Definition mem_str (k : string) (l : list string) : bool := existsb (String.eqb k) l.

Section CycleModel.
  Context {F : Type} {N : Num F}.
  Local Open Scope num_scope.

  (** ** Conversions between the array form and the sample form *)

  (** zip(ts, vs, gs, rs), cycle.py:412: stops at the shortest. *)
  Fixpoint zip4 (ts vs gs rs : list F) : list (sample F) :=
    match ts, vs, gs, rs with
    | t :: ts', v :: vs', g :: gs', r :: rs' => mksample t v g r :: zip4 ts' vs' gs' rs'
    | _, _, _, _ => []
    end.
  (** cycle.py:97-107 (the four arrays read as samples) *)
  Definition samples (c : cyc F) : list (sample F) :=
    zip4 (time_s c) (mps c) (grade c) (road_type c).
  (** cycle.py:97-107 (and back) *)
  Definition of_samples (l : list (sample F)) : cyc F :=
    mkcyc (map s_t l) (map s_v l) (map s_g l) (map s_r l).

  (** len(cyc), cycle.py:223-225. *)
  Definition clen (c : cyc F) : nat := length (time_s c).

  (** make_cycle, cycle.py:439-463. *)
  Definition make_cycle (ts vs : list F) (gs rs : option (list F)) : Res (cyc F) :=
    do _ <- assertR (Nat.eqb (length ts) (length vs));
    do gs' <- match gs with
              | None => Ok (zeros (length ts))
              | Some g => do _ <- assertR (Nat.eqb (length ts) (length g)); Ok g
              end;
    do rs' <- match rs with
              | None => Ok (zeros (length ts))
              | Some r => do _ <- assertR (Nat.eqb (length ts) (length r)); Ok r
              end;
    Ok (mkcyc ts vs gs' rs').

  (** ** to_microtrips, cycle.py:392-436 *)

  (** [mt['time_s'] - mt['time_s'][0]], cycle.py:420 and 431. *)
  Definition rebase_samples (l : list (sample F)) : list (sample F) :=
    match l with
    | [] => []
    | s0 :: _ => map (fun s => mksample (s_t s - s_t s0) (s_v s) (s_g s) (s_r s)) l
    end.

  (** The loop of cycle.py:412-432; [mt] is the microtrip being built. *)
  Fixpoint mt_scan (stop : F) (mt : list (sample F)) (moving : bool) (rest : list (sample F))
    : list (list (sample F)) :=
    match rest with
    | [] => match mt with [] => [] | _ => [rebase_samples mt] end
    | s :: rest' =>
        let now_moving := s_v s >? stop in
        if (now_moving && negb moving && Nat.ltb 1 (length mt))%bool then
          rebase_samples mt :: mt_scan stop [last mt s; s] now_moving rest'
        else mt_scan stop (mt ++ [s]) now_moving rest'
    end.

  (** keep_name (cycle.py:433-435) only adds the dict entry "name"; not modelled. *)
  Definition to_microtrips (c : cyc F) (stop_speed : F) : list (cyc F) :=
    map of_samples (mt_scan stop_speed [] false (samples c)).

  (** ** concat, cycle.py:493-526 *)

  (** One later cycle, cycle.py:516-523.  [final_cycle[k][-1]] raises on an empty array. *)
  Definition concat_step (final c : cyc F) : Res (cyc F) :=
    match time_s final with
    | [] => Err IndexError
    | t :: r =>
        let t0 := last (time_s final) t in
        Ok (mkcyc (time_s final ++ map (fun x => x + t0) (tl (time_s c)))
                  (mps final ++ tl (mps c))
                  (grade final ++ tl (grade c))
                  (road_type final ++ tl (road_type c)))
    end.
  (** cycle.py:493-526 *)
  Fixpoint concat_fold (final : cyc F) (l : list (cyc F)) : Res (cyc F) :=
    match l with
    | [] => Ok final
    | c :: r => do f <- concat_step final c; concat_fold f r
    end.
  (** The optional name (cycle.py:524-525) only adds the dict entry "name"; not modelled. *)
  Definition concat (l : list (cyc F)) : Res (cyc F) :=
    match l with
    | [] => Ok (mkcyc [] [] [] [])
    | c :: r => concat_fold c r
    end.

  (** ** Dict form *)

  (** Cycle.to_dict, cycle.py:227-235 (key order of OLD_TO_NEW.values()). *)
  Definition to_dict (c : Cycle F) : pdict F :=
    [("time_s", Arr (time_s (cdata c))); ("mps", Arr (mps (cdata c)));
     ("grade", Arr (grade (cdata c))); ("road_type", Arr (road_type (cdata c)));
     ("name", Str (cname c))].

  (** OLD_TO_NEW / NEW_TO_OLD / STANDARD_CYCLE_KEYS, cycle.py:29-37. *)
  Definition OLD_TO_NEW : list (string * string) :=
    [("cycSecs", "time_s"); ("cycMps", "mps"); ("cycGrade", "grade");
     ("cycRoadType", "road_type"); ("name", "name")].
  (** cycle.py:36 *)
  Definition NEW_TO_OLD : list (string * string) := map (fun p => (snd p, fst p)) OLD_TO_NEW.
  (** cycle.py:37 *)
  Definition STANDARD_CYCLE_KEYS : list string := map snd OLD_TO_NEW.

  (** An array attribute of the new Cycle; a missing one is a TypeError of [cls( ** d)].  A string
      under an array key (accepted by the code as is) is not modelled and reported as TypeError. cycle.py:141-170. *)
  Definition req_arr (d : pdict F) (k : string) : Res (list F) :=
    match dget d k with Some (Arr l) => Ok l | _ => Err TypeError end.

  (** Cycle.from_dict, cycle.py:141-170. *)
  Definition renamed (d : pdict F) : pdict F :=
    fold_left (fun acc kv =>
                 let k := match dget OLD_TO_NEW (fst kv) with Some k' => k' | None => fst kv end in
                 dset acc k (snd kv)) d [].
  (** cycle.py:141-170 *)
  Definition from_dict (d : pdict F) : Res (Cycle F) :=
    let d1 := renamed d in
    let d2 := dset d1 "name" (match dget d "name" with Some v => v | None => Str "" end) in
    (* np.zeros(len(new_cyc_dict['time_s'])) is evaluated in any case *)
    do n <- match dget d2 "time_s" with
            | Some (Arr l) => Ok (length l)
            | Some (Str s) => Ok (String.length s)
            | None => Err KeyError
            end;
    let d3 := dset d2 "grade" (match dget d2 "grade" with Some v => v | None => Arr (zeros n) end) in
    let d4 := dset d3 "road_type"
                (match dget d3 "road_type" with Some v => v | None => Arr (zeros n) end) in
    do _ <- assertR (forallb (fun k => mem_str k STANDARD_CYCLE_KEYS) (dkeys d4));
    do t <- req_arr d4 "time_s";
    do v <- req_arr d4 "mps";
    do g <- req_arr d4 "grade";
    do r <- req_arr d4 "road_type";
    do nm <- match dget d4 "name" with Some (Str s) => Ok s | _ => Err TypeError end;
    Ok (mkCycle (mkcyc t v g r) nm).

  (** LegacyCycle.__init__, cycle.py:375-380, as the dict of its attributes.  The argument is
      any Python object given by its attribute table. *)
  Fixpoint legacy_attrs (obj_attrs : pdict F) (keys : list (string * string)) : Res (pdict F) :=
    match keys with
    | [] => Ok []
    | (new, old) :: r =>
        match dget obj_attrs new with
        | None => Err AttributeError
        | Some v => do rest <- legacy_attrs obj_attrs r; Ok ((old, v) :: rest)
        end
    end.
  (** cycle.py:370-380 *)
  Definition LegacyCycle (obj_attrs : pdict F) : Res (pdict F) := legacy_attrs obj_attrs NEW_TO_OLD.
  (** Attribute table of a plain [dict] object: its entries are not attributes. cycle.py:370-380. *)
  Definition attrs_of_dict_object (d : pdict F) : pdict F := [].

  (** copy_cycle, cycle.py:981-1026, for a Python Cycle argument.  'rust' is not modelled. *)
  Inductive copied := AsDict (d : pdict F) | AsCycle (c : Cycle F) | AsLegacy (attrs : pdict F).
  (** cycle.py:981-1011 *)
  Definition copy_cycle (c : Cycle F) (return_type : option string) : Res copied :=
    let d := to_dict c in
    let rt := match return_type with None => "python" | Some s => s end in
    if String.eqb rt "dict" then Ok (AsDict d)
    else if String.eqb rt "python" then do c' <- from_dict d; Ok (AsCycle c')
    else if String.eqb rt "legacy" then do l <- LegacyCycle (attrs_of_dict_object d); Ok (AsLegacy l)
    else if String.eqb rt "rust" then Err NotImplementedError
    else Err ValueError.

  (** ** equals, cycle.py:466-490 *)
  Definition val_len (v : pval F) : nat :=
    match v with Arr l => length l | Str s => String.length s end.
  (** [not np.any(np.array(a) != np.array(b))] for values of equal length. cycle.py:466-490. *)
  Definition val_same (a b : pval F) : bool :=
    match a, b with
    | Arr l1, Arr l2 => forallb (fun p => fst p =? snd p) (combine l1 l2)
    | Str s1, Str s2 => String.eqb s1 s2
    | _, _ => false
    end.
  (** cycle.py:466-490 *)
  Definition same_keys (k1 k2 : list string) : bool :=
    (forallb (fun k => mem_str k k2) k1 && forallb (fun k => mem_str k k1) k2)%bool.
  (** cycle.py:466-490 *)
  Definition equals (c1 c2 : pdict F) : bool :=
    (same_keys (dkeys c1) (dkeys c2)
     && forallb (fun k => match dget c1 k, dget c2 k with
                          | Some a, Some b => Nat.eqb (val_len a) (val_len b) && val_same a b
                          | _, _ => false
                          end) (dkeys c1))%bool.
  (** cyc_equal, cycle.py:383-389; the identity shortcut returns what equals returns. *)
  Definition cyc_equal (a b : Cycle F) : bool := equals (to_dict a) (to_dict b).

  (** ** clip_by_times, cycle.py:625-647 *)
  Definition time_mask (ts : list F) (t_start t_end : F) : list bool :=
    map (fun t => ((t >=? t_start) && (t <=? t_end))%bool) ts.
  (** One entry: arrays of the mask's length are masked, everything else is kept (the except branch). *)
  (** cycle.py:625-647 *)
  Definition clip_val (mask : list bool) (v : pval F) : pval F :=
    match v with
    | Arr l => if Nat.eqb (length l) (length mask) then Arr (mask_list mask l) else Arr l
    | Str s => Str s
    end.
  (** cycle.py:625-647 *)
  Definition clip_by_times (d : pdict F) (t_end t_start : F) : Res (pdict F) :=
    match dget d "time_s" with
    | Some (Arr ts) =>
        let mask := time_mask ts t_start t_end in
        let d1 := map (fun kv => (fst kv, clip_val mask (snd kv))) d in
        match mask_list mask ts with
        | [] => Err IndexError
        | t0 :: _ => Ok (dset d1 "time_s" (Arr (map (fun t => t - t0) (mask_list mask ts))))
        end
    | Some (Str _) => Err TypeError
    | None => Err KeyError
    end.

  (** ** resample, cycle.py:529-622 *)
  Record resample_opts := {
    o_new_dt : option F; o_start : option F; o_end : option F;
    o_hold : list string; o_hold_next : list string; o_rate : list string }.

  (** scipy interp1d(x, y, kind=0): the value at the last knot not after x; outside the
      knots it raises ValueError (cycle.py:581). *)
  Fixpoint hold_from (x y0 : F) (knots : list (F * F)) : F :=
    match knots with
    | [] => y0
    | (x1, y1) :: r => if x <? x1 then y0 else hold_from x y1 r
    end.
  (** cycle.py:529-622 (hold_keys) *)
  Definition hold1 (x : F) (knots : list (F * F)) : Res F :=
    match knots with
    | [] => Err ValueError
    | (x0, y0) :: r =>
        if x <? x0 then Err ValueError
        else if fst (last knots (x0, y0)) <? x then Err ValueError
        else Ok (hold_from x y0 r)
    end.
  (** scipy interp1d(x, y, 'next'): the value at the first knot not before x (cycle.py:585). *)
  Fixpoint next_from (x : F) (knots : list (F * F)) : Res F :=
    match knots with
    | [] => Err ValueError
    | (x1, y1) :: r => if x <=? x1 then Ok y1 else next_from x r
    end.
  (** cycle.py:529-622 (hold_keys_next) *)
  Definition next1 (x : F) (knots : list (F * F)) : Res F :=
    match knots with
    | [] => Err ValueError
    | (x0, _) :: _ => if x <? x0 then Err ValueError else next_from x knots
    end.
  (** cycle.py:529-622 (loop over samples that can raise) *)
  Fixpoint mapR {A B} (f : A -> Res B) (l : list A) : Res (list B) :=
    match l with
    | [] => Ok []
    | a :: r => do b <- f a; do bs <- mapR f r; Ok (b :: bs)
    end.

  (** The rate branch, cycle.py:589-613. *)
  Definition avg_pairs (l : list F) : list F :=
    zipw (fun b a => (b + a) / n2) (tl l) l.
  (** cycle.py:529-622 (rate_keys) *)
  Definition rate_cumulative (ts vs : list F) : list F :=
    n0 :: cumsum (zipw nmul (avg_pairs vs) (diff ts)).
  (** cycle.py:529-622 (rate_keys) *)
  Definition resample_rate (new_t ts vs : list F) (new_dt start_t end_t eps : F) : Res (list F) :=
    let steps := map (fun d => d / new_dt) (diff (interp new_t ts (rate_cumulative ts vs))) in
    match steps with
    | [] => Err IndexError (* step_averages[0] *)
    | a :: _ =>
        let averages := (a :: steps) ++ [last steps a] in
        let mids := n0 :: arange (start_t + lit 1 2 * new_dt)
                               (end_t - lit 1 2 * new_dt + eps) new_dt ++ [end_t] in
        (* np.interp raises ValueError when xp and fp differ in length *)
        if Nat.eqb (length mids) (length averages) then Ok (interp new_t mids averages)
        else Err ValueError
    end.

  (** One key of the loop cycle.py:577-621. *)
  Definition resample_val (o : resample_opts) (ts new_t : list F) (new_dt start_t end_t eps : F)
      (k : string) (v : pval F) : Res (pval F) :=
    match v with
    | Str s =>
        (* interp1d / slicing of a string raises; a plain string key is kept (lines 618-621) *)
        if (mem_str k (o_hold o) || mem_str k (o_hold_next o) || mem_str k (o_rate o))%bool
        then Err TypeError else Ok (Str s)
    | Arr l =>
        if mem_str k (o_hold o) then do r <- mapR (fun x => hold1 x (combine ts l)) new_t; Ok (Arr r)
        else if mem_str k (o_hold_next o) then
          do r <- mapR (fun x => next1 x (combine ts l)) new_t; Ok (Arr r)
        else if mem_str k (o_rate o) then
          do r <- resample_rate new_t ts l new_dt start_t end_t eps; Ok (Arr r)
        else if (Nat.eqb (length ts) (length l) && Nat.ltb 0 (length ts))%bool
             then Ok (Arr (interp new_t ts l))
        else Ok (Arr l) (* np.interp raises, the except branch keeps the value *)
    end.

  (** cycle.py:558-561 *)
  Definition check_keys (d : pdict F) (ks : list string) : Res unit :=
    if forallb (fun k => mem_str k STANDARD_CYCLE_KEYS || mem_str k (dkeys d))%bool ks then Ok tt
    else Err PlainException.

  (** cycle.py:529-622 (loop over keys) *)
  Fixpoint resample_rest (o : resample_opts) (ts new_t : list F) (new_dt start_t end_t eps : F)
      (d : pdict F) : Res (pdict F) :=
    match d with
    | [] => Ok []
    | (k, v) :: r =>
        if String.eqb k "time_s" then resample_rest o ts new_t new_dt start_t end_t eps r
        else do v' <- resample_val o ts new_t new_dt start_t end_t eps k v;
             do r' <- resample_rest o ts new_t new_dt start_t end_t eps r;
             Ok ((k, v') :: r')
    end.

  (** The time grid, cycle.py:575-576. *)
  Definition resample_times (new_dt start_t end_t : F) : list F :=
    arange start_t (end_t + new_dt / nofZ 10) new_dt.

  (** cycle.py:529-622 *)
  Definition resample (d : pdict F) (o : resample_opts) : Res (pdict F) :=
    do _ <- check_keys d (o_hold o);
    do _ <- check_keys d (o_hold_next o);
    do _ <- check_keys d (o_rate o);
    do ts <- match dget d "time_s" with
             | Some (Arr l) => Ok l | Some (Str _) => Err TypeError | None => Err KeyError end;
    do new_dt <- match o_new_dt o with
                 | Some x => Ok x
                 | None => do t1 <- pyget ts 1; do t0 <- pyget ts 0; Ok (t1 - t0)
                 end;
    let start_t := match o_start o with Some x => x | None => n0 end in
    do end_t <- match o_end o with Some x => Ok x | None => pyget ts (-1) end;
    let eps := new_dt / nofZ 10 in
    let new_t := resample_times new_dt start_t end_t in
    do rest <- resample_rest o ts new_t new_dt start_t end_t eps d;
    Ok (("time_s", Arr new_t) :: rest).

  (** ** Step durations and distances *)

  (** params.MPH_PER_MPS, parameters.py (constant 2.2369). *)
  Definition MPH_PER_MPS : F := lit 22369 10000.
  (** Cycle.get_mph / set_mph, cycle.py:188-192. *)
  Definition get_mph (c : cyc F) : list F := map (fun v => v * MPH_PER_MPS) (mps c).
  (** cycle.py:191-193 *)
  Definition set_mph (c : cyc F) (mph : list F) : cyc F :=
    mkcyc (time_s c) (map (fun v => v / MPH_PER_MPS) mph) (grade c) (road_type c).

  (** Cycle.dt_s, cycle.py:198-199. *)
  Definition dt_s (c : cyc F) : list F := diff_prepend n0 (time_s c).
  (** Cycle.dt_s_at_i, cycle.py:201-208. *)
  Definition dt_s_at_i (c : cyc F) (i : nat) : Res F :=
    if Nat.ltb i 1 then Ok n0
    else do a <- pyget (time_s c) (Z.of_nat i);
         do b <- pyget (time_s c) (Z.of_nat i - 1);
         Ok (a - b).
  (** Cycle.dist_m, cycle.py:212-213. *)
  Definition dist_m (c : cyc F) : list F := zipw nmul (mps c) (dt_s c).
  (** Cycle.delta_elev_m, cycle.py:216-220. *)
  Definition delta_elev_m (c : cyc F) : list F := cumsum (zipw nmul (dist_m c) (grade c)).

  (** average_step_speeds, cycle.py:858-863. *)
  Definition average_step_speeds (c : cyc F) : list F :=
    n0 :: zipw (fun b a => lit 1 2 * (b + a)) (tl (mps c)) (mps c).
  (** average_step_speed_at, cycle.py:865-870 (mps[i-1] wraps for i = 0). *)
  Definition average_step_speed_at (c : cyc F) (i : nat) : Res F :=
    do a <- pyget (mps c) (Z.of_nat i);
    do b <- pyget (mps c) (Z.of_nat i - 1);
    Ok (lit 1 2 * (a + b)).
  (** trapz_step_distances, cycle.py:872-877. *)
  Definition trapz_step_distances (c : cyc F) : list F :=
    zipw nmul (average_step_speeds c) (dt_s c).
  (** trapz_step_start_distance, cycle.py:879-887.  For i beyond the length numpy raises
      ValueError on the shapes (for cycles of one or two samples it broadcasts; not modelled). *)
  Definition trapz_step_start_distance (c : cyc F) (i : nat) : Res F :=
    if Nat.leb i (length (time_s c)) then
      let ts := firstn i (time_s c) in
      Ok (nsum (zipw nmul (diff ts)
                     (zipw (fun a b => lit 1 2 * (a + b))
                           (firstn (i - 1) (mps c)) (slice (mps c) 1 i))))
    else Err ValueError.
  (** trapz_distance_for_step, cycle.py:889-894. *)
  Definition trapz_distance_for_step (c : cyc F) (i : nat) : Res F :=
    do v <- average_step_speed_at c i; do dt <- dt_s_at_i c i; Ok (v * dt).
  (** trapz_distance_over_range, cycle.py:896-901. *)
  Definition trapz_distance_over_range (c : cyc F) (i_start i_end : nat) : F :=
    nsum (slice (trapz_step_distances c) i_start i_end).

  (** ** CycleCache, cycle.py:39-93 *)
  Record CycleCache := {
    grade_all_zero : bool;
    cc_step_distances : list F;
    cc_distances : list F;
    cc_elevations : list F;
    cc_stops : list bool;
    cc_ds : list F; cc_is : list F; cc_hs : list F;
    cc_grades : list F }.

  (** tol = 1e-6, cycle.py:51, 260, 299. *)
  Definition tol6 : F := lit 1 1000000.

  (** np.cos(np.arctan(grade)) * delta_dists * grade, cycle.py:58 and 279. *)
  Definition trapz_elevations (c : cyc F) : list F :=
    cumsum (zipw nmul (zipw nmul (map (fun g => ncos (natan g)) (grade c)) (trapz_step_distances c))
                 (grade c)).

  (** The loop of cycle.py:63-67 building the strictly increasing knots (distance, index, elevation). *)
  Fixpoint cache_knots (idx : nat) (lastd : option F) (ds hs : list F) : list (F * F * F) :=
    match ds, hs with
    | d :: ds', h :: hs' =>
        let take := match lastd with None => true | Some l => d >? l end in
        if take then (d, nofN idx, h) :: cache_knots (S idx) (Some d) ds' hs'
        else cache_knots (S idx) lastd ds' hs'
    | _, _ => []
    end.

  (** CycleCache.__init__, cycle.py:50-71. *)
  Definition build_cache (c : cyc F) : CycleCache :=
    let gz := all_zero (grade c) in
    let sd := trapz_step_distances c in
    let ds := cumsum sd in
    let hs := if gz then zeros (clen c) else trapz_elevations c in
    let ks := cache_knots 0 None ds hs in
    {| grade_all_zero := gz; cc_step_distances := sd; cc_distances := ds; cc_elevations := hs;
       cc_stops := map (fun v => v <=? tol6) (mps c);
       cc_ds := map (fun k => fst (fst k)) ks; cc_is := map (fun k => snd (fst k)) ks;
       cc_hs := map snd ks; cc_grades := grade c |}.

  (** CycleCache.interp_grade, cycle.py:73-85. *)
  Definition interp_grade (k : CycleCache) (dist : F) : Res F :=
    if grade_all_zero k then Ok n0
    else
      do d0 <- pyget (cc_ds k) 0;
      if dist <=? d0 then pyget (cc_grades k) 0
      else
        do dl <- pyget (cc_ds k) (-1);
        if dist >? dl then pyget (cc_grades k) (-1)
        else pyget (cc_grades k) (nceil (interp1 dist (combine (cc_ds k) (cc_is k)))).

  (** CycleCache.interp_elevation, cycle.py:87-93. *)
  Definition interp_elevation (k : CycleCache) (dist : F) : F :=
    if grade_all_zero k then n0 else interp1 dist (combine (cc_ds k) (cc_hs k)).

  (** The loop of cycle.py:272-275. *)
  Fixpoint grade_scan (dist : F) (dprev : F) (ds gs : list F) (glast : F) : F :=
    match ds, gs with
    | d :: ds', g :: gs' =>
        if ((dist >? dprev) && (dist <=? d))%bool then g else grade_scan dist d ds' gs' glast
    | _, _ => glast
    end.

  (** Cycle.average_grade_over_range, cycle.py:250-290. *)
  Definition average_grade_over_range (c : cyc F) (dist delta : F) (cache : option CycleCache) : Res F :=
    match cache with
    | None =>
        if all_zero (grade c) then Ok n0
        else
          let ds := cumsum (trapz_step_distances c) in
          if delta <=? tol6 then
            do d0 <- pyget ds 0;
            if dist <=? d0 then pyget (grade c) 0
            else
              do dl <- pyget ds (-1);
              if dist >? dl then pyget (grade c) (-1)
              else do gl <- pyget (grade c) (-1);
                   Ok (grade_scan dist d0 (tl ds) (tl (grade c)) gl)
          else
            let hs := trapz_elevations c in
            let e0 := interp1 dist (combine ds hs) in
            let e1 := interp1 (dist + delta) (combine ds hs) in
            Ok (ntan (nasin ((e1 - e0) / delta)))
    | Some k =>
        if grade_all_zero k then Ok n0
        else if delta <=? tol6 then interp_grade k dist
        else
          let e0 := interp_elevation k dist in
          let e1 := interp_elevation k (dist + delta) in
          Ok (ntan (nasin ((e1 - e0) / delta)))
    end.

  (** Cycle.calc_distance_to_next_stop_from, cycle.py:292-308.  np.argmax of an empty array raises. *)
  Definition calc_distance_to_next_stop_from (c : cyc F) (dist : F) (cache : option CycleCache) : Res F :=
    let ds := match cache with Some k => cc_distances k | None => cumsum (trapz_step_distances c) end in
    let stops := match cache with Some k => cc_stops k | None => map (fun v => v <=? tol6) (mps c) end in
    match ds with
    | [] => Err ValueError
    | _ =>
        let am := argmax_b (zipw (fun d s => (d >? dist) && s)%bool ds stops) in
        do d <- pyget ds (Z.of_nat am); Ok (d - dist)
    end.

  (** ** Constant-jerk trajectories, cycle.py:685-770 *)
  Definition calc_constant_jerk_trajectory (n : Z) (D0 v0 Dr vr dt : F) : Res (F * F) :=
    do _ <- assertR (Z.ltb 1 n);
    do _ <- assertR (Dr >? D0);
    let nf := nofZ n in
    let n_1 := nofZ (n - 1) in
    let n_2 := nofZ (n - 2) in
    let dDr := Dr - D0 in
    let dvr := vr - v0 in
    let den := lit 1 2 * nf * n_1 * dt - (n1 / nofZ 3) * n_1 * n_2 * dt - lit 1 2 * n_1 * dt * dt in
    (* a zero divisor raises ZeroDivisionError (float operands) *)
    if ((den =? n0) || (nf * dt =? n0) || (lit 1 2 * nf * nf * dt =? n0))%bool then Err ZeroDivisionError
    else
      let k := (dvr - (n2 * dDr / (nf * dt)) + n2 * v0) / den in
      let a0 := ((dDr / dt) - nf * v0
                 - ((n1 / nofZ 6) * nf * n_1 * n_2 * dt + lit 1 4 * nf * n_1 * dt * dt) * k)
                / (lit 1 2 * nf * nf * dt) in
      Ok (k, a0).
  (** cycle.py:716-728 *)
  Definition accel_for_constant_jerk (n : Z) (a0 k dt : F) : F := a0 + (nofZ n * k * dt).
  (** cycle.py:731-747 *)
  Definition speed_for_constant_jerk (n : Z) (v0 a0 k dt : F) : F :=
    v0 + (nofZ n * a0 * dt) + (lit 1 2 * nofZ n * nofZ (n - 1) * k * dt).
  (** cycle.py:750-769 *)
  Definition dist_for_constant_jerk (n : Z) (d0 v0 a0 k dt : F) : F :=
    let nf := nofZ n in
    let term1 := dt * ((nf * v0) + (lit 1 2 * nf * nofZ (n - 1) * a0 * dt)
                       + ((n1 / nofZ 6) * k * dt * nofZ (n - 2) * nofZ (n - 1) * nf)) in
    let term2 := lit 1 2 * dt * dt * ((nf * a0) + (lit 1 2 * nf * nofZ (n - 1) * k * dt)) in
    d0 + term1 + term2.

  (** The loop of cycle.py:326-331: steps ni, ni+1, ... , [fuel] of them. *)
  Fixpoint jerk_loop (speeds : list F) (num_samples idx : nat) (v0 v a0 k dt : F) (ni fuel : nat)
    : list F * F :=
    match fuel with
    | O => (speeds, v)
    | S fuel' =>
        let pos := (idx - 1 + ni)%nat in
        if Nat.leb num_samples pos then (speeds, v)
        else
          let v' := speed_for_constant_jerk (Z.of_nat ni) v0 a0 k dt in
          jerk_loop (set_nth speeds pos (nmax v' n0)) num_samples idx v0 v' a0 k dt (S ni) fuel'
    end.
  (** Cycle.modify_by_const_jerk_trajectory, cycle.py:310-332, for idx >= 1 (at idx = 0 Python
      would write index -1 + ni = 0.. after wrapping mps[-1]; callers never do that). *)
  Definition modify_by_const_jerk_trajectory (c : cyc F) (idx : nat) (n : Z) (jerk accel0 : F)
    : Res (cyc F * F) :=
    do v0 <- pyget (mps c) (Z.of_nat idx - 1);
    do dt <- dt_s_at_i c idx;
    let '(vs, v) := jerk_loop (mps c) (length (time_s c)) idx v0 v0 accel0 jerk dt 1 (Z.to_nat n) in
    Ok (mkcyc (time_s c) vs (grade c) (road_type c), v).

  (** Cycle.modify_with_braking_trajectory, cycle.py:334-367. *)
  Definition modify_with_braking_trajectory (c : cyc F) (brake : F) (i : nat) (dts : option F)
    : Res (cyc F * F * Z) :=
    do _ <- assertR (brake <? n0);
    if Nat.leb (length (time_s c)) i then
      do v <- pyget (mps c) (-1); Ok (c, v, 0%Z)
    else
      do v0 <- pyget (mps c) (Z.of_nat i - 1);
      do dt <- dt_s_at_i c i;
      let calc := (- lit 1 2) * v0 * v0 / brake in
      let d := match dts with
               | None => calc
               | Some x => if x <=? n0 then calc else x
               end in
      if d <=? n0 then Ok (c, v0, 0%Z)
      else
        let tts := (- v0) / brake in
        if dt =? n0 then Err ZeroDivisionError
        else
          let n := nround (tts / dt) in
          let n := if Z.ltb n 2 then 2%Z else n in
          do ka <- calc_constant_jerk_trajectory n n0 v0 d n0 dt;
          do cv <- modify_by_const_jerk_trajectory c i n (fst ka) (snd ka);
          Ok (fst cv, snd cv, n).

  (** ** detect_passing, cycle.py:772-856 *)
  Record PassingInfo := mkPassing {
    has_collision : bool; pi_idx : nat; num_steps : nat;
    start_distance_m : F; distance_m : F;
    start_speed : F; pi_speed : F; time_step_duration : F }.

  (** The loop of cycle.py:825-846, [fuel] samples remaining; the result is the rendezvous
      (idx, steps, d_lv, v_lv), if any. *)
  Fixpoint passing_loop (c c0 : cyc F) (i di fuel : nat) (v0 v0_lv d d_lv tol : F)
    : Res (option (nat * nat * F * F)) :=
    match fuel with
    | O => Ok None
    | S fuel' =>
        let idx := (i + di)%nat in
        do v <- pyget (mps c) (Z.of_nat idx);
        do v_lv <- pyget (mps c0) (Z.of_nat idx);
        do dt <- dt_s_at_i c idx;
        do dt_lv <- dt_s_at_i c0 idx;
        let d' := d + (v + v0) * lit 1 2 * dt in
        let d_lv' := d_lv + (v_lv + v0_lv) * lit 1 2 * dt_lv in
        if (Nat.ltb 0 di && (d_lv' - d' <? (- tol)))%bool then
          Ok (Some (idx, S di, d_lv', v_lv))
        else if v <=? tol6 then Ok None
        else passing_loop c c0 i (S di) fuel' v v_lv d' d_lv' tol
    end.

  (** cycle.py:791-855 *)
  Definition detect_passing (c c0 : cyc F) (i : nat) (tol : F) : Res PassingInfo :=
    if Nat.leb (length (time_s c)) i then
      Ok (mkPassing false 0 0 n0 n0 n0 n0 n1)
    else
      do v0 <- pyget (mps c) (Z.of_nat i - 1);
      do d0 <- trapz_step_start_distance c i;
      do v0_lv <- pyget (mps c0) (Z.of_nat i - 1);
      do d0_lv <- trapz_step_start_distance c0 i;
      do r <- passing_loop c c0 i 0 (length (mps c) - i) v0 v0_lv d0 d0_lv tol;
      do dt <- dt_s_at_i c i;
      match r with
      | None => Ok (mkPassing false 0 0 d0 n0 v0 n0 dt)
      | Some (idx, steps, d_lv, v_lv) =>
          Ok (mkPassing (d_lv >? d0) idx steps d0 d_lv v0 v_lv dt)
      end.

  (** ** extend_cycle, cycle.py:903-927 *)
  Definition cyc_of_dict (d : pdict F) : Res (cyc F) :=
    do t <- req_arr d "time_s"; do v <- req_arr d "mps";
    do g <- req_arr d "grade"; do r <- req_arr d "road_type";
    Ok (mkcyc t v g r).
  (** cycle.py:227-235 *)
  Definition dict_of_cyc (c : cyc F) : pdict F :=
    [("time_s", Arr (time_s c)); ("mps", Arr (mps c));
     ("grade", Arr (grade c)); ("road_type", Arr (road_type c))].
  (** cycle.py:529-531 (default arguments) *)
  Definition no_opts : resample_opts :=
    {| o_new_dt := None; o_start := None; o_end := None; o_hold := []; o_hold_next := []; o_rate := [] |}.
  (** cycle.py:903-926 *)
  Definition extend_cycle (c : Cycle F) (absolute_time time_fraction : F) : Res (Cycle F) :=
    do tl <- pyget (time_s (cdata c)) (-1);
    let extra := absolute_time + nofZ (nround (time_fraction * tl)) in
    do stopc <- make_cycle [n0; extra] [n0; n0] None None;
    do stopd <- resample (dict_of_cyc stopc)
                 {| o_new_dt := Some n1; o_start := None; o_end := None;
                    o_hold := []; o_hold_next := []; o_rate := [] |};
    do stopr <- cyc_of_dict stopd;
    do r <- concat [cdata c; stopr];
    from_dict (dict_of_cyc r).

  (** ** create_dist_and_target_speeds_by_microtrip, cycle.py:929-975 *)
  (** time_spent_moving, cycle.py:945-951. *)
  Definition time_spent_moving (c : cyc F) : F :=
    fold_left (fun acc p => if snd p >? n0 then acc + fst p else acc)
              (combine (diff (time_s c)) (avg_pairs (mps c))) n0.
  (** The target speed of one microtrip, cycle.py:959-969. *)
  Definition mt_dist (mt : cyc F) : F := nsum (dist_m mt).
  (** cycle.py:945-975 *)
  Definition mt_target (blend : F) (mt : cyc F) : F :=
    let d := mt_dist mt in
    let t := last (time_s mt) n0 - hd n0 (time_s mt) in
    let tm := time_spent_moving mt in
    let avg := if t >? n0 then d / t else n0 in
    let mavg := if tm >? n0 then d / tm else n0 in
    nmax (nmin (blend * (mavg - avg) + avg) mavg) avg.
  (** cycle.py:929-978 *)
  Fixpoint target_table (blend min_speed start : F) (mts : list (cyc F)) : list (F * F) :=
    match mts with
    | [] => []
    | mt :: r =>
        if mt_dist mt >? n0 then
          (start, nmax (mt_target blend mt) min_speed)
            :: target_table blend min_speed (start + mt_dist mt) r
        else target_table blend min_speed start r
    end.
  (** cycle.py:929-978 *)
  Definition create_dist_and_target_speeds_by_microtrip (c : cyc F) (blend_factor min_speed : F)
    : list (F * F) :=
    let blend := nmax n0 (nmin n1 blend_factor) in
    target_table blend min_speed n0 (to_microtrips c tol6).

  (** ** accelerations, peak_acceleration, peak_deceleration, cycle.py:650-682.
      np.max/np.min of an empty array raises ValueError. *)
  Definition accelerations (c : cyc F) : list F := zipw ndiv (diff (mps c)) (diff (time_s c)).
  (** cycle.py:663-671 *)
  Definition peak_acceleration (c : cyc F) : Res F :=
    match accelerations c with [] => Err ValueError | a :: r => Ok (nmaxl a r) end.
  (** cycle.py:674-682 *)
  Definition peak_deceleration (c : cyc F) : Res F :=
    match accelerations c with [] => Err ValueError | a :: r => Ok (nminl a r) end.
End CycleModel.
