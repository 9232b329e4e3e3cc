(** Properties C01-C19 of python/fastsim/cycle.py.  Each theorem is followed by concrete cases
    that meet its hypotheses ([run_]: the model executed in binary64; [case_]: the hypotheses
    discharged over the reals). *)
From Coq Require Import Floats Sorting.Sorted.
From Verif Require Import Num FloatNum Numpy ListFacts CycleModel CycleSpec MicrotripProofs ConcatProofs
  CycleProofs1 ResampleProofs RateProofs DistProofs GradeProofs JerkProofs CycleProofs2 TargetProofs.
Local Open Scope R_scope.
Local Set Warnings "-inexact-float".

(** A small cycle: starts at 10 s, idles, drives, stops, drives, stops. *)
Definition demo : cyc R :=
  mkcyc [10; 11; 12; 13; 14; 15] [0; 2; 4; 0; 3; 0] [0; 1/100; 0; 0; 2/100; 0] [0; 0; 1; 1; 0; 0].
Definition demo0 : cyc R :=
  mkcyc [0; 1; 2; 3; 4; 5] [0; 2; 4; 0; 3; 0] [0; 1/100; 0; 0; 2/100; 0] [0; 0; 1; 1; 0; 0].
Definition demoF : cyc float :=
  mkcyc [10; 11; 12; 13; 14; 15]%float [0; 2; 4; 0; 3; 0]%float
        [0; 0.01; 0; 0; 0.02; 0]%float [0; 0; 1; 1; 0; 0]%float.

Ltac sorted := apply increasing_SS; repeat constructor; lra.
Lemma demo_wf : wf demo. Proof. repeat split. Qed.
Lemma demo_inc : increasing (time_s demo). Proof. sorted. Qed.
Lemma demo0_wf : wf demo0. Proof. repeat split. Qed.
Lemma demo0_inc : increasing (time_s demo0). Proof. sorted. Qed.
Lemma inc_nondec l : increasing l -> nondecreasing l.
Proof. intros H i j x y Hij Hx Hy. apply Rlt_le. eapply H; eassumption. Qed.
Lemma demo0_nonneg : nonneg (mps demo0).
Proof. intros x Hx. cbn in Hx. repeat (destruct Hx as [<-|Hx]; [lra|]). destruct Hx. Qed.

(** ** C01 *)
Theorem C01_microtrips_then_concat : forall (c : cyc R) (stop : R),
  wf c -> concat (to_microtrips c stop) = Ok (rebased c).
Proof. exact microtrips_concat_round_trip. Qed.
(** For every number type (in particular binary64, where time stamps are rounded). *)
Theorem C01_samples_any_arithmetic : forall (F : Type) (N : Num F) (c : cyc F) (stop : F),
  wf c -> exists c', concat (to_microtrips c stop) = Ok c' /\
    length (time_s c') = length (time_s c) /\
    mps c' = mps c /\ grade c' = grade c /\ road_type c' = road_type c.
Proof. exact @microtrips_concat_fields. Qed.
Example C01_run : map mps (to_microtrips demoF 0.1%float) = [[0; 2; 4; 0]; [0; 3; 0]]%float /\
  concat (to_microtrips demoF 0.1%float)
  = Ok (mkcyc [0; 1; 2; 3; 4; 5]%float (mps demoF) (grade demoF) (road_type demoF)).
Proof. split; vm_compute; reflexivity. Qed.
Example C01_case : concat (to_microtrips demo (1/10)) = Ok (rebased demo).
Proof. exact (C01_microtrips_then_concat demo (1/10) demo_wf). Qed.

(** ** C02 *)
Theorem C02_microtrip_shape : forall (F : Type) (N : Num F) (c : cyc F) stop j m,
  nth_error (to_microtrips c stop) j = Some m ->
  wf m /\ time_s m <> [] /\ (exists t, hd_error (time_s m) = Some (nsub t t)) /\
  (forall k a b, (1 <= k)%nat -> nth_error (mps m) k = Some a -> nth_error (mps m) (S k) = Some b ->
                 is_moving stop b -> is_moving stop a).
Proof. exact @microtrip_shape. Qed.
Theorem C02_starts_at_zero : forall (c : cyc R) stop j m,
  nth_error (to_microtrips c stop) j = Some m -> hd_error (time_s m) = Some 0.
Proof.
  intros c stop j m H. destruct (microtrip_shape c stop j m H) as (_ & _ & (t & ->) & _).
  unR. now rewrite Rminus_diag_eq.
Qed.
Theorem C02_joints : forall (F : Type) (N : Num F) (c : cyc F) stop j m m',
  nth_error (to_microtrips c stop) j = Some m -> nth_error (to_microtrips c stop) (S j) = Some m' ->
  exists a b r g gr w wr,
    mps m' = a :: b :: r /\ grade m' = g :: gr /\ road_type m' = w :: wr /\
    (forall d, last (mps m) d = a) /\ (forall d, last (grade m) d = g) /\
    (forall d, last (road_type m) d = w) /\
    ~ is_moving stop a /\ is_moving stop b.
Proof. exact @microtrip_joints. Qed.
(** Microtrip [j] is the contiguous run of samples that starts at the last sample of the one
    before it (the lengths of those before it, each less one, added up). *)
Theorem C02_contiguous : forall (F : Type) (N : Num F) (c : cyc F) stop j m,
  wf c -> nth_error (to_microtrips c stop) j = Some m ->
  let s := list_sum (map (fun x => length (time_s x) - 1)%nat (firstn j (to_microtrips c stop))) in
  let n := length (time_s m) in
  (exists t, nth_error (time_s c) s = Some t /\
     time_s m = map (fun x => nsub x t) (firstn n (skipn s (time_s c)))) /\
  mps m = firstn n (skipn s (mps c)) /\ grade m = firstn n (skipn s (grade c)) /\
  road_type m = firstn n (skipn s (road_type c)).
Proof. exact @microtrip_window. Qed.
Theorem C02_two_samples : forall (F : Type) (N : Num F) (c : cyc F) stop j m,
  wf c -> (2 <= length (time_s c))%nat ->
  nth_error (to_microtrips c stop) j = Some m -> (2 <= length (time_s m))%nat.
Proof. exact @microtrip_two_samples. Qed.
Example C02_run :
  nth_error (to_microtrips demoF 0.1%float) 0 =
    Some (mkcyc [0; 1; 2; 3]%float [0; 2; 4; 0]%float [0; 0.01; 0; 0]%float [0; 0; 1; 1]%float) /\
  nth_error (to_microtrips demoF 0.1%float) 1 =
    Some (mkcyc [0; 1; 2]%float [0; 3; 0]%float [0; 0.02; 0]%float [1; 0; 0]%float) /\
  nth_error (to_microtrips demoF 0.1%float) 2 = None.
Proof. repeat split; vm_compute; reflexivity. Qed.

(** ** C03 *)
Theorem C03_length : forall (c : cyc R) l r, concat (c :: l) = Ok r ->
  length (time_s r) = (length (time_s c) + list_sum (map (fun d => length (time_s d) - 1)%nat l))%nat.
Proof. exact concat_length. Qed.
Theorem C03_total : forall (F : Type) (N : Num F) (c : cyc F) l,
  time_s c <> [] -> exists r, concat (c :: l) = Ok r.
Proof. intros F N. exact concat_ok. Qed.
(** What the prefix contributes stays; sample [j >= 1] of the next cycle follows, offset in time. *)
Theorem C03_blocks : forall (pre post : list (cyc R)) (c a r : cyc R),
  pre <> [] -> concat pre = Ok a -> concat (pre ++ c :: post) = Ok r ->
  (forall i, (i < length (time_s a))%nat -> nth_error (time_s r) i = nth_error (time_s a) i) /\
  (forall i, (i < length (mps a))%nat -> nth_error (mps r) i = nth_error (mps a) i) /\
  (forall i, (i < length (grade a))%nat -> nth_error (grade r) i = nth_error (grade a) i) /\
  (forall i, (i < length (road_type a))%nat -> nth_error (road_type r) i = nth_error (road_type a) i) /\
  (forall j t, (1 <= j)%nat -> nth_error (time_s c) j = Some t ->
               nth_error (time_s r) (length (time_s a) + j - 1) = Some (t + end_time a)) /\
  (forall j v, (1 <= j)%nat -> nth_error (mps c) j = Some v ->
               nth_error (mps r) (length (mps a) + j - 1) = Some v) /\
  (forall j v, (1 <= j)%nat -> nth_error (grade c) j = Some v ->
               nth_error (grade r) (length (grade a) + j - 1) = Some v) /\
  (forall j v, (1 <= j)%nat -> nth_error (road_type c) j = Some v ->
               nth_error (road_type r) (length (road_type a) + j - 1) = Some v).
Proof. exact concat_block. Qed.
Theorem C03_single_and_none : forall (F : Type) (N : Num F) (c : cyc F),
  concat [c] = Ok c /\ @concat F N [] = Ok (mkcyc [] [] [] []).
Proof. split; reflexivity. Qed.
Theorem C03_end_time : forall (c : cyc R) l r,
  time_s c <> [] -> (forall d, In d l -> hd_error (time_s d) = Some 0) ->
  concat (c :: l) = Ok r -> end_time r = end_time c + fold_right Rplus 0 (map end_time l).
Proof. exact concat_end_time. Qed.
Theorem C03_grouping_left : forall (F : Type) (N : Num F) (l1 l2 : list (cyc F)) a,
  l1 <> [] -> concat l1 = Ok a -> concat (a :: l2) = concat (l1 ++ l2).
Proof. intros F N l1 l2 a H E. rewrite concat_app by assumption. now rewrite E. Qed.
Theorem C03_grouping_right : forall (a b : cyc R) l inner,
  time_s a <> [] -> hd_error (time_s b) = Some 0 -> wf b -> (forall d, In d l -> wf d) ->
  concat (b :: l) = Ok inner -> concat [a; inner] = concat (a :: b :: l).
Proof. exact concat_nested. Qed.
Theorem C03_increasing : forall (c : cyc R) l r,
  time_s c <> [] -> increasing (time_s c) ->
  (forall d, In d l -> increasing (time_s d) /\ hd_error (time_s d) = Some 0) ->
  concat (c :: l) = Ok r -> increasing (time_s r).
Proof. exact concat_increasing. Qed.
Theorem C03_empty_first : forall (F : Type) (N : Num F) (c d : cyc F) l,
  time_s c = [] -> concat (c :: d :: l) = Err IndexError.
Proof. exact @concat_empty_first. Qed.
Example C03_run :
  concat [demoF; mkcyc [0; 1; 3]%float [7; 8; 9]%float [1; 2; 3]%float [4; 5; 6]%float; demoF]
  = Ok (mkcyc [10; 11; 12; 13; 14; 15; 16; 18; 29; 30; 31; 32; 33]%float
              [0; 2; 4; 0; 3; 0; 8; 9; 2; 4; 0; 3; 0]%float
              [0; 0.01; 0; 0; 0.02; 0; 2; 3; 0.01; 0; 0; 0.02; 0]%float
              [0; 0; 1; 1; 0; 0; 5; 6; 0; 1; 1; 0; 0]%float).
Proof. vm_compute; reflexivity. Qed.
Example C03_case : exists r, concat [demo; demo0; demo0] = Ok r /\ end_time r = 25 /\ increasing (time_s r).
Proof.
  destruct (C03_total R _ demo [demo0; demo0]) as [r Hr]; [discriminate|].
  exists r. split; [assumption|]. split.
  - rewrite (C03_end_time demo [demo0; demo0] r); [cbn; lra|discriminate| |assumption].
    intros d [<-|[<-|[]]]; reflexivity.
  - apply (C03_increasing demo [demo0; demo0] r); [discriminate|exact demo_inc| |assumption].
    intros d [<-|[<-|[]]]; (split; [exact demo0_inc|reflexivity]).
Qed.

(** ** C04 *)
Theorem C04_clip : forall (d : pdict R) (ts : list R) t0 rest lo hi,
  dget d "time_s" = Some (Arr ts) -> in_window lo hi ts ts = t0 :: rest ->
  exists d', clip_by_times d hi lo = Ok d' /\
    dkeys d' = dkeys d /\
    dget d' "time_s" = Some (Arr (map (fun t => t - t0) (in_window lo hi ts ts))) /\
    (forall k l, k <> "time_s"%string -> dget d k = Some (Arr l) -> length l = length ts ->
                 dget d' k = Some (Arr (in_window lo hi ts l))) /\
    (forall k s, dget d k = Some (Str s) -> dget d' k = Some (Str s)).
Proof. exact clip_exact. Qed.
Theorem C04_clip_empty : forall (d : pdict R) (ts : list R) lo hi,
  dget d "time_s" = Some (Arr ts) -> in_window lo hi ts ts = [] ->
  clip_by_times d hi lo = Err IndexError.
Proof. exact clip_empty. Qed.
(** The window specification read pointwise. *)
Theorem C04_window : forall (A : Type) lo hi (ts : list R) (l : list A) x,
  In x (in_window lo hi ts l) <->
  exists i t, nth_error ts i = Some t /\ nth_error l i = Some x /\ lo <= t <= hi.
Proof. exact @in_window_In. Qed.
Example C04_run : clip_by_times (to_dict (mkCycle demoF "demo")) 13%float 11%float =
  Ok (to_dict (mkCycle (mkcyc [0; 1; 2]%float [2; 4; 0]%float [0.01; 0; 0]%float [0; 1; 1]%float) "demo"))
  /\ clip_by_times (to_dict (mkCycle demoF "demo")) 11%float 13%float = Err IndexError.
Proof. split; vm_compute; reflexivity. Qed.

(** ** C05 *)
Theorem C05_cut_and_join : forall (c : cyc R) i t lo hi,
  wf c -> increasing (time_s c) -> nth_error (time_s c) i = Some t ->
  (forall x, In x (time_s c) -> lo <= x <= hi) ->
  exists a b, clip_cyc c t lo = Ok a /\ clip_cyc c hi t = Ok b /\ concat [a; b] = Ok (rebased c).
Proof. exact clip_concat. Qed.
Example C05_case : exists a b, clip_cyc demo 12 0 = Ok a /\ clip_cyc demo 100 12 = Ok b /\
  concat [a; b] = Ok (rebased demo).
Proof.
  apply (C05_cut_and_join demo 2 12 0 100 demo_wf demo_inc eq_refl).
  intros x Hx. cbn in Hx. repeat (destruct Hx as [<-|Hx]; [lra|]). destruct Hx.
Qed.

(** ** C06 *)
Theorem C06_grid : forall (d : pdict R) o d' ts,
  resample d o = Ok d' -> dget d "time_s" = Some (Arr ts) -> 0 < want_dt o ts ->
  exists new_t, dget d' "time_s" = Some (Arr new_t) /\
    (forall k x, nth_error new_t k = Some x -> x = want_start o + INR k * want_dt o ts) /\
    (forall k, (k < length new_t)%nat <->
               want_start o + INR k * want_dt o ts < want_end o ts + want_dt o ts / 10).
Proof. exact resample_grid. Qed.
Theorem C06_interpolated : forall (d : pdict R) o d' ts new_t k l,
  resample d o = Ok d' -> dget d "time_s" = Some (Arr ts) -> ts <> [] -> increasing ts ->
  dget d' "time_s" = Some (Arr new_t) ->
  k <> "time_s"%string -> dget d k = Some (Arr l) -> length l = length ts ->
  ~ In k (o_hold o) -> ~ In k (o_hold_next o) -> ~ In k (o_rate o) ->
  exists r, dget d' k = Some (Arr r) /\ length r = length new_t /\
    forall j x y, nth_error new_t j = Some x -> nth_error r j = Some y ->
      on_polyline ts l x y /\
      (forall lo hi, (forall v, In v l -> lo <= v <= hi) -> lo <= y <= hi) /\
      (forall i v, nth_error ts i = Some x -> nth_error l i = Some v -> y = v).
Proof.
  intros d o d' ts new_t k l H Hts Hne Hinc Hnt Hk Hl Hlen H1 H2 H3.
  destruct (resample_linear d o d' ts new_t k l H Hts Hne Hinc Hnt Hk Hl Hlen H1 H2 H3) as (r & Hr & Hrl & Hp).
  exists r. split; [assumption|]. split; [assumption|]. intros j x y Hx Hy.
  pose proof (Hp j x y Hx Hy) as Hxy. split; [assumption|]. split.
  - intros lo hi Hb. exact (on_polyline_range ts l x y lo hi Hne Hlen Hinc Hb Hxy).
  - intros i v Hi Hv. exact (on_polyline_knot ts l x y i v Hlen Hinc Hi Hv Hxy).
Qed.
Theorem C06_hold : forall (d : pdict R) o d' ts new_t k l,
  resample d o = Ok d' -> dget d "time_s" = Some (Arr ts) -> increasing ts ->
  dget d' "time_s" = Some (Arr new_t) ->
  k <> "time_s"%string -> dget d k = Some (Arr l) -> length l = length ts -> In k (o_hold o) ->
  exists r, dget d' k = Some (Arr r) /\ length r = length new_t /\
    forall j x y, nth_error new_t j = Some x -> nth_error r j = Some y -> held_from ts l x y.
Proof. exact resample_hold. Qed.
Theorem C06_hold_next : forall (d : pdict R) o d' ts new_t k l,
  resample d o = Ok d' -> dget d "time_s" = Some (Arr ts) -> increasing ts ->
  dget d' "time_s" = Some (Arr new_t) ->
  k <> "time_s"%string -> dget d k = Some (Arr l) -> length l = length ts ->
  ~ In k (o_hold o) -> In k (o_hold_next o) ->
  exists r, dget d' k = Some (Arr r) /\ length r = length new_t /\
    forall j x y, nth_error new_t j = Some x -> nth_error r j = Some y -> held_until ts l x y.
Proof. exact resample_hold_next. Qed.
(** Without special keys resampling a cycle of at least two samples always succeeds. *)
Theorem C06_succeeds : forall (d : pdict R) o ts,
  dget d "time_s" = Some (Arr ts) -> (2 <= length ts)%nat ->
  o_hold o = [] -> o_hold_next o = [] -> o_rate o = [] ->
  exists d', resample d o = Ok d' /\
    dkeys d' = "time_s"%string :: filter (fun k => negb (String.eqb k "time_s")) (dkeys d) /\
    (forall k s, dget d k = Some (Str s) -> dget d' k = Some (Str s)).
Proof. exact resample_plain_ok. Qed.
(** A column that is named for special treatment has to be in the cycle or to be one of the standard five. *)
Theorem C06_unknown : forall (d : pdict R) o k,
  In k (o_hold o) \/ In k (o_hold_next o) \/ In k (o_rate o) ->
  ~ In k ["time_s"; "mps"; "grade"; "road_type"; "name"]%string -> dget d k = None -> resample d o = Err PlainException.
Proof. exact resample_unknown. Qed.
(** Naming a standard one that is not in the cycle has no effect. *)
Theorem C06_absent : forall (d : pdict R) o k,
  In k ["time_s"; "mps"; "grade"; "road_type"; "name"]%string -> dget d k = None ->
  resample d {| o_new_dt := o_new_dt o; o_start := o_start o; o_end := o_end o; o_hold := k :: o_hold o;
                o_hold_next := o_hold_next o; o_rate := o_rate o |} = resample d o /\
  resample d {| o_new_dt := o_new_dt o; o_start := o_start o; o_end := o_end o; o_hold := o_hold o;
                o_hold_next := k :: o_hold_next o; o_rate := o_rate o |} = resample d o /\
  resample d {| o_new_dt := o_new_dt o; o_start := o_start o; o_end := o_end o; o_hold := o_hold o;
                o_hold_next := o_hold_next o; o_rate := k :: o_rate o |} = resample d o.
Proof. exact resample_absent. Qed.
Example C06_named_run :
  let d := [("time_s", Arr [0; 1]); ("mps", Arr [0; 2])]%float%string in
  let o := fun k => {| o_new_dt := None; o_start := None; o_end := None; o_hold := [k]; o_hold_next := []; o_rate := [] |} in
  resample d (o "grade"%string) = Ok d /\ resample d (o "gear"%string) = Err PlainException.
Proof. vm_compute. auto. Qed.
Example C06_run :
  resample [("time_s", Arr [0; 1; 2; 4]); ("mps", Arr [0; 2; 4; 0]); ("road_type", Arr [5; 6; 7; 8])]%float%string
    {| o_new_dt := Some 0.5%float; o_start := None; o_end := Some 2%float; o_hold := ["road_type"%string];
       o_hold_next := []; o_rate := [] |}
  = Ok [("time_s", Arr [0; 0.5; 1; 1.5; 2]); ("mps", Arr [0; 1; 2; 3; 4]);
        ("road_type", Arr [5; 5; 6; 6; 7])]%float%string.
Proof. vm_compute; reflexivity. Qed.
Example C06_case : exists d', resample (dict_of_cyc demo0) (no_opts (F := R)) = Ok d'.
Proof.
  destruct (C06_succeeds (dict_of_cyc demo0) no_opts (time_s demo0) eq_refl) as (d' & H & _);
    [cbn; lia| | | |]; try reflexivity. eauto.
Qed.

(** ** C07 *)
Theorem C07_rate_distance : forall (d : pdict R) o d' (ts vs new_t : list R) k g w,
  resample d o = Ok d' -> dget d "time_s" = Some (Arr ts) -> ts <> [] -> increasing ts ->
  0 < want_dt o ts -> 0 <= want_start o ->
  dget d' "time_s" = Some (Arr new_t) -> (2 <= length new_t)%nat ->
  k <> "time_s"%string -> dget d k = Some (Arr vs) -> length vs = length ts ->
  In k (o_rate o) -> ~ In k (o_hold o) -> ~ In k (o_hold_next o) ->
  exists vs' D0 D1, dget d' k = Some (Arr vs') /\ length vs' = length new_t /\
    on_polyline ts (cumulative_distance (mkcyc ts vs g w)) (hd 0 new_t) D0 /\
    on_polyline ts (cumulative_distance (mkcyc ts vs g w)) (last new_t 0) D1 /\
    trapezoid (mkcyc new_t vs' g w) 0 (length new_t - 1) = D1 - D0.
Proof. exact resample_rate_preserves. Qed.
Example C07_run :
  resample [("time_s", Arr [0; 1; 2; 4]); ("mps", Arr [0; 2; 4; 0])]%float%string
    {| o_new_dt := Some 2%float; o_start := None; o_end := None; o_hold := [];
       o_hold_next := []; o_rate := ["mps"%string] |}
  = Ok [("time_s", Arr [0; 2; 4]); ("mps", Arr [2; 2; 2])]%float%string
  (* 8 m in both *).
Proof. vm_compute; reflexivity. Qed.

(** ** C08 *)
Theorem C08_start_distance : forall (c : cyc R) i,
  length (mps c) = length (time_s c) -> (i <= length (time_s c))%nat ->
  trapz_step_start_distance c i = Ok (trapezoid c 0 (i - 1)).
Proof. exact start_distance. Qed.
Theorem C08_step_distance : forall (c : cyc R) i,
  length (mps c) = length (time_s c) -> (1 <= i)%nat -> (i < length (time_s c))%nat ->
  trapz_distance_for_step c i = Ok (trapezoid c (i - 1) 1).
Proof. exact step_distance. Qed.
Theorem C08_step_distances : forall (c : cyc R) i,
  length (mps c) = length (time_s c) -> (i < length (time_s c))%nat ->
  nth_error (trapz_step_distances c) i
  = Some (match i with O => 0 | S j => trapezoid c j 1 end).
Proof.
  intros c i Hw Hi.
  rewrite (nth_error_nth' _ 0) by (rewrite step_dist_length; [assumption|assumption|destruct (time_s c); cbn in *; [lia|discriminate]]).
  rewrite step_dist_nth by assumption. destruct i; [reflexivity|]. cbn [trapezoid]. unfold seg. f_equal. lra.
Qed.
Theorem C08_range_distance : forall (c : cyc R) i j,
  length (mps c) = length (time_s c) -> (1 <= i <= j)%nat -> (j <= length (time_s c))%nat ->
  trapz_distance_over_range c i j = trapezoid c (i - 1) (j - i).
Proof. exact range_distance. Qed.
Theorem C08_additive : forall (c : cyc R) j m n,
  trapezoid c j (m + n) = trapezoid c j m + trapezoid c (j + m) n.
Proof. exact trapezoid_add. Qed.
(** Start distance of step i+1 = start distance of step i + distance of step i. *)
Theorem C08_next_start : forall (c : cyc R) i,
  length (mps c) = length (time_s c) -> (1 <= i)%nat -> (i < length (time_s c))%nat ->
  exists a b, trapz_step_start_distance c i = Ok a /\ trapz_distance_for_step c i = Ok b /\
    trapz_step_start_distance c (S i) = Ok (a + b).
Proof.
  intros c i Hw H1 H2. exists (trapezoid c 0 (i - 1)), (trapezoid c (i - 1) 1).
  rewrite start_distance by (try assumption; lia). rewrite step_distance by assumption.
  rewrite start_distance by (try assumption; lia). repeat split.
  replace (S i - 1)%nat with ((i - 1) + 1)%nat by lia. now rewrite trapezoid_add.
Qed.
(** The range distance is the difference of the start distances. *)
Theorem C08_range_difference : forall (c : cyc R) i j,
  length (mps c) = length (time_s c) -> (1 <= i <= j)%nat -> (j <= length (time_s c))%nat ->
  exists a b, trapz_step_start_distance c i = Ok a /\ trapz_step_start_distance c j = Ok b /\
    trapz_distance_over_range c i j = b - a.
Proof.
  intros c i j Hw H1 H2. exists (trapezoid c 0 (i - 1)), (trapezoid c 0 (j - 1)).
  rewrite !start_distance by (try assumption; lia). rewrite range_distance by assumption.
  repeat split. replace (j - 1)%nat with ((i - 1) + (j - i))%nat by lia. rewrite trapezoid_add. cbn [plus]. lra.
Qed.
Theorem C08_monotone : forall (c : cyc R) i j,
  nondecreasing (time_s c) -> nonneg (mps c) -> length (mps c) = length (time_s c) ->
  (i <= j)%nat -> (j < length (time_s c))%nat -> trapezoid c 0 i <= trapezoid c 0 j.
Proof. exact trapezoid_mono. Qed.
Example C08_run : trapz_step_start_distance demoF 3 = Ok 4%float /\
  trapz_distance_for_step demoF 3 = Ok 2%float /\ trapz_step_start_distance demoF 4 = Ok 6%float /\
  trapz_distance_over_range demoF 2 4 = 5%float.
Proof. repeat split; vm_compute; reflexivity. Qed.
Example C08_case : trapz_step_start_distance demo 3 = Ok 4.
Proof. rewrite C08_start_distance by (cbn; lia). cbn. f_equal. lra. Qed.

(** ** C09 *)
Theorem C09_agree : forall (c : cyc R) i x,
  nth_error (dt_s c) i = Some x -> (1 <= i)%nat -> dt_s_at_i c i = Ok x.
Proof. exact dt_views. Qed.
Theorem C09_first : forall (c : cyc R) t, hd_error (time_s c) = Some t ->
  nth_error (dt_s c) 0 = Some t /\ dt_s_at_i c 0 = Ok 0.
Proof. exact dt_views_first. Qed.
Theorem C09_first_agrees_iff : forall (c : cyc R) t, hd_error (time_s c) = Some t ->
  ((exists x, nth_error (dt_s c) 0 = Some x /\ dt_s_at_i c 0 = Ok x) <-> t = 0).
Proof.
  intros c t H. destruct (dt_views_first c t H) as [H1 H2]. rewrite H1, H2. split.
  - intros (x & [= ->] & [= E]). congruence.
  - intros ->. exists 0. split; reflexivity.
Qed.
Theorem C09_length : forall (F : Type) (N : Num F) (c : cyc F), length (dt_s c) = length (time_s c).
Proof. exact @dt_s_length. Qed.
Theorem C09_sum : forall c : cyc R, fold_right Rplus 0 (dt_s c) = end_time c.
Proof. exact dt_s_sum. Qed.
Theorem C09_past_end : forall (c : cyc R) i, (1 <= i)%nat -> (length (time_s c) <= i)%nat ->
  dt_s_at_i c i = Err IndexError.
Proof. exact dt_s_at_i_past. Qed.
Example C09_run : dt_s demoF = [10; 1; 1; 1; 1; 1]%float /\ dt_s_at_i demoF 0 = Ok 0%float /\
  dt_s_at_i demoF 2 = Ok 1%float.
Proof. repeat split; vm_compute; reflexivity. Qed.

(** ** C10 *)
Theorem C10_next_stop : forall (c : cyc R) k d i v,
  cached_or_not c k -> length (mps c) = length (time_s c) ->
  nth_error (mps c) i = Some v -> v <= 1 / 1000000 -> d < trapezoid c 0 i ->
  (forall j u, (j < i)%nat -> nth_error (mps c) j = Some u -> u <= 1 / 1000000 -> trapezoid c 0 j <= d) ->
  calc_distance_to_next_stop_from c d k = Ok (trapezoid c 0 i - d).
Proof. exact next_stop_found. Qed.
Theorem C10_no_stop : forall (c : cyc R) k d,
  cached_or_not c k -> length (mps c) = length (time_s c) -> time_s c <> [] ->
  (forall j u, nth_error (mps c) j = Some u -> u <= 1 / 1000000 -> trapezoid c 0 j <= d) ->
  calc_distance_to_next_stop_from c d k = Ok (- d).
Proof. exact next_stop_none. Qed.
Example C10_run : calc_distance_to_next_stop_from demoF 1%float None = Ok 5%float /\
  calc_distance_to_next_stop_from demoF 6%float (Some (build_cache demoF)) = Ok 3%float /\
  calc_distance_to_next_stop_from demoF 9%float None = Ok (-9)%float.
Proof. repeat split; vm_compute; reflexivity. Qed.

(** ** C11 *)
Theorem C11_averages : forall (c : cyc R) dist delta,
  wf c -> time_s c <> [] -> nondecreasing (time_s c) -> nonneg (mps c) -> 1 / 1000000 < delta ->
  average_grade_over_range c dist delta (Some (build_cache c)) = average_grade_over_range c dist delta None.
Proof. exact cache_averages. Qed.
Theorem C11_points : forall (c : cyc R) dist delta,
  wf c -> time_s c <> [] -> increasing (cumulative_distance c) -> delta <= 1 / 1000000 ->
  average_grade_over_range c dist delta (Some (build_cache c)) = average_grade_over_range c dist delta None.
Proof. exact cache_points. Qed.
(** With a stop in the cycle the cached point look-up can differ. *)
Theorem C11_point_lookup_refuted : exists (c : cyc R) dist,
  wf c /\ increasing (time_s c) /\ nonneg (mps c) /\
  exists a b, average_grade_over_range c dist 0 None = Ok a /\
    average_grade_over_range c dist 0 (Some (build_cache c)) = Ok b /\ a <> b.
Proof.
  exists stopgo, 1. split; [repeat split|]. split; [unfold stopgo; cbn; sorted|]. split.
  { intros x Hx. cbn in Hx. repeat (destruct Hx as [<-|Hx]; [lra|]). destruct Hx. }
  exists (4 / 100), (2 / 100). split; [exact stopgo_uncached|]. split; [exact stopgo_cached|]. lra.
Qed.
Example C11_run :
  let c := mkcyc [0; 1; 2; 3]%float [0; 0; 0; 20]%float [0.01; 0.02; 0.03; 0.04]%float [0; 0; 0; 0]%float in
  average_grade_over_range c 1%float 0%float None = Ok 0.04%float /\
  average_grade_over_range c 1%float 0%float (Some (build_cache c)) = Ok 0.02%float.
Proof. split; vm_compute; reflexivity. Qed.

(** ** C12 *)
Theorem C12_constant_grade : forall (c : cyc R) g dist delta k,
  cached_or_not c k ->
  wf c -> time_s c <> [] -> nondecreasing (time_s c) -> nonneg (mps c) ->
  (forall x, In x (grade c) -> x = g) ->
  0 <= dist -> 1 / 1000000 < delta -> dist + delta <= trapezoid c 0 (length (time_s c) - 1) ->
  average_grade_over_range c dist delta k = Ok g.
Proof. exact constant_grade_average. Qed.
Theorem C12_zero_grade : forall (F : Type) (N : Num F) (c : cyc F) dist delta k,
  all_zero (grade c) = true -> k = None \/ k = Some (build_cache c) ->
  average_grade_over_range c dist delta k = Ok n0.
Proof. exact @zero_grade_average. Qed.
Theorem C12_constant_grade_point : forall (c : cyc R) g dist delta,
  wf c -> time_s c <> [] -> (forall x, In x (grade c) -> x = g) -> delta <= 1 / 1000000 ->
  average_grade_over_range c dist delta None = Ok g.
Proof. exact constant_grade_point. Qed.
Definition hill : cyc R := mkcyc [0; 1; 2; 3] [0; 10; 10; 0] [3/100; 3/100; 3/100; 3/100] [0; 0; 0; 0].
Example C12_case : average_grade_over_range hill 2 15 (Some (build_cache hill)) = Ok (3/100).
Proof.
  apply C12_constant_grade; [now right|repeat split|discriminate| | | |lra|lra|cbn; lra].
  - apply inc_nondec. unfold hill; cbn; sorted.
  - intros x Hx. cbn in Hx. repeat (destruct Hx as [<-|Hx]; [lra|]). destruct Hx.
  - intros x Hx. cbn in Hx. repeat (destruct Hx as [<-|Hx]; [lra|]). destruct Hx.
Qed.

(** ** C13 *)
Theorem C13_rendezvous : forall (n : Z) (D0 v0 Dr vr dt : R),
  (1 < n)%Z -> D0 < Dr -> dt <> 0 -> dt <> (IZR n + 4) / 3 ->
  exists k a0, calc_constant_jerk_trajectory n D0 v0 Dr vr dt = Ok (k, a0) /\
    speed_for_constant_jerk n v0 a0 k dt = vr /\ dist_for_constant_jerk n D0 v0 a0 k dt = Dr.
Proof. exact jerk_rendezvous. Qed.
Theorem C13_singular : forall (n : Z) (D0 v0 Dr vr dt : R),
  (1 < n)%Z -> D0 < Dr -> dt = 0 \/ dt = (IZR n + 4) / 3 ->
  calc_constant_jerk_trajectory n D0 v0 Dr vr dt = Err ZeroDivisionError.
Proof. exact jerk_singular. Qed.
Theorem C13_bad_plan : forall (F : Type) (N : Num F) (n : Z) (D0 v0 Dr vr dt : F),
  (n <= 1)%Z \/ nltb D0 Dr = false ->
  calc_constant_jerk_trajectory n D0 v0 Dr vr dt = Err AssertionError.
Proof. exact @jerk_bad_plan. Qed.
Theorem C13_unit_step : forall (j : Z) (d0 v0 a0 k : R),
  speed_for_constant_jerk 0 v0 a0 k 1 = v0 /\ dist_for_constant_jerk 0 d0 v0 a0 k 1 = d0 /\
  accel_for_constant_jerk 0 a0 k 1 = a0 /\
  accel_for_constant_jerk (j + 1) a0 k 1 = accel_for_constant_jerk j a0 k 1 + k * 1 /\
  speed_for_constant_jerk (j + 1) v0 a0 k 1
    = speed_for_constant_jerk j v0 a0 k 1 + accel_for_constant_jerk j a0 k 1 * 1 /\
  dist_for_constant_jerk (j + 1) d0 v0 a0 k 1
    = dist_for_constant_jerk j d0 v0 a0 k 1
      + (speed_for_constant_jerk j v0 a0 k 1 + speed_for_constant_jerk (j + 1) v0 a0 k 1) / 2 * 1.
Proof.
  intros j d0 v0 a0 k. destruct (jerk_unit_step j d0 v0 a0 k) as (H1 & H2 & H3 & H4).
  split; [assumption|]. split; [assumption|]. split; [|split; [|split; assumption]].
  - unfold accel_for_constant_jerk; unR. lra.
  - unfold accel_for_constant_jerk; unR. rewrite plus_IZR. lra.
Qed.
(** For a step other than 1 s stepping the acceleration does not give the speed formula. *)
Theorem C13_other_step_refuted : forall dt : R,
  dt <> 0 -> dt <> 1 -> exists j v0 a0 k,
  speed_for_constant_jerk (j + 1) v0 a0 k dt
    <> speed_for_constant_jerk j v0 a0 k dt + accel_for_constant_jerk j a0 k dt * dt.
Proof. exact jerk_other_step. Qed.
Example C13_case : exists k a0, calc_constant_jerk_trajectory 10 0 8 100 2 1 = Ok (k, a0) /\
  speed_for_constant_jerk 10 8 a0 k 1 = 2 /\ dist_for_constant_jerk 10 0 8 a0 k 1 = 100.
Proof. apply C13_rendezvous; [lia|lra|lra|lra]. Qed.

(** ** C14 *)
Theorem C14_jerk_edit : forall (c c' : cyc R) idx n k a0 v v0,
  modify_by_const_jerk_trajectory c idx n k a0 = Ok (c', v) ->
  length (mps c) = length (time_s c) -> (1 <= idx)%nat -> (0 <= n)%Z ->
  nth_error (mps c) (idx - 1) = Some v0 ->
  time_s c' = time_s c /\ grade c' = grade c /\ road_type c' = road_type c /\
  length (mps c') = length (mps c) /\
  (forall p, (p < idx)%nat \/ (Z.of_nat idx + n <= Z.of_nat p)%Z -> nth_error (mps c') p = nth_error (mps c) p) /\
  (forall j, (1 <= Z.of_nat j <= n)%Z -> (idx + j - 1 < length (mps c))%nat ->
     nth_error (mps c') (idx + j - 1) =
     Some (Rmax 0 (v0 + INR j * a0 * (nth idx (time_s c) 0 - nth (idx - 1) (time_s c) 0)
                   + INR j * (INR j - 1) / 2 * k * (nth idx (time_s c) 0 - nth (idx - 1) (time_s c) 0)))) /\
  ((1 <= n)%Z -> (Z.of_nat idx + n <= Z.of_nat (length (mps c)))%Z ->
     v = speed_for_constant_jerk n v0 a0 k (nth idx (time_s c) 0 - nth (idx - 1) (time_s c) 0)).
Proof. exact jerk_edit. Qed.
Theorem C14_braking_edit : forall (c c' : cyc R) brake i dts v n v0,
  modify_with_braking_trajectory c brake i dts = Ok (c', v, n) ->
  length (mps c) = length (time_s c) -> (1 <= i)%nat -> (i < length (time_s c))%nat ->
  nth_error (mps c) (i - 1) = Some v0 ->
  brake < 0 /\
  time_s c' = time_s c /\ grade c' = grade c /\ road_type c' = road_type c /\
  length (mps c') = length (mps c) /\
  (forall p, (p < i)%nat \/ (Z.of_nat i + n <= Z.of_nat p)%Z -> nth_error (mps c') p = nth_error (mps c) p) /\
  (forall p u, (i <= p)%nat -> (Z.of_nat p < Z.of_nat i + n)%Z -> nth_error (mps c') p = Some u -> 0 <= u) /\
  (n = 0%Z /\ c' = c \/
   (2 <= n)%Z /\ n = Z.max 2 (nround (- v0 / brake / (nth i (time_s c) 0 - nth (i - 1) (time_s c) 0))) /\
   ((Z.of_nat i + n <= Z.of_nat (length (mps c)))%Z ->
    nth_error (mps c') (Z.to_nat (Z.of_nat i + n - 1)) = Some 0 /\ v = 0)).
Proof. exact braking_edit. Qed.
(** The model's rounding is rounding to the nearest integer, ties to even. *)
Theorem C14_rounding : forall x : R, nearest_even x (nround x).
Proof. exact nround_nearest. Qed.
Theorem C14_braking_rejects : forall (c : cyc R) brake i dts,
  0 <= brake -> modify_with_braking_trajectory c brake i dts = Err AssertionError.
Proof. exact braking_rejects. Qed.
Theorem C14_braking_past_end : forall (c : cyc R) brake i dts v r,
  brake < 0 -> (length (time_s c) <= i)%nat -> mps c = v :: r ->
  modify_with_braking_trajectory c brake i dts = Ok (c, last (v :: r) v, 0%Z).
Proof. exact braking_past_end. Qed.
Example C14_run :
  let c := mkcyc [0; 1; 2; 3; 4; 5]%float [8; 8; 8; 8; 8; 8]%float [0; 0; 0; 0; 0; 0]%float [0; 0; 0; 0; 0; 0]%float in
  match modify_with_braking_trajectory c (-2)%float 1 None with
  | Ok (c', v, n) => (Z.eqb n 4 && PrimFloat.eqb v 0 && PrimFloat.eqb (nth 1 (mps c') 0%float) 6
                      && PrimFloat.eqb (nth 4 (mps c') 1%float) 0 && PrimFloat.eqb (nth 5 (mps c') 0%float) 8)%bool = true
  | Err _ => False
  end.
Proof. vm_compute. reflexivity. Qed.

(** ** C15 *)
Theorem C15_detect_passing : forall (c c0 : cyc R) i tol,
  length (mps c) = length (time_s c) -> length (mps c0) = length (time_s c0) ->
  length (time_s c0) = length (time_s c) -> (i < length (time_s c))%nat -> (1 <= i)%nat ->
  (exists idx, first_overtake c c0 i tol idx /\
     detect_passing c c0 i tol = Ok
       {| has_collision := Rltb (trapezoid c 0 (i - 1)) (trapezoid c0 0 idx);
          pi_idx := idx; num_steps := S (idx - i);
          start_distance_m := trapezoid c 0 (i - 1); distance_m := trapezoid c0 0 idx;
          start_speed := nth (i - 1) (mps c) 0; pi_speed := nth idx (mps c0) 0;
          time_step_duration := nth i (time_s c) 0 - nth (i - 1) (time_s c) 0 |}) \/
  (~ (exists idx, first_overtake c c0 i tol idx) /\
     detect_passing c c0 i tol = Ok
       {| has_collision := false; pi_idx := 0; num_steps := 0;
          start_distance_m := trapezoid c 0 (i - 1); distance_m := 0;
          start_speed := nth (i - 1) (mps c) 0; pi_speed := 0;
          time_step_duration := nth i (time_s c) 0 - nth (i - 1) (time_s c) 0 |}).
Proof. intros c c0 i tol Hw Hw0 Hlen Hi H1. exact (detect_passing_spec c c0 i tol Hw Hw0 Hlen Hi H1). Qed.
Theorem C15_past_end : forall (c c0 : cyc R) i tol, (length (time_s c) <= i)%nat ->
  detect_passing c c0 i tol = Ok
    {| has_collision := false; pi_idx := 0; num_steps := 0; start_distance_m := 0; distance_m := 0;
       start_speed := 0; pi_speed := 0; time_step_duration := 1 |}.
Proof. intros c c0 i tol L. unfold detect_passing. destruct (Nat.leb_spec (length (time_s c)) i); [reflexivity|lia]. Qed.
Example C15_run :
  let z := [0; 0; 0; 0]%float in
  detect_passing (mkcyc [0; 1; 2; 3]%float [4; 4; 4; 4]%float z z)
                 (mkcyc [0; 1; 2; 3]%float [4; 4; 2; 0]%float z z) 1 0.1%float
  = Ok (mkPassing true 2 2 0%float 7%float 4%float 2%float 1%float) /\
  (* level throughout; and standing behind the start *)
  detect_passing (mkcyc [0; 1; 2; 3]%float [4; 4; 4; 4]%float z z)
                 (mkcyc [0; 1; 2; 3]%float [4; 4; 4; 4]%float z z) 2 0.1%float
  = Ok (mkPassing false 0 0 4%float 0%float 4%float 0%float 1%float) /\
  detect_passing (mkcyc [0; 1; 2; 3]%float [4; 4; 4; 4]%float z z)
                 (mkcyc [0; 1; 2; 3]%float [0; 0; 0; 0]%float z z) 2 0.1%float
  = Ok (mkPassing false 3 2 4%float 0%float 4%float 0%float 1%float).
Proof. vm_compute. repeat split. Qed.

(** ** C16 *)
Theorem C16_extend : forall (c : cyc R) nm absolute fraction extra,
  wf c -> time_s c <> [] ->
  nearest_even (fraction * end_time c) extra -> 0 <= absolute + IZR extra ->
  exists n,
    INR n < absolute + IZR extra + 1 / 10 <= INR n + 1 /\
    extend_cycle (mkCycle c nm) absolute fraction =
    Ok (mkCycle (mkcyc (time_s c ++ map (fun k => end_time c + INR k) (seq 1 n))
                       (mps c ++ repeat 0 n) (grade c ++ repeat 0 n) (road_type c ++ repeat 0 n)) "").
Proof.
  intros c nm a f e Hw Hne He Hpos.
  assert (E : nround (f * end_time c) = e) by (eapply nearest_even_unique; [apply nround_nearest|exact He]).
  subst e. exact (extend_cycle_exact c nm a f Hw Hne Hpos).
Qed.
Example C16_run : extend_cycle (mkCycle demoF "demo") 2%float 0.1%float =
  Ok (mkCycle (mkcyc [10; 11; 12; 13; 14; 15; 16; 17; 18; 19]%float [0; 2; 4; 0; 3; 0; 0; 0; 0; 0]%float
                     [0; 0.01; 0; 0; 0.02; 0; 0; 0; 0; 0]%float [0; 0; 1; 1; 0; 0; 0; 0; 0; 0]%float) "").
Proof. vm_compute. reflexivity. Qed.

(** ** C17 *)
Theorem C17_table : forall (c : cyc R) blend min,
  wf c -> nondecreasing (time_s c) -> nonneg (mps c) ->
  let P := filter (fun m => if Rlt_dec 0 (trip_length m) then true else false)
                  (to_microtrips c (1 / 1000000)) in
  let table := create_dist_and_target_speeds_by_microtrip c blend min in
  length table = length P /\
  forall j m, nth_error P j = Some m ->
    nth_error table j = Some (fold_right Rplus 0 (map trip_length (firstn j P)),
                              Rmax (blended_speed (Rmax 0 (Rmin 1 blend)) m) min).
Proof. exact target_table_exact. Qed.
Theorem C17_order : forall (c : cyc R) blend min,
  wf c -> nondecreasing (time_s c) -> nonneg (mps c) ->
  let table := create_dist_and_target_speeds_by_microtrip c blend min in
  (forall d v, hd_error table = Some (d, v) -> d = 0) /\
  increasing (map fst table) /\
  (forall d v, In (d, v) table -> min <= v).
Proof. exact target_table_order. Qed.
Example C17_run : create_dist_and_target_speeds_by_microtrip demoF 0%float 1.75%float
  = [(0, 2); (6, 1.75)]%float.
Proof. vm_compute. reflexivity. Qed.
Example C17_case : increasing (map fst (create_dist_and_target_speeds_by_microtrip demo0 (1/2) 1)).
Proof. exact (proj1 (proj2 (C17_order demo0 (1/2) 1 demo0_wf (inc_nondec _ demo0_inc) demo0_nonneg))). Qed.

(** ** C18 *)
Theorem C18_dict_round_trip : forall (F : Type) (N : Num F) (c : Cycle F), from_dict (to_dict c) = Ok c.
Proof. exact @dict_round_trip. Qed.
Theorem C18_old_keys : forall (F : Type) (N : Num F) (c : Cycle F), from_dict (old_style_dict c) = Ok c.
Proof. exact @old_dict_round_trip. Qed.
Theorem C18_legacy_and_back : forall (F : Type) (N : Num F) (c : Cycle F),
  LegacyCycle (to_dict c) = Ok (old_style_dict c) /\ from_dict (old_style_dict c) = Ok c.
Proof. intros F N [[t v g w] n]. split; reflexivity. Qed.
Theorem C18_copy : forall (F : Type) (N : Num F) (c : Cycle F),
  copy_cycle c None = Ok (AsCycle c) /\ copy_cycle c (Some "python"%string) = Ok (AsCycle c) /\
  copy_cycle c (Some "dict"%string) = Ok (AsDict (to_dict c)).
Proof. exact @copy_python. Qed.
Theorem C18_copy_legacy_fails : forall (F : Type) (N : Num F) (c : Cycle F),
  copy_cycle c (Some "legacy"%string) = Err AttributeError.
Proof. exact @copy_legacy_fails. Qed.
Theorem C18_copy_unknown_fails : forall (F : Type) (N : Num F) (c : Cycle F) s,
  ~ In s ["dict"; "python"; "legacy"; "rust"]%string -> copy_cycle c (Some s) = Err ValueError.
Proof. exact @copy_unknown_fails. Qed.
Theorem C18_rename_bijection :
  NoDup (map fst OLD_TO_NEW) /\ NoDup (map snd OLD_TO_NEW) /\
  (forall o n, dget OLD_TO_NEW o = Some n <-> dget NEW_TO_OLD n = Some o).
Proof. exact rename_bijection. Qed.
Theorem C18_defaults : forall (F : Type) (N : Num F) (t v : list F),
  from_dict [("time_s", Arr t); ("mps", Arr v)]%string
  = Ok (mkCycle (mkcyc t v (repeat n0 (length t)) (repeat n0 (length t))) "").
Proof. exact @minimal_dict. Qed.
Theorem C18_missing_arrays : forall (F : Type) (N : Num F) (l : list F),
  from_dict [("mps", Arr l)]%string = Err KeyError /\ from_dict [("time_s", Arr l)]%string = Err TypeError.
Proof. intros F N l. split; reflexivity. Qed.
Theorem C18_unknown_key : forall (F : Type) (N : Num F) (d : pdict F) k t,
  In k (dkeys d) -> dget OLD_TO_NEW k = None -> ~ In k STANDARD_CYCLE_KEYS ->
  dget (renamed d) "time_s"%string = Some t -> from_dict d = Err AssertionError.
Proof. exact @unknown_key_rejected. Qed.
Theorem C18_make_cycle : forall (F : Type) (N : Num F) (t v g w : list F),
  length v = length t -> length g = length t -> length w = length t ->
  make_cycle t v (Some g) (Some w) = Ok (mkcyc t v g w) /\
  make_cycle t v None None = Ok (mkcyc t v (repeat n0 (length t)) (repeat n0 (length t))).
Proof. exact @make_cycle_ok. Qed.
Theorem C18_make_cycle_rejects : forall (F : Type) (N : Num F) (t v : list F) g w,
  length v <> length t \/ (exists x, g = Some x /\ length x <> length t) \/
    (exists x, w = Some x /\ length x <> length t) ->
  make_cycle t v g w = Err AssertionError.
Proof. exact @make_cycle_rejects. Qed.
Example C18_run : from_dict [("cycMps", Arr [1; 2]); ("name", Str "x"); ("cycSecs", Arr [0; 1])]%float%string
  = Ok (mkCycle (mkcyc [0; 1] [1; 2] [0; 0] [0; 0])%float "x").
Proof. vm_compute. reflexivity. Qed.
Example C18_run_unknown :
  from_dict [("time_s", Arr [0; 1]); ("mps", Arr [1; 2]); ("extra", Arr [])]%float%string = Err AssertionError.
Proof. vm_compute. reflexivity. Qed.

(** ** C19 *)
Theorem C19_equals : forall d1 d2 : pdict R, equals d1 d2 = true <-> forall k, dget d1 k = dget d2 k.
Proof. exact equals_iff. Qed.
Theorem C19_equivalence : forall d1 d2 d3 : pdict R,
  equals d1 d1 = true /\ equals d1 d2 = equals d2 d1 /\
  (equals d1 d2 = true -> equals d2 d3 = true -> equals d1 d3 = true).
Proof.
  intros d1 d2 d3. split; [now apply equals_iff|]. split.
  - destruct (equals d1 d2) eqn:E1, (equals d2 d1) eqn:E2; try reflexivity; exfalso.
    + rewrite equals_iff in E1. assert (equals d2 d1 = true); [|congruence].
      apply equals_iff. intros k. now rewrite E1.
    + rewrite equals_iff in E2. assert (equals d1 d2 = true); [|congruence].
      apply equals_iff. intros k. now rewrite E2.
  - rewrite !equals_iff. intros H1 H2 k. now rewrite H1, H2.
Qed.
Theorem C19_cyc_equal : forall a b : Cycle R, cyc_equal a b = true <-> a = b.
Proof. exact cyc_equal_iff. Qed.
Theorem C19_copy_equal : forall (a b : Cycle R), copy_cycle a None = Ok (AsCycle b) -> cyc_equal a b = true.
Proof. intros a b H. rewrite (proj1 (copy_python a)) in H. injection H as <-. now apply cyc_equal_iff. Qed.
(** In binary64 a cycle with a NaN sample is not equal to its own copy. *)
Theorem C19_nan_refuted : exists a b : Cycle float,
  copy_cycle a None = Ok (AsCycle b) /\ cyc_equal a b = false.
Proof.
  exists (mkCycle (mkcyc [0; 1] [0; nan] [0; 0] [0; 0])%float "n").
  eexists. split; [reflexivity|]. vm_compute. reflexivity.
Qed.
Example C19_run : equals [("a", Arr [1; 2]); ("b", Str "x")]%float%string
                         [("b", Str "x"); ("a", Arr [1; 2])]%float%string = true /\
  equals [("a", Arr [1; 2])]%float%string [("a", Arr [1; 3])]%float%string = false /\
  equals [("a", Arr [1; 2])]%float%string [("a", Arr [1; 2]); ("b", Str "x")]%float%string = false.
Proof. repeat split; vm_compute; reflexivity. Qed.
