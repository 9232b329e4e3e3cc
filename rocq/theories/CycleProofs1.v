(** Cycle-level proofs of C02 (shape of microtrips), C04 and C05 (clipping). *)
From Coq Require Import Sorting.Sorted.
From Verif Require Import Num Numpy ListFacts CycleModel CycleSpec MicrotripProofs ConcatProofs.
Local Open Scope R_scope.

Section Generic.
  Context {F : Type} {N : Num F}.

  Lemma nth_error_map_inv {A B} (f : A -> B) l j b :
    nth_error (map f l) j = Some b -> exists a, nth_error l j = Some a /\ b = f a.
  Proof.
    rewrite nth_error_map. destruct (nth_error l j) as [a|]; cbn; [|discriminate].
    intros [= <-]. eauto.
  Qed.
  Lemma mt_raw_lengths stop rest : forall (mt : list (sample F)) moving,
    (2 <= length mt)%nat -> Forall (fun m => (2 <= length m)%nat) (mt_raw stop mt moving rest).
  Proof.
    induction rest as [|s rest IH]; intros mt moving H; cbn [mt_raw].
    - destruct mt; constructor; [assumption|constructor].
    - destruct (_ && _ && _)%bool.
      + constructor; [assumption|]. apply IH. cbn; lia.
      + apply IH. rewrite app_length. cbn; lia.
  Qed.
  Lemma rebase_length (m : list (sample F)) : length (rebase_samples m) = length m.
  Proof. destruct m; [reflexivity|]. unfold rebase_samples. now rewrite map_length. Qed.

  Lemma to_microtrips_nth (c : cyc F) stop j m :
    nth_error (to_microtrips c stop) j = Some m ->
    exists raw, nth_error (mt_raw stop [] false (samples c)) j = Some raw /\ m = of_samples (rebase_samples raw).
  Proof.
    unfold to_microtrips. rewrite mt_scan_raw, map_map. apply nth_error_map_inv.
  Qed.

  (** Every microtrip: nonempty, well-formed, starting at its own zero, no late start. *)
  Theorem microtrip_shape (c : cyc F) stop j m :
    nth_error (to_microtrips c stop) j = Some m ->
    wf m /\ time_s m <> [] /\ (exists t, hd_error (time_s m) = Some (nsub t t)) /\
    (forall k a b, (1 <= k)%nat -> nth_error (mps m) k = Some a -> nth_error (mps m) (S k) = Some b ->
                   is_moving stop b -> is_moving stop a).
  Proof.
    intros Hm. apply to_microtrips_nth in Hm as (raw & Hraw & ->).
    destruct (mts_ok_nth stop _ None (mt_raw_all_ok (samples c) stop) j raw Hraw) as (Hne & Hnl & _).
    destruct raw as [|s raw]; [congruence|].
    unfold of_samples, wf; cbn [time_s mps grade road_type].
    split; [rewrite !map_length; auto|]. split; [discriminate|].
    split; [exists (s_t s); reflexivity|].
    rewrite (proj1 (rebase_samples_fields (s :: raw))).
    intros k a b Hk Ha Hb Hmv. unfold is_moving in *.
    destruct (nltb stop a) eqn:E; [reflexivity|]. exfalso.
    exact (Hnl k a b Hk Ha Hb (conj E Hmv)).
  Qed.

  (** Consecutive microtrips share a stopped sample, followed by a moving one. *)
  Theorem microtrip_joints (c : cyc F) stop j m m' :
    nth_error (to_microtrips c stop) j = Some m ->
    nth_error (to_microtrips c stop) (S j) = Some m' ->
    exists a b r g gr w wr,
      mps m' = a :: b :: r /\ grade m' = g :: gr /\ road_type m' = w :: wr /\
      (forall d, last (mps m) d = a) /\ (forall d, last (grade m) d = g) /\
      (forall d, last (road_type m) d = w) /\
      ~ is_moving stop a /\ is_moving stop b.
  Proof.
    intros Hm Hm'. apply to_microtrips_nth in Hm as (raw & Hraw & ->).
    apply to_microtrips_nth in Hm' as (raw' & Hraw' & ->).
    destruct (mts_ok_nth stop _ None (mt_raw_all_ok (samples c) stop) j raw Hraw) as (Hne & _ & Hs).
    destruct raw as [|s0 raw]; [congruence|].
    destruct (Hs raw' Hraw' s0) as (s & r & -> & H1 & H2).
    unfold of_samples; cbn [time_s mps grade road_type].
    destruct (rebase_samples_fields (s0 :: raw)) as (E1 & E2 & E3).
    set (p := last (s0 :: raw) s0) in *.
    destruct (rebase_samples_fields (p :: s :: r)) as (E4 & E5 & E6).
    rewrite E1, E2, E3, E4, E5, E6. cbn [map].
    exists (s_v p), (s_v s), (map s_v r), (s_g p), (s_g s :: map s_g r), (s_r p), (s_r s :: map s_r r).
    assert (HL : forall f : sample F -> F, forall d, last (f s0 :: map f raw) d = f p).
    { intros f d. rewrite (last_default (f s0) (map f raw) d (f s0)).
      exact (last_map f s0 raw s0). }
    repeat split; try (intros; apply HL); [|exact H2].
    unfold is_moving. rewrite H1. discriminate.
  Qed.

  Theorem microtrip_two_samples (c : cyc F) stop j m :
    wf c -> (2 <= length (time_s c))%nat ->
    nth_error (to_microtrips c stop) j = Some m -> (2 <= length (time_s m))%nat.
  Proof.
    intros Hwf Hlen Hm. apply to_microtrips_nth in Hm as (raw & Hraw & ->).
    unfold of_samples; cbn [time_s]. rewrite map_length, rebase_length.
    rewrite <- (of_samples_samples c Hwf) in Hlen. cbn [time_s of_samples] in Hlen.
    rewrite map_length in Hlen.
    destruct (samples c) as [|s [|s' l]]; cbn [length] in Hlen; try lia.
    cbn [mt_raw length Nat.ltb Nat.leb] in Hraw. rewrite !andb_false_r in Hraw.
    cbn [app] in Hraw. apply nth_error_In in Hraw.
    assert (HF := mt_raw_lengths stop l [s; s'] (nltb stop (s_v s')) ltac:(cbn; lia)).
    rewrite Forall_forall in HF. apply HF. exact Hraw.
  Qed.
End Generic.

(** ** Clipping *)
Lemma mask_in_window {A} (ts : list R) lo hi (l : list A) :
  mask_list (time_mask ts lo hi) l = in_window lo hi ts l.
Proof.
  revert l; induction ts as [|t ts IH]; intros l; cbn [time_mask map mask_list in_window]; [reflexivity|].
  destruct l as [|x l]; [reflexivity|]. fold (time_mask ts lo hi). rewrite IH. unR.
  destruct (Rle_dec lo t), (Rle_dec t hi); rcase; try lra; try reflexivity; cbn [andb]; rcase; try lra; reflexivity.
Qed.
Lemma time_mask_length {F} {N : Num F} (ts : list F) lo hi : length (time_mask ts lo hi) = length ts.
Proof. unfold time_mask. apply map_length. Qed.

Lemma dget_dset {V} (d : list (string * V)) k v k' :
  dget (dset d k v) k' = if String.eqb k k' then Some v else dget d k'.
Proof.
  induction d as [|[k0 v0] d IH]; cbn [dset dget]; [reflexivity|].
  destruct (String.eqb_spec k0 k) as [->|Hne]; cbn [dget].
  - destruct (String.eqb_spec k k'); reflexivity.
  - rewrite IH. destruct (String.eqb_spec k0 k') as [->|]; [|reflexivity].
    destruct (String.eqb_spec k k') as [->|]; [congruence|reflexivity].
Qed.
Lemma dget_map_snd {V W} (f : V -> W) d k :
  dget (map (fun kv => (fst kv, f (snd kv))) d) k = option_map f (dget d k).
Proof.
  induction d as [|[k0 v0] d IH]; cbn; [reflexivity|].
  destruct (String.eqb k0 k); [reflexivity|apply IH].
Qed.
Lemma dkeys_dset_in {V} (d : list (string * V)) k v w :
  dget d k = Some w -> dkeys (dset d k v) = dkeys d.
Proof.
  induction d as [|[k0 v0] d IH]; cbn; [discriminate|].
  destruct (String.eqb k0 k); [reflexivity|]. intros H. cbn. f_equal. now apply IH.
Qed.
Lemma dkeys_map_snd {V W} (f : V -> W) d :
  dkeys (map (fun kv => (fst kv, f (snd kv))) d) = dkeys d.
Proof. unfold dkeys. rewrite map_map. reflexivity. Qed.

(** C04, success case. *)
Theorem clip_exact (d : pdict R) (ts : list R) t0 rest lo hi :
  dget d "time_s" = Some (Arr ts) -> in_window lo hi ts ts = t0 :: rest ->
  exists d', clip_by_times d hi lo = Ok d' /\
    dkeys d' = dkeys d /\
    dget d' "time_s" = Some (Arr (map (fun t => t - t0) (in_window lo hi ts ts))) /\
    (forall k l, k <> "time_s"%string -> dget d k = Some (Arr l) -> length l = length ts ->
                 dget d' k = Some (Arr (in_window lo hi ts l))) /\
    (forall k s, dget d k = Some (Str s) -> dget d' k = Some (Str s)).
Proof.
  intros Hd Hw. unfold clip_by_times. rewrite Hd, mask_in_window, Hw.
  eexists. split; [reflexivity|]. split; [|split; [|split]].
  - erewrite dkeys_dset_in; [apply dkeys_map_snd|]. rewrite dget_map_snd, Hd. reflexivity.
  - rewrite dget_dset, String.eqb_refl. reflexivity.
  - intros k l Hk Hl Hlen. rewrite dget_dset.
    destruct (String.eqb_spec "time_s" k) as [E|_]; [congruence|].
    rewrite dget_map_snd, Hl. cbn [option_map clip_val].
    rewrite time_mask_length, Hlen, Nat.eqb_refl, mask_in_window. reflexivity.
  - intros k s Hs. rewrite dget_dset.
    destruct (String.eqb_spec "time_s" k) as [E|_]; [congruence|].
    now rewrite dget_map_snd, Hs.
Qed.
(** C04, empty window. *)
Theorem clip_empty (d : pdict R) (ts : list R) lo hi :
  dget d "time_s" = Some (Arr ts) -> in_window lo hi ts ts = [] ->
  clip_by_times d hi lo = Err IndexError.
Proof. intros Hd Hw. unfold clip_by_times. now rewrite Hd, mask_in_window, Hw. Qed.

(** What [in_window] means, sample by sample. *)
Lemma in_window_In {A} lo hi (ts : list R) (l : list A) x :
  In x (in_window lo hi ts l) <->
  exists i t, nth_error ts i = Some t /\ nth_error l i = Some x /\ lo <= t <= hi.
Proof.
  revert l; induction ts as [|t ts IH]; intros l; cbn [in_window].
  - split; [intros []|]. intros (i & t & H & _). destruct i; discriminate.
  - destruct l as [|y l].
    + split; [intros []|]. intros (i & u & _ & H & _). destruct i; discriminate.
    + assert (Hsh : (exists i u, nth_error (t :: ts) i = Some u /\ nth_error (y :: l) i = Some x /\ lo <= u <= hi)
                    <-> (x = y /\ lo <= t <= hi) \/
                        exists i u, nth_error ts i = Some u /\ nth_error l i = Some x /\ lo <= u <= hi).
      { split.
        - intros ([|i] & u & H1 & H2 & H3); cbn in *.
          + injection H1 as ->. injection H2 as ->. auto.
          + right; eauto.
        - intros [[-> H]|(i & u & H)]; [exists O, t|exists (S i), u]; cbn; auto. }
      rewrite Hsh. destruct (Rle_dec lo t), (Rle_dec t hi); cbn [In]; rewrite IH; intuition (subst; auto; lra).
Qed.

(** ** C05 *)
Lemma in_window_all {A} lo hi (ts : list R) (l : list A) :
  length l = length ts -> (forall t, In t ts -> lo <= t <= hi) -> in_window lo hi ts l = l.
Proof.
  revert l; induction ts as [|t ts IH]; intros [|x l] Hlen H; cbn in *; try discriminate; [reflexivity|].
  destruct (Rle_dec lo t); [|destruct (H t (or_introl eq_refl)); lra].
  destruct (Rle_dec t hi); [|destruct (H t (or_introl eq_refl)); lra].
  f_equal. apply IH; [lia|]. auto.
Qed.
Lemma in_window_none {A} lo hi (ts : list R) (l : list A) :
  (forall t, In t ts -> ~ (lo <= t <= hi)) -> in_window lo hi ts l = [].
Proof.
  revert l; induction ts as [|t ts IH]; intros [|x l] H; cbn in *; try reflexivity.
  destruct (Rle_dec lo t), (Rle_dec t hi); try (exfalso; apply (H t (or_introl eq_refl)); lra);
    apply IH; auto.
Qed.
Lemma in_window_app {A} lo hi (t1 t2 : list R) (l1 l2 : list A) :
  length l1 = length t1 ->
  in_window lo hi (t1 ++ t2) (l1 ++ l2) = in_window lo hi t1 l1 ++ in_window lo hi t2 l2.
Proof.
  revert l1; induction t1 as [|t t1 IH]; intros [|x l1] H; cbn in *; try discriminate; [reflexivity|].
  rewrite IH by lia. destruct (Rle_dec lo t), (Rle_dec t hi); reflexivity.
Qed.


Lemma clip_cyc_eq (c : cyc R) lo hi t0 rest :
  wf c -> in_window lo hi (time_s c) (time_s c) = t0 :: rest ->
  clip_cyc c hi lo = Ok (mkcyc (map (fun t => t - t0) (in_window lo hi (time_s c) (time_s c)))
                              (in_window lo hi (time_s c) (mps c))
                              (in_window lo hi (time_s c) (grade c))
                              (in_window lo hi (time_s c) (road_type c))).
Proof.
  intros (W1 & W2 & W3) Hw. unfold clip_cyc.
  destruct (clip_exact (dict_of_cyc c) (time_s c) t0 rest lo hi eq_refl Hw) as (d' & -> & _ & Ht & Hl & _).
  cbn [bindR]. unfold cyc_of_dict, req_arr. rewrite Ht. cbn [bindR].
  rewrite (Hl "mps"%string (mps c)) by (try discriminate; auto).
  rewrite (Hl "grade"%string (grade c)) by (try discriminate; auto).
  rewrite (Hl "road_type"%string (road_type c)) by (try discriminate; auto).
  reflexivity.
Qed.

Lemma split_at {A} (l : list A) i x : nth_error l i = Some x ->
  l = firstn i l ++ x :: skipn (S i) l /\ length (firstn i l) = i.
Proof.
  intros H. apply nth_error_split in H as (l1 & l2 & -> & <-).
  rewrite firstn_app, Nat.sub_diag, firstn_all, firstn_O, app_nil_r.
  replace (S (length l1)) with (length (l1 ++ [x])) by (rewrite app_length; cbn; lia).
  replace (l1 ++ x :: l2) with ((l1 ++ [x]) ++ l2) at 1 2 by (now rewrite <- app_assoc).
  split; [|reflexivity]. rewrite skipn_app, skipn_all, Nat.sub_diag. cbn. now rewrite <- app_assoc.
Qed.

Theorem clip_concat (c : cyc R) i t lo hi :
  wf c -> increasing (time_s c) -> nth_error (time_s c) i = Some t ->
  (forall x, In x (time_s c) -> lo <= x <= hi) ->
  exists a b, clip_cyc c t lo = Ok a /\ clip_cyc c hi t = Ok b /\ concat [a; b] = Ok (rebased c).
Proof.
  intros Hwf Hinc Hi Hb. pose proof Hwf as (W1 & W2 & W3).
  destruct c as [ts vs gs rs]; cbn [time_s mps grade road_type] in *.
  assert (Hlt : (i < length ts)%nat) by (apply nth_error_Some; congruence).
  assert (Hsp : forall l : list R, length l = length ts ->
            exists l1 x l2, l = l1 ++ x :: l2 /\ length l1 = i).
  { intros l Hl. destruct (nth_error l i) as [x|] eqn:E.
    - destruct (split_at l i x E) as [E1 E2]. rewrite E1. eauto.
    - apply nth_error_None in E. lia. }
  destruct (split_at ts i t Hi) as [Ets Elen].
  set (t1 := firstn i ts) in *. set (t2 := skipn (S i) ts) in *.
  destruct (Hsp vs W1) as (v1 & v & v2 & -> & Ev).
  destruct (Hsp gs W2) as (g1 & g & g2 & -> & Eg).
  destruct (Hsp rs W3) as (r1 & r & r2 & -> & Er).
  rewrite Ets in *. clear Ets Hsp.
  apply increasing_SS in Hinc.
  assert (Hlo : forall x, In x t1 -> lo <= x <= t).
  { intros x Hx. split; [apply Hb; apply in_app_iff; auto|].
    left. clear -Hinc Hx. induction t1 as [|y t1 IH]; [destruct Hx|].
    apply StronglySorted_inv in Hinc as [H1 H2]. destruct Hx as [->|Hx]; [|auto].
    rewrite Forall_forall in H2. apply H2. apply in_app_iff. right; now left. }
  assert (Hlo' : forall x, In x t1 -> x < t).
  { intros x Hx. clear -Hinc Hx. induction t1 as [|y t1 IH]; [destruct Hx|].
    apply StronglySorted_inv in Hinc as [H1 H2]. destruct Hx as [->|Hx]; [|auto].
    rewrite Forall_forall in H2. apply H2. apply in_app_iff. right; now left. }
  assert (Hhi : forall x, In x t2 -> t < x).
  { intros x Hx. clear -Hinc Hx. induction t1 as [|y t1 IH]; cbn in Hinc.
    - apply StronglySorted_inv in Hinc as [H1 H2]. rewrite Forall_forall in H2. auto.
    - apply StronglySorted_inv in Hinc as [H1 H2]. auto. }
  destruct (Hb t) as [Hb1 Hb2]; [apply in_app_iff; right; now left|].
  assert (L : length (v2) = length t2 /\ length g2 = length t2 /\ length r2 = length t2).
  { rewrite !app_length in W1, W2, W3. cbn [length] in *. lia. }
  destruct L as (L1 & L2 & L3).
  (* first clip *)
  assert (A1 : forall l1 (x : R) l2, length l1 = length t1 -> in_window lo t (t1 ++ t :: t2) (l1 ++ x :: l2) = l1 ++ [x]).
  { intros l1 x l2 Hl. rewrite in_window_app by assumption. rewrite (in_window_all lo t t1 l1) by auto.
    f_equal. cbn. destruct (Rle_dec lo t); [|lra]. destruct (Rle_dec t t); [|lra].
    f_equal. apply in_window_none. intros y Hy. specialize (Hhi y Hy). lra. }
  assert (A2 : forall l1 (x : R) l2, length l1 = length t1 -> length l2 = length t2 ->
             in_window t hi (t1 ++ t :: t2) (l1 ++ x :: l2) = x :: l2).
  { intros l1 x l2 Hl Hl2. rewrite in_window_app by assumption. rewrite (in_window_none t hi t1 l1).
    2:{ intros y Hy. specialize (Hlo' y Hy). lra. }
    cbn. destruct (Rle_dec t hi); [|lra]. destruct (Rle_dec t t); [|lra].
    f_equal. apply in_window_all; [assumption|]. intros y Hy. specialize (Hhi y Hy).
    split; [lra|]. apply Hb. apply in_app_iff. right; now right. }
  set (c0 := mkcyc (t1 ++ t :: t2) (v1 ++ v :: v2) (g1 ++ g :: g2) (r1 ++ r :: r2)).
  assert (Hhd : exists h q, t1 ++ [t] = h :: q).
  { destruct t1; cbn [app]; eauto. }
  destruct Hhd as (h & q & Hq).
  assert (C1 := clip_cyc_eq c0 lo t h q Hwf). cbn [time_s c0] in C1. rewrite A1 in C1 by reflexivity.
  specialize (C1 Hq). cbn [mps grade road_type c0] in C1. rewrite !A1 in C1 by congruence.
  assert (C2 := clip_cyc_eq c0 t hi t t2 Hwf). cbn [time_s c0] in C2. rewrite A2 in C2 by reflexivity.
  specialize (C2 eq_refl). cbn [mps grade road_type c0] in C2. rewrite !A2 in C2 by (assumption || congruence).
  eexists. eexists. split; [exact C1|]. split; [exact C2|].
  assert (Ehd : h = hd 0 (t1 ++ t :: t2)).
  { destruct t1; cbn in *; congruence. }
  cbn [concat concat_fold]. rewrite concat_step_R.
  2:{ cbn [time_s]. rewrite Hq. discriminate. }
  cbn [bindR time_s mps grade road_type tl map]. unfold end_time; cbn [time_s].
  unfold rebased, c0; cbn [time_s mps grade road_type].
  rewrite <- Ehd. rewrite !map_app. cbn [map]. rewrite last_snoc.
  rewrite <- !app_assoc. cbn [app]. do 3 f_equal.
  f_equal. rewrite map_map. apply map_ext. intros y. lra.
Qed.
