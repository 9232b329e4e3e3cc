(** Proofs about resample (properties C06, C07). *)
From Coq Require Import Sorting.Sorted.
From Verif Require Import Num Numpy ListFacts CycleModel CycleSpec MicrotripProofs ConcatProofs CycleProofs1.
Local Open Scope R_scope.

Lemma increasing_cons x l : increasing (x :: l) -> increasing l /\ forall y, In y l -> x < y.
Proof.
  rewrite !increasing_SS. intros H. apply StronglySorted_inv in H as [H1 H2].
  rewrite Forall_forall in H2. auto.
Qed.
Lemma increasing_hd_le x l y : increasing (x :: l) -> In y (x :: l) -> x <= y.
Proof. intros H [<-|Hy]; [lra|]. left. now apply increasing_cons in H as [_ H]; apply H. Qed.
Lemma increasing_le_last l x d : increasing l -> In x l -> x <= last l d.
Proof. rewrite increasing_SS. intros. now apply SS_last_max. Qed.

Lemma on_polyline_cons x0 y0 xs ys x y :
  xs <> [] -> length ys = length xs -> hd 0 xs <= x -> on_polyline xs ys x y ->
  increasing (x0 :: xs) -> on_polyline (x0 :: xs) (y0 :: ys) x y.
Proof.
  intros Hne Hlen Hx H Hinc. destruct xs as [|x1 xs]; [congruence|].
  destruct ys as [|y1 ys]; [discriminate|]. cbn [hd] in Hx.
  destruct (increasing_cons _ _ Hinc) as [_ Hlt].
  assert (H01 : x0 < x1) by (apply Hlt; now left).
  destruct H as [[Hle ->]|[[Hle ->]|(i & a & b & c & d & H)]].
  - cbn [hd] in *. right; right. exists O, x0, x1, y0, y1. cbn. repeat split; try lra.
    assert (x = x1) by lra. subst. field. lra.
  - right; left. split; [exact Hle|reflexivity].
  - right; right. exists (S i), a, b, c, d. exact H.
Qed.

Lemma interp_from_polyline xs : forall ys x x0 y0,
  length ys = length xs -> increasing (x0 :: xs) -> x0 <= x ->
  on_polyline (x0 :: xs) (y0 :: ys) x (interp_from x x0 y0 (combine xs ys)).
Proof.
  induction xs as [|x1 xs IH]; intros [|y1 ys] x x0 y0 Hlen Hinc Hx; cbn in Hlen; try discriminate.
  - right; left. cbn. auto.
  - cbn [combine interp_from]. unR. destruct (increasing_cons _ _ Hinc) as [Hinc' Hlt].
    assert (H01 : x0 < x1) by (apply Hlt; now left).
    destruct (Rltb_spec x x1).
    + right; right. exists O, x0, x1, y0, y1. cbn. repeat split; try lra.
      destruct (Reqb_spec x x0); [subst; field; lra|field; lra].
    + apply on_polyline_cons; try assumption; try discriminate; [cbn; lra|].
      apply IH; [lia|assumption|lra].
Qed.
Lemma interp1_polyline xs ys x :
  xs <> [] -> length ys = length xs -> increasing xs ->
  on_polyline xs ys x (interp1 x (combine xs ys)).
Proof.
  destruct xs as [|x0 xs]; [congruence|]. destruct ys as [|y0 ys]; [discriminate|].
  intros _ Hlen Hinc. cbn [combine interp1]. unR. destruct (Rltb_spec x x0).
  - left. cbn. split; [lra|reflexivity].
  - apply interp_from_polyline; [cbn in Hlen; lia|assumption|lra].
Qed.

(** The broken line is a function. *)
Lemma on_polyline_unique xs ys x y y' :
  xs <> [] -> length ys = length xs -> increasing xs ->
  on_polyline xs ys x y -> on_polyline xs ys x y' -> y = y'.
Proof.
  intros Hne Hlen Hinc.
  assert (Hhd : forall i a, nth_error xs i = Some a -> hd 0 xs <= a /\ (a <= hd 0 xs -> i = O)).
  { intros i a Ha. destruct xs as [|x0 xs]; [congruence|]. cbn [hd].
    destruct i as [|i]; cbn in Ha; [injection Ha as ->; split; [lra|auto]|].
    apply increasing_cons in Hinc as [_ Hlt]. apply nth_error_In in Ha. specialize (Hlt a Ha).
    split; [lra|intros; lra]. }
  assert (Hlast : forall i a, nth_error xs i = Some a -> a <= last xs 0 /\ (last xs 0 <= a -> i = (length xs - 1)%nat)).
  { intros i a Ha. assert (Hi : (i < length xs)%nat) by (apply nth_error_Some; congruence).
    rewrite last_nth. assert (El : nth_error xs (length xs - 1) = Some (nth (length xs - 1) xs 0))
      by (apply nth_error_nth'; lia).
    destruct (Nat.eq_dec i (length xs - 1)) as [->|Hn].
    - rewrite Ha in El. injection El as E. rewrite <- E. split; [lra|auto].
    - specialize (Hinc i (length xs - 1)%nat a _ ltac:(lia) Ha El). split; [lra|intros; lra]. }
  assert (Hhd0 : nth_error ys 0 = Some (hd 0 ys)).
  { destruct ys; [destruct xs; [congruence|discriminate]|reflexivity]. }
  assert (Hlast0 : nth_error ys (length xs - 1) = Some (last ys 0)).
  { rewrite last_nth, <- Hlen. apply nth_error_nth'. destruct xs; [congruence|]. cbn in Hlen |- *. lia. }
  assert (Hseg_lo : forall i a b c d, nth_error xs i = Some a -> nth_error xs (S i) = Some b ->
            nth_error ys i = Some c -> nth_error ys (S i) = Some d -> a <= x <= b ->
            x <= hd 0 xs -> c + (d - c) * ((x - a) / (b - a)) = hd 0 ys).
  { intros i a b c d Ha Hb Hc Hd Hx Hxh.
    destruct (Hhd i a Ha) as [H1 H2]. assert (i = O) by (apply H2; lra). subst i.
    assert (x = a) by lra. subst x. rewrite Hc in Hhd0. injection Hhd0 as <-.
    pose proof (Hinc O 1%nat a b ltac:(lia) Ha Hb). field. lra. }
  assert (Hseg_hi : forall i a b c d, nth_error xs i = Some a -> nth_error xs (S i) = Some b ->
            nth_error ys i = Some c -> nth_error ys (S i) = Some d -> a <= x <= b ->
            last xs 0 <= x -> c + (d - c) * ((x - a) / (b - a)) = last ys 0).
  { intros i a b c d Ha Hb Hc Hd Hx Hxh.
    destruct (Hlast (S i) b Hb) as [H1 H2]. assert (S i = (length xs - 1)%nat) as E by (apply H2; lra).
    rewrite <- E, Hd in Hlast0. injection Hlast0 as <-.
    pose proof (Hinc i (S i) a b ltac:(lia) Ha Hb). assert (x = b) by lra. subst x. field. lra. }
  assert (Hends : x <= hd 0 xs -> last xs 0 <= x -> hd 0 ys = last ys 0).
  { intros A B. assert (Hx0 : nth_error xs 0 = Some (hd 0 xs)) by (destruct xs; [congruence|reflexivity]).
    destruct (Hlast O _ Hx0) as [_ H]. rewrite <- (H ltac:(lra)), Hhd0 in Hlast0. congruence. }
  intros [[A ->]|[[A ->]|(i & a & b & c & d & Ha & Hb & Hc & Hd & Hx & ->)]]
         [[B ->]|[[B ->]|(i' & a' & b' & c' & d' & Ha' & Hb' & Hc' & Hd' & Hx' & ->)]];
    try reflexivity.
  - exact (Hends A B).
  - symmetry. eapply Hseg_lo; eassumption.
  - symmetry. exact (Hends B A).
  - symmetry. eapply Hseg_hi; eassumption.
  - eapply Hseg_lo; eassumption.
  - eapply Hseg_hi; eassumption.
  - assert (Hcase : forall i a b c d i' a' b' c' d',
       nth_error xs i = Some a -> nth_error xs (S i) = Some b -> nth_error ys i = Some c ->
       nth_error ys (S i) = Some d -> a <= x <= b ->
       nth_error xs i' = Some a' -> nth_error xs (S i') = Some b' -> nth_error ys i' = Some c' ->
       nth_error ys (S i') = Some d' -> a' <= x <= b' -> (i < i')%nat ->
       c + (d - c) * ((x - a) / (b - a)) = c' + (d' - c') * ((x - a') / (b' - a'))).
    { clear - Hinc. intros i a b c d i' a' b' c' d' Ha Hb Hc Hd Hx Ha' Hb' Hc' Hd' Hx' Hlt.
      pose proof (Hinc i (S i) a b ltac:(lia) Ha Hb).
      pose proof (Hinc i' (S i') a' b' ltac:(lia) Ha' Hb').
      destruct (Nat.eq_dec (S i) i') as [<-|Hn].
      - rewrite Hb in Ha'. injection Ha' as <-. rewrite Hd in Hc'. injection Hc' as <-.
        assert (x = b) by lra. subst x. field. split; lra.
      - pose proof (Hinc (S i) i' b a' ltac:(lia) Hb Ha'). lra. }
    destruct (Nat.lt_total i i') as [H|[<-|H]].
    + eapply Hcase; eassumption.
    + congruence.
    + symmetry. eapply Hcase; eassumption.
Qed.

(** Values on a broken line lie between adjacent points; at a point they are its value. *)
Lemma on_polyline_range xs ys x y lo hi :
  xs <> [] -> length ys = length xs -> increasing xs ->
  (forall v, In v ys -> lo <= v <= hi) -> on_polyline xs ys x y -> lo <= y <= hi.
Proof.
  intros Hne Hlen Hinc Hb. assert (Hyne : ys <> []) by (destruct xs, ys; cbn in *; congruence).
  intros [[_ ->]|[[_ ->]|(i & a & b & c & d & Ha & Hbb & Hc & Hd & Hx & ->)]].
  - apply Hb. destruct ys; [congruence|now left].
  - apply Hb. now apply last_In.
  - pose proof (Hinc i (S i) a b ltac:(lia) Ha Hbb) as Hab.
    assert (Hcb := Hb c (nth_error_In _ _ Hc)). assert (Hdb := Hb d (nth_error_In _ _ Hd)).
    set (w := (x - a) / (b - a)).
    assert (Hw : 0 <= w <= 1).
    { unfold w. split.
      - apply Rmult_le_pos; [lra|]. left. apply Rinv_0_lt_compat. lra.
      - apply (Rmult_le_reg_r (b - a)); [lra|]. unfold Rdiv. rewrite Rmult_assoc, Rinv_l by lra. lra. }
    replace (c + (d - c) * w) with ((1 - w) * c + w * d) by ring.
    split.
    + apply Rle_trans with ((1 - w) * lo + w * lo); [right; ring|].
      apply Rplus_le_compat; apply Rmult_le_compat_l; lra.
    + apply Rle_trans with ((1 - w) * hi + w * hi); [|right; ring].
      apply Rplus_le_compat; apply Rmult_le_compat_l; lra.
Qed.
Lemma on_polyline_knot xs ys x y i v :
  length ys = length xs -> increasing xs ->
  nth_error xs i = Some x -> nth_error ys i = Some v -> on_polyline xs ys x y -> y = v.
Proof.
  intros Hlen Hinc Hx Hv H.
  assert (Hne : xs <> []) by (destruct i; destruct xs; try discriminate).
  apply (on_polyline_unique xs ys x y v Hne Hlen Hinc H).
  destruct i as [|i].
  - left. destruct xs as [|x0 xs]; [discriminate|]. destruct ys as [|y0 ys]; [discriminate|].
    cbn in *. injection Hx as ->. injection Hv as ->. split; [lra|reflexivity].
  - right; right. assert (Hi : (S i < length xs)%nat) by (apply nth_error_Some; congruence).
    exists i, (nth i xs 0), x, (nth i ys 0), v.
    assert (E1 : nth_error xs i = Some (nth i xs 0)) by (apply nth_error_nth'; lia).
    assert (E2 : nth_error ys i = Some (nth i ys 0)) by (apply nth_error_nth'; lia).
    repeat split; try assumption.
    + pose proof (Hinc i (S i) _ _ ltac:(lia) E1 Hx). lra.
    + lra.
    + pose proof (Hinc i (S i) _ _ ltac:(lia) E1 Hx). field. lra.
Qed.

(** ** Hold keys *)
Lemma hold_from_spec xs : forall ys x x0 y0,
  length ys = length xs -> increasing (x0 :: xs) -> x0 <= x ->
  held_from (x0 :: xs) (y0 :: ys) x (hold_from x y0 (combine xs ys)).
Proof.
  induction xs as [|x1 xs IH]; intros [|y1 ys] x x0 y0 Hlen Hinc Hx; cbn in Hlen; try discriminate.
  - exists O, x0. cbn. repeat split; auto. intros [|[|j]] b Hj Hb; cbn in *; try lia; discriminate.
  - cbn [combine hold_from]. unR. destruct (increasing_cons _ _ Hinc) as [Hinc' Hlt].
    destruct (Rltb_spec x x1) as [Hx1|Hx1].
    + exists O, x0. cbn. repeat split; auto. intros [|j] b Hj Hb; [lia|]. cbn in Hb.
      apply nth_error_In in Hb. pose proof (increasing_hd_le x1 xs b Hinc' Hb). lra.
    + destruct (IH ys x x1 y1 ltac:(lia) Hinc' ltac:(lra)) as (i & a & E1 & E2 & E3 & E4).
      exists (S i), a. cbn. repeat split; auto. intros [|j] b Hj Hb; [lia|].
      cbn in Hb. exact (E4 j b ltac:(lia) Hb).
Qed.
Lemma combine_last {A B} (xs : list A) : forall (ys : list B) x0 y0 d,
  length ys = length xs -> fst (last (combine (x0 :: xs) (y0 :: ys)) d) = last (x0 :: xs) x0.
Proof.
  induction xs as [|x1 xs IH]; intros [|y1 ys] x0 y0 d H; cbn in H; try discriminate; [reflexivity|].
  change (last (combine (x0 :: x1 :: xs) (y0 :: y1 :: ys)) d) with (last (combine (x1 :: xs) (y1 :: ys)) d).
  rewrite IH by lia. change (last (x0 :: x1 :: xs) x0) with (last (x1 :: xs) x0). apply last_default.
Qed.
Lemma hold1_spec xs ys x y :
  length ys = length xs -> increasing xs -> hold1 x (combine xs ys) = Ok y -> held_from xs ys x y.
Proof.
  destruct xs as [|x0 xs]; destruct ys as [|y0 ys]; cbn [length]; try discriminate.
  intros Hlen Hinc. unfold hold1. cbn [combine]. unR.
  destruct (Rltb_spec x x0); [discriminate|]. rcase; [discriminate|].
  intros [= <-]. apply hold_from_spec; [lia|assumption|lra].
Qed.
Lemma hold1_ok xs ys x :
  xs <> [] -> length ys = length xs -> hd 0 xs <= x <= last xs 0 -> exists y, hold1 x (combine xs ys) = Ok y.
Proof.
  destruct xs as [|x0 xs]; [congruence|]; destruct ys as [|y0 ys]; [discriminate|].
  intros _ Hlen Hx. unfold hold1. cbn [combine]. unR. cbn [hd] in Hx.
  destruct (Rltb_spec x x0); [lra|].
  change ((x0, y0) :: combine xs ys) with (combine (x0 :: xs) (y0 :: ys)).
  rewrite combine_last by (cbn in Hlen; lia). rewrite (last_default x0 xs x0 0).
  rcase; [lra|]. eauto.
Qed.
Lemma next_from_spec xs : forall ys x y,
  length ys = length xs -> next_from x (combine xs ys) = Ok y -> held_until xs ys x y.
Proof.
  induction xs as [|x1 xs IH]; intros [|y1 ys] x y Hlen; cbn in Hlen; try discriminate.
  cbn [combine next_from]. unR. destruct (Rleb_spec x x1).
  - intros [= <-]. exists O, x1. cbn. repeat split; auto. intros; lia.
  - intros H. destruct (IH ys x y ltac:(lia) H) as (i & a & E1 & E2 & E3 & E4).
    exists (S i), a. cbn. repeat split; auto. intros [|j] b Hj Hb; cbn in Hb.
    + injection Hb as <-. lra.
    + exact (E4 j b ltac:(lia) Hb).
Qed.
Lemma next1_spec xs ys x y :
  length ys = length xs -> next1 x (combine xs ys) = Ok y -> held_until xs ys x y.
Proof.
  intros Hlen. unfold next1. destruct (combine xs ys) as [|[x0 y0] r] eqn:E; [discriminate|].
  unR. destruct (Rltb x x0); [discriminate|]. rewrite <- E. now apply next_from_spec.
Qed.

Lemma mapR_spec {A B} (f : A -> Res B) l r :
  mapR f l = Ok r -> length r = length l /\
  forall i a, nth_error l i = Some a -> exists b, nth_error r i = Some b /\ f a = Ok b.
Proof.
  revert r; induction l as [|a l IH]; intros r; cbn [mapR].
  - intros [= <-]. split; [reflexivity|]. intros [|i] a; discriminate.
  - destruct (f a) as [b|] eqn:E; [|discriminate]. cbn [bindR].
    destruct (mapR f l) as [bs|]; [|discriminate]. cbn [bindR]. intros [= <-].
    destruct (IH bs eq_refl) as [H1 H2]. split; [cbn; lia|].
    intros [|i] a' H; cbn in *; [injection H as <-; eauto|now apply H2].
Qed.
Lemma mapR_ok {A B} (f : A -> Res B) l :
  (forall a, In a l -> exists b, f a = Ok b) -> exists r, mapR f l = Ok r.
Proof.
  induction l as [|a l IH]; intros H; cbn [mapR]; [eauto|].
  destruct (H a (or_introl eq_refl)) as [b ->]. cbn [bindR].
  destruct IH as [r ->]; [intros; apply H; now right|]. cbn [bindR]. eauto.
Qed.

(** ** The time grid *)
Lemma arange_length {F} {N : Num F} (a b s : F) :
  length (arange a b s) = Z.to_nat (nceil (ndiv (nsub b a) s)).
Proof. unfold arange. now rewrite map_length, seq_length. Qed.
Lemma arange_nth (a b s : R) k d :
  (k < length (arange a b s))%nat -> nth k (arange a b s) d = a + INR k * s.
Proof.
  intros H. rewrite arange_length in H. unfold arange.
  set (f := fun k => nadd a (nmul (nofN k) s)).
  rewrite (nth_indep _ d (f O)) by (rewrite map_length, seq_length; lia).
  rewrite (map_nth f). rewrite seq_nth by lia. unfold f. rewrite nofN_R. unR. reflexivity.
Qed.
Lemma arange_nth_error (a b s : R) k :
  (k < length (arange a b s))%nat -> nth_error (arange a b s) k = Some (a + INR k * s).
Proof. intros H. rewrite (nth_error_nth' _ 0) by assumption. now rewrite arange_nth. Qed.
Lemma arange_In (a b s : R) x : In x (arange a b s) -> exists k, (k < length (arange a b s))%nat /\ x = a + INR k * s.
Proof.
  intros H. apply In_nth_error in H as (k & Hk).
  assert (Hl : (k < length (arange a b s))%nat) by (apply nth_error_Some; congruence).
  exists k. rewrite arange_nth_error in Hk by assumption. split; congruence.
Qed.
Lemma arange_count (a b s : R) n :
  0 < s -> length (arange a b s) = n -> (1 <= n)%nat ->
  a + (INR n - 1) * s < b <= a + INR n * s.
Proof.
  intros Hs Hn H1. rewrite arange_length in Hn.
  pose proof (nceil_R_bounds ((b - a) / s)) as Hb. unR.
  set (z := @nceil R RNum ((b - a) / s)) in *.
  assert (Hz : IZR z = INR n). { rewrite INR_IZR_INZ. f_equal. lia. }
  rewrite Hz in Hb. destruct Hb as [B1 B2].
  assert (E : (b - a) / s * s = b - a) by (field; lra).
  split.
  - apply (Rmult_lt_compat_r s) in B2; [|lra]. rewrite Rmult_plus_distr_r, E in B2. lra.
  - apply (Rmult_le_compat_r s) in B1; [|lra]. rewrite E in B1. lra.
Qed.
Lemma arange_count_iff (a b s : R) n :
  0 < s -> (1 <= n)%nat -> a + (INR n - 1) * s < b <= a + INR n * s -> length (arange a b s) = n.
Proof.
  intros Hs H1 [B1 B2]. rewrite arange_length. unR.
  rewrite (nceil_R_unique ((b - a) / s) (Z.of_nat n)); [lia|].
  rewrite <- INR_IZR_INZ. split.
  - apply (Rmult_le_reg_r s); [lra|]. unfold Rdiv. rewrite Rmult_assoc, Rinv_l by lra. lra.
  - apply (Rmult_lt_reg_r s); [lra|]. unfold Rdiv.
    rewrite Rmult_plus_distr_r, Rmult_assoc, Rinv_l by lra. lra.
Qed.
Lemma arange_increasing (a b s : R) : 0 < s -> increasing (arange a b s).
Proof.
  intros Hs i j x y Hij Hx Hy.
  assert (Hi : (i < length (arange a b s))%nat) by (apply nth_error_Some; congruence).
  assert (Hj : (j < length (arange a b s))%nat) by (apply nth_error_Some; congruence).
  rewrite arange_nth_error in Hx, Hy by assumption. injection Hx as <-. injection Hy as <-.
  apply lt_INR in Hij. apply Rplus_lt_compat_l. apply Rmult_lt_compat_r; lra.
Qed.

(** ** resample, key by key *)
Lemma resample_rest_get {F} {N : Num F} (o : resample_opts) ts new_t dt s e eps : forall (d d' : pdict F),
  resample_rest o ts new_t dt s e eps d = Ok d' ->
  forall k v, k <> "time_s"%string -> dget d k = Some v ->
  exists v', resample_val o ts new_t dt s e eps k v = Ok v' /\ dget d' k = Some v'.
Proof.
  induction d as [|[k0 v0] d IH]; intros d'; cbn [resample_rest]; [discriminate|].
  destruct (String.eqb_spec k0 "time_s") as [->|Hk0].
  - intros H k v Hk. cbn [dget]. destruct (String.eqb_spec "time_s" k); [congruence|]. now apply IH.
  - destruct (resample_val o ts new_t dt s e eps k0 v0) as [v1|] eqn:E; [|discriminate]. cbn [bindR].
    destruct (resample_rest o ts new_t dt s e eps d) as [d1|]; [|discriminate]. cbn [bindR].
    intros [= <-] k v Hk. cbn [dget]. destruct (String.eqb_spec k0 k) as [->|Hn].
    + intros [= <-]. eauto.
    + now apply IH.
Qed.
Lemma resample_rest_keys {F} {N : Num F} (o : resample_opts) ts new_t dt s e eps : forall (d d' : pdict F),
  resample_rest o ts new_t dt s e eps d = Ok d' ->
  dkeys d' = filter (fun k => negb (String.eqb k "time_s")) (dkeys d).
Proof.
  induction d as [|[k0 v0] d IH]; intros d'; cbn [resample_rest].
  - intros [= <-]. reflexivity.
  - cbn [dkeys map fst filter]. destruct (String.eqb_spec k0 "time_s"); cbn [negb].
    + apply IH.
    + destruct (resample_val o ts new_t dt s e eps k0 v0); [|discriminate]. cbn [bindR].
      destruct (resample_rest o ts new_t dt s e eps d) as [d1|] eqn:E1; [|discriminate]. cbn [bindR].
      intros [= <-]. cbn [dkeys map fst]. f_equal. now apply IH.
Qed.

(** What [resample d o = Ok d'] unfolds to. *)
Lemma resample_inv (d : pdict R) o d' ts :
  resample d o = Ok d' -> dget d "time_s" = Some (Arr ts) ->
  exists rest, d' = ("time_s"%string, Arr (resample_times (want_dt o ts) (want_start o) (want_end o ts))) :: rest
    /\ resample_rest o ts (resample_times (want_dt o ts) (want_start o) (want_end o ts))
         (want_dt o ts) (want_start o) (want_end o ts) (want_dt o ts / 10) d = Ok rest.
Proof.
  unfold resample. intros H Hts. rewrite Hts in H.
  destruct (check_keys d (o_hold o)); [|discriminate]. cbn [bindR] in H.
  destruct (check_keys d (o_hold_next o)); [|discriminate]. cbn [bindR] in H.
  destruct (check_keys d (o_rate o)); [|discriminate]. cbn [bindR] in H.
  unfold want_dt, want_start, want_end.
  assert (Hdt : exists dt, (match o_new_dt o with Some x => Ok x
                | None => do t1 <- pyget ts 1; do t0 <- pyget ts 0; Ok (nsub t1 t0) end) = Ok dt
             /\ dt = match o_new_dt o with Some x => x | None => (nth 1 ts 0 - nth 0 ts 0)%R end).
  { destruct (o_new_dt o) as [x|]; [eauto|].
    destruct ts as [|t0 [|t1 ts]].
    - rewrite pyget_nil in H. discriminate.
    - cbn in H. discriminate.
    - rewrite pyget_0, (pyget_nonneg (t0 :: t1 :: ts) 1 t1 eq_refl : pyget _ 1 = _).
      cbn [bindR nth]. unR. eauto. }
  destruct Hdt as (dt & E & ->). rewrite E in H. cbn [bindR] in H. clear E.
  assert (Hend : exists e, (match o_end o with Some x => Ok x | None => pyget ts (-1) end) = Ok e
             /\ e = match o_end o with Some x => x | None => last ts 0%R end).
  { destruct (o_end o) as [x|]; [eauto|]. destruct ts as [|t0 ts].
    - rewrite pyget_nil in H. discriminate.
    - rewrite pyget_last. rewrite (last_default t0 ts t0 0). eauto. }
  destruct Hend as (e & E & ->). rewrite E in H. cbn [bindR] in H. clear E.
  unR. change (@n0 R RNum) with 0 in H. unfold resample_times.
  match type of H with bindR ?r _ = _ => destruct r as [rest|] eqn:Er; [|discriminate] end.
  cbn [bindR] in H. injection H as <-. exists rest. split; [reflexivity|exact Er].
Qed.

Theorem resample_grid (d : pdict R) o d' ts :
  resample d o = Ok d' -> dget d "time_s" = Some (Arr ts) -> 0 < want_dt o ts ->
  exists new_t, dget d' "time_s" = Some (Arr new_t) /\
    (forall k x, nth_error new_t k = Some x -> x = want_start o + INR k * want_dt o ts) /\
    (forall k, (k < length new_t)%nat <->
               want_start o + INR k * want_dt o ts < want_end o ts + want_dt o ts / 10).
Proof.
  intros H Hts Hdt. destruct (resample_inv d o d' ts H Hts) as (rest & -> & _).
  set (dt := want_dt o ts) in *. set (s := want_start o). set (e := want_end o ts).
  exists (resample_times dt s e). split; [reflexivity|]. unfold resample_times. unR.
  set (A := arange s (e + dt / 10) dt). split.
  - intros k x Hk. assert (Hl : (k < length A)%nat) by (apply nth_error_Some; congruence).
    unfold A in *. rewrite arange_nth_error in Hk by assumption. congruence.
  - intros k. unfold A. rewrite arange_length. unR.
    pose proof (nceil_R_bounds ((e + dt / 10 - s) / dt)) as [B1 B2].
    set (z := @nceil R RNum ((e + dt / 10 - s) / dt)) in *.
    assert (E : (e + dt / 10 - s) / dt * dt = e + dt / 10 - s) by (field; lra).
    split; intros Hk.
    + assert (Hz : (Z.of_nat k <= z - 1)%Z) by lia. apply IZR_le in Hz.
      rewrite minus_IZR, <- INR_IZR_INZ in Hz.
      assert (Hq : INR k < (e + dt / 10 - s) / dt) by lra.
      apply (Rmult_lt_compat_r dt) in Hq; [|lra]. rewrite E in Hq. lra.
    + assert (Hq : INR k < IZR z).
      { apply Rlt_le_trans with ((e + dt / 10 - s) / dt); [|lra].
        apply (Rmult_lt_reg_r dt); [lra|]. rewrite E. lra. }
      rewrite INR_IZR_INZ in Hq. apply lt_IZR in Hq. lia.
Qed.

Theorem resample_linear (d : pdict R) o d' ts new_t k l :
  resample d o = Ok d' -> dget d "time_s" = Some (Arr ts) -> ts <> [] -> increasing ts ->
  dget d' "time_s" = Some (Arr new_t) ->
  k <> "time_s"%string -> dget d k = Some (Arr l) -> length l = length ts ->
  ~ In k (o_hold o) -> ~ In k (o_hold_next o) -> ~ In k (o_rate o) ->
  exists r, dget d' k = Some (Arr r) /\ length r = length new_t /\
    forall j x y, nth_error new_t j = Some x -> nth_error r j = Some y -> on_polyline ts l x y.
Proof.
  intros H Hts Hne Hinc Hnt Hk Hl Hlen N1 N2 N3.
  destruct (resample_inv d o d' ts H Hts) as (rest & -> & Hr).
  cbn [dget] in Hnt. rewrite String.eqb_refl in Hnt. injection Hnt as <-.
  destruct (resample_rest_get _ _ _ _ _ _ _ _ _ Hr k (Arr l) Hk Hl) as (v' & Hv & Hg).
  cbn [dget]. destruct (String.eqb_spec "time_s" k); [congruence|]. rewrite Hg.
  unfold resample_val in Hv.
  assert (Hmem : forall ks, ~ In k ks -> mem_str k ks = false).
  { intros ks Hn. unfold mem_str. destruct (existsb (String.eqb k) ks) eqn:E; [|reflexivity].
    apply existsb_exists in E as (k' & Hin & Heq). apply String.eqb_eq in Heq. subst. contradiction. }
  rewrite !Hmem in Hv by assumption.
  rewrite Hlen, Nat.eqb_refl in Hv. cbn [andb] in Hv.
  destruct ts as [|t0 ts]; [congruence|]. cbn [length Nat.ltb Nat.leb] in Hv. injection Hv as <-.
  eexists. split; [reflexivity|]. unfold interp. split; [now rewrite map_length|].
  intros j x y Hx Hy. rewrite nth_error_map, Hx in Hy. injection Hy as <-.
  apply interp1_polyline; assumption.
Qed.

Theorem resample_hold (d : pdict R) o d' ts new_t k l :
  resample d o = Ok d' -> dget d "time_s" = Some (Arr ts) -> increasing ts ->
  dget d' "time_s" = Some (Arr new_t) ->
  k <> "time_s"%string -> dget d k = Some (Arr l) -> length l = length ts -> In k (o_hold o) ->
  exists r, dget d' k = Some (Arr r) /\ length r = length new_t /\
    forall j x y, nth_error new_t j = Some x -> nth_error r j = Some y -> held_from ts l x y.
Proof.
  intros H Hts Hinc Hnt Hk Hl Hlen Hin.
  destruct (resample_inv d o d' ts H Hts) as (rest & -> & Hr).
  cbn [dget] in Hnt. rewrite String.eqb_refl in Hnt. injection Hnt as <-.
  destruct (resample_rest_get _ _ _ _ _ _ _ _ _ Hr k (Arr l) Hk Hl) as (v' & Hv & Hg).
  cbn [dget]. destruct (String.eqb_spec "time_s" k); [congruence|]. rewrite Hg.
  unfold resample_val in Hv.
  assert (Hmem : mem_str k (o_hold o) = true).
  { apply existsb_exists. exists k. split; [assumption|apply String.eqb_refl]. }
  rewrite Hmem in Hv.
  match type of Hv with bindR ?m _ = _ => destruct m as [r|] eqn:Em; [|discriminate] end.
  cbn [bindR] in Hv. injection Hv as <-. destruct (mapR_spec _ _ _ Em) as [E1 E2].
  exists r. split; [reflexivity|]. split; [exact E1|].
  intros j x y Hx Hy. destruct (E2 j x Hx) as (b & Hb & Hf). rewrite Hy in Hb. injection Hb as <-.
  eapply hold1_spec; eassumption.
Qed.

Theorem resample_hold_next (d : pdict R) o d' ts new_t k l :
  resample d o = Ok d' -> dget d "time_s" = Some (Arr ts) -> increasing ts ->
  dget d' "time_s" = Some (Arr new_t) ->
  k <> "time_s"%string -> dget d k = Some (Arr l) -> length l = length ts ->
  ~ In k (o_hold o) -> In k (o_hold_next o) ->
  exists r, dget d' k = Some (Arr r) /\ length r = length new_t /\
    forall j x y, nth_error new_t j = Some x -> nth_error r j = Some y -> held_until ts l x y.
Proof.
  intros H Hts Hinc Hnt Hk Hl Hlen Hno Hin.
  destruct (resample_inv d o d' ts H Hts) as (rest & -> & Hr).
  cbn [dget] in Hnt. rewrite String.eqb_refl in Hnt. injection Hnt as <-.
  destruct (resample_rest_get _ _ _ _ _ _ _ _ _ Hr k (Arr l) Hk Hl) as (v' & Hv & Hg).
  cbn [dget]. destruct (String.eqb_spec "time_s" k); [congruence|]. rewrite Hg.
  unfold resample_val in Hv.
  assert (Hmem : mem_str k (o_hold_next o) = true).
  { apply existsb_exists. exists k. split; [assumption|apply String.eqb_refl]. }
  assert (Hmem0 : mem_str k (o_hold o) = false).
  { unfold mem_str. destruct (existsb (String.eqb k) (o_hold o)) eqn:E; [|reflexivity].
    apply existsb_exists in E as (k' & Hin' & Heq). apply String.eqb_eq in Heq. subst. contradiction. }
  rewrite Hmem, Hmem0 in Hv.
  match type of Hv with bindR ?m _ = _ => destruct m as [r|] eqn:Em; [|discriminate] end.
  cbn [bindR] in Hv. injection Hv as <-. destruct (mapR_spec _ _ _ Em) as [E1 E2].
  exists r. split; [reflexivity|]. split; [exact E1|].
  intros j x y Hx Hy. destruct (E2 j x Hx) as (b & Hb & Hf). rewrite Hy in Hb. injection Hb as <-.
  eapply next1_spec; eassumption.
Qed.

(** A plain resample always succeeds; the non-time keys survive in order. *)
Theorem resample_plain_ok (d : pdict R) o ts :
  dget d "time_s" = Some (Arr ts) -> (2 <= length ts)%nat ->
  o_hold o = [] -> o_hold_next o = [] -> o_rate o = [] ->
  exists d', resample d o = Ok d' /\
    dkeys d' = "time_s"%string :: filter (fun k => negb (String.eqb k "time_s")) (dkeys d) /\
    (forall k s, dget d k = Some (Str s) -> dget d' k = Some (Str s)).
Proof.
  intros Hts Hlen H1 H2 H3.
  assert (Hrest : forall new_t dt s e eps, exists r, resample_rest o ts new_t dt s e eps d = Ok r).
  { intros. clear Hts. induction d as [|[k v] d' IH]; cbn [resample_rest]; [eauto|].
    destruct (String.eqb k "time_s"); [exact IH|].
    unfold resample_val at 1. rewrite H1, H2, H3. cbn [mem_str existsb orb].
    destruct IH as [r Hr]. destruct v as [l|s0].
    - destruct (_ && _)%bool; cbn [bindR]; rewrite Hr; cbn [bindR]; eauto.
    - cbn [bindR]. rewrite Hr. cbn [bindR]. eauto. }
  assert (Hok : exists d', resample d o = Ok d').
  { unfold resample, check_keys. rewrite H1, H2, H3, Hts. cbn [forallb bindR].
    destruct ts as [|t0 [|t1 ts]]; cbn [length] in Hlen; try lia.
    assert (Edt : exists dt, (match o_new_dt o with Some x => Ok x
                | None => do t1' <- pyget (t0 :: t1 :: ts) 1; do t0' <- pyget (t0 :: t1 :: ts) 0; Ok (nsub t1' t0') end) = Ok dt).
    { destruct (o_new_dt o); [eauto|]. rewrite pyget_0, (pyget_nonneg (t0 :: t1 :: ts) 1 t1 eq_refl : pyget _ 1 = _).
      cbn [bindR]. eauto. }
    destruct Edt as [dt ->]. cbn [bindR].
    assert (Ee : exists e, (match o_end o with Some x => Ok x | None => pyget (t0 :: t1 :: ts) (-1) end) = Ok e).
    { destruct (o_end o); [eauto|]. rewrite pyget_last. eauto. }
    destruct Ee as [e ->]. cbn [bindR].
    match goal with |- context [resample_rest o ?a ?b ?c ?x ?y ?z d] => destruct (Hrest b c x y z) as [r ->] end.
    cbn [bindR]. eauto. }
  destruct Hok as [d' Hd']. exists d'. split; [exact Hd'|].
  destruct (resample_inv d o d' ts Hd' Hts) as (rest & -> & Hr). split.
  - cbn [dkeys map fst]. f_equal. eapply resample_rest_keys; eassumption.
  - intros k s Hs. cbn [dget]. destruct (String.eqb_spec "time_s" k) as [E|E]; [congruence|].
    destruct (resample_rest_get _ _ _ _ _ _ _ _ _ Hr k (Str s) (not_eq_sym E) Hs) as (v' & Hv & Hg).
    rewrite Hg. unfold resample_val in Hv. rewrite H1, H2, H3 in Hv. cbn in Hv. congruence.
Qed.

(** ** Names of columns *)
Lemma mem_str_in k l : mem_str k l = true <-> In k l.
Proof.
  unfold mem_str. rewrite existsb_exists. split; [intros (x & I & E); apply String.eqb_eq in E; now subst|intros I; exists k; split; [exact I|apply String.eqb_refl]].
Qed.
Lemma dget_keys {F} (d : pdict F) k : dget d k = None <-> mem_str k (dkeys d) = false.
Proof.
  induction d as [|[k' v] d IH]; cbn; [tauto|]. rewrite (String.eqb_sym k k'). destruct (String.eqb k' k); cbn; [split; discriminate|exact IH].
Qed.
Lemma check_unknown {F} (d : pdict F) k ks : In k ks -> ~ In k STANDARD_CYCLE_KEYS -> dget d k = None -> check_keys d ks = Err PlainException.
Proof.
  intros I S D. unfold check_keys. destruct (forallb _ ks) eqn:E; [|reflexivity]. rewrite forallb_forall in E. specialize (E k I).
  rewrite (proj1 (dget_keys d k) D), Bool.orb_false_r in E. apply mem_str_in in E. contradiction.
Qed.
Lemma resample_unknown (d : pdict R) o k : In k (o_hold o) \/ In k (o_hold_next o) \/ In k (o_rate o) ->
  ~ In k STANDARD_CYCLE_KEYS -> dget d k = None -> resample d o = Err PlainException.
Proof.
  intros I S D. unfold resample.
  assert (A : forall ks, check_keys d ks = Ok tt \/ check_keys d ks = Err PlainException) by (intros ks; unfold check_keys; destruct (forallb _ ks); auto).
  destruct (A (o_hold o)) as [E1|E1]; rewrite E1; [|reflexivity]. cbn [bindR].
  destruct (A (o_hold_next o)) as [E2|E2]; rewrite E2; [|reflexivity]. cbn [bindR].
  destruct (A (o_rate o)) as [E3|E3]; rewrite E3; [|reflexivity]. exfalso.
  destruct I as [I|[I|I]]; rewrite (check_unknown d k _ I S D) in *; discriminate.
Qed.
Lemma check_standard {F} (d : pdict F) k ks : In k STANDARD_CYCLE_KEYS -> check_keys d (k :: ks) = check_keys d ks.
Proof. intros I. unfold check_keys. cbn [forallb]. rewrite (proj2 (mem_str_in k _) I). reflexivity. Qed.
Lemma rest_same (o o' : resample_opts) (P : string -> Prop) :
  (forall k', P k' -> mem_str k' (o_hold o') = mem_str k' (o_hold o) /\ mem_str k' (o_hold_next o') = mem_str k' (o_hold_next o) /\
     mem_str k' (o_rate o') = mem_str k' (o_rate o)) ->
  forall (d : pdict R) ts nt dt st en eps, (forall k', In k' (dkeys d) -> P k') ->
  resample_rest o' ts nt dt st en eps d = resample_rest o ts nt dt st en eps d.
Proof.
  intros H. induction d as [|[k v] d IH]; intros ts nt dt st en eps A; [reflexivity|]. cbn [resample_rest].
  assert (E : resample_val o' ts nt dt st en eps k v = resample_val o ts nt dt st en eps k v).
  { unfold resample_val. destruct (H k (A k (or_introl eq_refl))) as (-> & -> & ->). reflexivity. }
  rewrite E, IH; [reflexivity|]. intros k' I. apply A. now right.
Qed.
Lemma resample_absent (d : pdict R) o k : In k STANDARD_CYCLE_KEYS -> dget d k = None ->
  resample d {| o_new_dt := o_new_dt o; o_start := o_start o; o_end := o_end o; o_hold := k :: o_hold o;
                o_hold_next := o_hold_next o; o_rate := o_rate o |} = resample d o /\
  resample d {| o_new_dt := o_new_dt o; o_start := o_start o; o_end := o_end o; o_hold := o_hold o;
                o_hold_next := k :: o_hold_next o; o_rate := o_rate o |} = resample d o /\
  resample d {| o_new_dt := o_new_dt o; o_start := o_start o; o_end := o_end o; o_hold := o_hold o;
                o_hold_next := o_hold_next o; o_rate := k :: o_rate o |} = resample d o.
Proof.
  intros S D.
  assert (M : forall k' l, In k' (dkeys d) -> mem_str k' (k :: l) = mem_str k' l).
  { intros k' l I. unfold mem_str. cbn [existsb]. destruct (String.eqb_spec k' k) as [->|]; [|reflexivity].
    exfalso. apply dget_keys in D. apply mem_str_in in I. congruence. }
  unfold resample. cbn [o_hold o_hold_next o_rate o_new_dt o_start o_end]. rewrite !check_standard by exact S.
  repeat split; repeat match goal with |- bindR ?a _ = bindR ?a _ => destruct a; cbn [bindR]; [|reflexivity] end;
    (erewrite (rest_same o _ (fun k' => In k' (dkeys d))); [reflexivity| |auto]); cbn [o_hold o_hold_next o_rate]; auto.
Qed.
