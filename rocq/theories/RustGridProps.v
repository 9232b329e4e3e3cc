(** C131: interpolation in a table of any number of dimensions. *)
From Coq Require Import Floats Lia.
From Verif Require Import Num FloatNum Numpy RustGridModel RustGridSpec RustGridProofs.
Local Open Scope R_scope.
Local Set Warnings "-inexact-float".

(** The coordinates of a dimension rise, and the point is not outside them. *)
Definition increasing (g : list R) : Prop := forall i j a b, (i < j)%nat -> nth_error g i = Some a -> nth_error g j = Some b -> a < b.
Definition covers (d : R * list R) : Prop := increasing (snd d) /\ exists a z, In a (snd d) /\ In z (snd d) /\ a <= fst d <= z.
(** Coordinates and table fit each other. *)
Definition fitting (point : list R) (grid : list (list R)) (shape : list nat) : Prop :=
  length point = length grid /\ shape = map (@length R) grid /\ Forall covers (combine point grid).

Lemma rising_first a g : rising (a :: g) = true -> forall j b, nth_error g j = Some b -> a < b.
Proof.
  revert a. induction g as [|c g IH]; intros a H j b E; [destruct j; discriminate|]. cbn [rising] in H. apply andb_prop in H as [H1 H2].
  assert (a < c) by (revert H1; unR; destruct (Rltb_spec a c); [auto|discriminate]).
  destruct j; cbn in E; [injection E as <-; assumption|]. specialize (IH c H2 j b E). lra.
Qed.
Lemma rising_increasing g : rising g = true <-> increasing g.
Proof.
  split.
  - induction g as [|a g IH]; intros H i j x y L E1 E2; [destruct i; discriminate|]. destruct j; [lia|]. cbn in E2. destruct i; cbn in E1.
    + injection E1 as <-. exact (rising_first a g H j y E2).
    + assert (H' : rising g = true) by (destruct g; [reflexivity|cbn [rising] in H; now apply andb_prop in H as [_ H]]).
      apply (IH H' i j); auto. lia.
  - induction g as [|a g IH]; intros H; [reflexivity|]. destruct g as [|b g]; [reflexivity|]. cbn [rising]. apply andb_true_intro. split.
    + assert (a < b) by (apply (H 0%nat 1%nat); auto). unR. destruct (Rltb_spec a b); [reflexivity|contradiction].
    + apply IH. intros i j x y L E1 E2. apply (H (S i) (S j)); auto. lia.
Qed.
Lemma last_In (g : list R) : forall a d, In (last (a :: g) d) (a :: g).
Proof. induction g as [|b g IH]; intros a d; [now left|]. right. exact (IH b d). Qed.
Lemma first_least a g : rising (a :: g) = true -> forall x, In x (a :: g) -> a <= x.
Proof. intros H x [->|Hx]; [lra|]. apply In_nth_error in Hx as [j E]. pose proof (rising_first a g H j x E). lra. Qed.
Lemma last_greatest g : forall a d, rising (a :: g) = true -> forall x, In x (a :: g) -> x <= last (a :: g) d.
Proof.
  induction g as [|b g IH]; intros a d H x [->|Hx]; [cbn; lra|destruct Hx| |].
  - assert (H' : rising (b :: g) = true) by (cbn [rising] in H; now apply andb_prop in H as [_ H]).
    pose proof (rising_first x _ H 0%nat b eq_refl). pose proof (IH b d H' b (or_introl eq_refl)). change (last (x :: b :: g) d) with (last (b :: g) d). lra.
  - assert (H' : rising (b :: g) = true) by (cbn [rising] in H; now apply andb_prop in H as [_ H]). exact (IH b d H' x Hx).
Qed.
Lemma dim_ok_covers d : dim_ok d <-> covers d.
Proof.
  destruct d as [p g]. unfold dim_ok, covers. cbn [fst snd]. split.
  - intros (H & a & r & -> & H1 & H2). split; [now apply rising_increasing|]. exists a, (last (a :: r) a). split; [now left|]. split; [apply last_In|]. lra.
  - intros (H & a & z & Ha & Hz & H1 & H2). apply rising_increasing in H. split; [assumption|]. destruct g as [|b r]; [destruct Ha|]. exists b, r. split; [reflexivity|].
    pose proof (first_least b r H a Ha). pose proof (last_greatest r b b H z Hz). lra.
Qed.
Lemma all_covers ds : Forall dim_ok ds <-> Forall covers ds.
Proof. rewrite !Forall_forall. split; intros H d Hd; apply dim_ok_covers, H, Hd. Qed.

(** ** C131 *)
(** A value is returned exactly if coordinates, table and point fit. *)
Theorem C131_accepted point grid shape (v : list nat -> R) : (exists y, multilinear point grid shape v = Ok y) <-> fitting point grid shape.
Proof.
  unfold fitting. split.
  - intros [y H]. apply multilinear_ok in H as (L1 & L2 & E & H). split; [congruence|]. split; [assumption|]. now apply all_covers.
  - intros (L & E & H). assert (L2 : length grid = length shape) by (subst; now rewrite map_length).
    destruct (multilinear_between point grid shape v) as (y & Hy & _); [congruence|assumption|assumption|now apply all_covers|eauto].
Qed.
(** The value returned is interpolated between neighbouring coordinates, dimension by dimension. *)
Theorem C131_value point grid shape (v : list nat -> R) y : multilinear point grid shape v = Ok y -> between (combine point grid) v y.
Proof.
  intros H. pose proof (multilinear_ok _ _ _ _ _ H) as (L1 & L2 & E & D).
  destruct (multilinear_between point grid shape v L1 L2 E D) as (z & Hz & B). rewrite H in Hz. now injection Hz as ->.
Qed.
Lemma increasing_at g i j a b : increasing g -> nth_error g i = Some a -> nth_error g j = Some b -> a <= b -> (i <= j)%nat.
Proof. intros H Ei Ej L. destruct (Nat.le_gt_cases i j) as [|G]; [assumption|]. pose proof (H j i b a G Ej Ei). lra. Qed.
Lemma increasing_lt g i j a b : increasing g -> nth_error g i = Some a -> nth_error g j = Some b -> a < b -> (i < j)%nat.
Proof. intros H Ei Ej L. destruct (Nat.lt_trichotomy i j) as [|[->|G]]; [assumption| |]. - rewrite Ei in Ej. injection Ej as ->. lra. - pose proof (H j i b a G Ej Ei). lra. Qed.
(** There is only one such value, whatever the order or the neighbours. *)
Theorem C131_one ds (v : list nat -> R) y z : Forall (fun d => increasing (snd d)) ds -> between ds v y -> between ds v z -> y = z.
Proof.
  intros H B. revert z. induction B as [v|p g r v k y E B IH|p g r v k a b y1 y2 E1 E2 Hp B1 IH1 B2 IH2]; intros z Bz.
  - inversion Bz. reflexivity.
  - pose proof (Forall_inv H) as Hg. pose proof (Forall_inv_tail H) as Hr. cbn [snd] in Hg. inversion Bz; subst.
    + assert (k = k0) by (apply Nat.le_antisymm; eapply increasing_at; eauto; lra). subst k0. now apply IH.
    + assert (k0 < k)%nat by (eapply increasing_lt; eauto; lra). assert (k < S k0)%nat by (eapply increasing_lt; eauto; lra). lia.
  - pose proof (Forall_inv H) as Hg. pose proof (Forall_inv_tail H) as Hr. cbn [snd] in Hg. inversion Bz; subst.
    + assert (k < k0)%nat by (eapply increasing_lt; eauto; lra). assert (k0 < S k)%nat by (eapply increasing_lt; eauto; lra). lia.
    + assert (k < S k0)%nat by (eapply increasing_lt; eauto; lra). assert (k0 < S k)%nat by (eapply increasing_lt; eauto; lra).
      assert (k0 = k) by lia. subst k0. rewrite E1 in *. rewrite E2 in *.
      repeat match goal with E : Some _ = Some _ |- _ => injection E as E; subst end. match goal with B : between r (fun ix => v (k :: ix)) ?u, C : between r (fun ix => v (S k :: ix)) ?w |- _ = ?u + _ * (?w - ?u) => rewrite (IH1 Hr u B), (IH2 Hr w C) end. reflexivity.
Qed.
(** At a point of the grid the value is the entry of the table. *)
Theorem C131_entry point grid shape (v : list nat -> R) ix : fitting point grid shape ->
  Forall2 (fun gk p => nth_error (fst gk) (snd gk) = Some p) (combine grid ix) point -> length ix = length grid -> multilinear point grid shape v = Ok (v ix).
Proof.
  intros Hf H L. destruct (proj2 (C131_accepted point grid shape v) Hf) as [y Hy]. rewrite Hy. f_equal.
  apply (C131_one (combine point grid) v); [|now apply (C131_value point grid shape)|].
  - destruct Hf as (_ & _ & Hc). apply Forall_forall. intros d Hd. rewrite Forall_forall in Hc. apply (Hc d Hd).
  - clear - H L. revert point ix v H L. induction grid as [|g grid IH]; intros point ix v H L.
    + destruct ix; [|discriminate]. inversion H; subst. apply here.
    + destruct ix as [|k ix]; [discriminate|]. cbn [combine] in H. inversion H as [|? p ? point' Hk Hr]; subst. cbn [combine fst snd] in *.
      apply (at_coordinate p g _ v k); [assumption|]. apply (IH point' ix (fun ix => v (k :: ix))); auto.
Qed.
Lemma between_bounds ds v y lo hi : between ds v y -> (forall ix, index_in (map snd ds) ix -> lo <= v ix <= hi) -> lo <= y <= hi.
Proof.
  induction 1 as [v|p g r v k y E B IH|p g r v k a b y z E1 E2 Hp B1 IH1 B2 IH2]; intros H.
  - apply H. constructor.
  - apply IH. intros ix Hi. apply H. cbn. constructor; [|assumption]. apply nth_error_Some. congruence.
  - assert (Y : lo <= y <= hi) by (apply IH1; intros ix Hi; apply H; cbn; constructor; [apply nth_error_Some; congruence|assumption]).
    assert (Z : lo <= z <= hi) by (apply IH2; intros ix Hi; apply H; cbn; constructor; [apply nth_error_Some; congruence|assumption]).
    set (t := (p - a) / (b - a)). assert (T : 0 <= t <= 1).
    { unfold t. split; [apply Rmult_le_pos; [lra|]; left; apply Rinv_0_lt_compat; lra|]. apply (Rmult_le_reg_r (b - a)); [lra|]. unfold Rdiv. rewrite Rmult_assoc, Rinv_l by lra. lra. }
    replace (y + t * (z - y)) with ((1 - t) * y + t * z) by ring. split; nra.
Qed.
(** The value lies between bounds of the entries. *)
Theorem C131_bounds point grid shape (v : list nat -> R) y lo hi : multilinear point grid shape v = Ok y ->
  (forall ix, index_in grid ix -> lo <= v ix <= hi) -> lo <= y <= hi.
Proof.
  intros H Hv. apply (between_bounds (combine point grid) v); [now apply (C131_value point grid shape)|].
  replace (map snd (combine point grid)) with grid; [assumption|]. apply multilinear_ok in H as (L1 & L2 & _). rewrite <- L2 in L1. clear - L1.
  revert grid L1. induction point; intros [|g grid] L; try discriminate; cbn; [reflexivity|]. f_equal. apply IHpoint. now injection L.
Qed.
Lemma between_straight ds v y : between ds v y -> forall f, straight (length ds) f ->
  (forall ix xs, Forall2 (fun gk p => nth_error (fst gk) (snd gk) = Some p) (combine (map snd ds) ix) xs -> length ix = length ds -> v ix = f xs) -> y = f (map fst ds).
Proof.
  induction 1 as [v|p g r v k y E B IH|p g r v k a b y z E1 E2 Hp B1 IH1 B2 IH2]; intros f Hf Hv.
  - apply Hv; [constructor|reflexivity].
  - inversion Hf as [|? ? _ Hs]; subst. cbn [map fst]. apply (IH (fun xs => f (p :: xs))); [apply Hs|].
    intros ix xs Hx L. apply Hv; [cbn; constructor; assumption|cbn; congruence].
  - inversion Hf as [|? ? Hl Hs]; subst. cbn [map fst].
    assert (Y : y = f (a :: map fst r)).
    { apply (IH1 (fun xs => f (a :: xs))); [apply Hs|]. intros ix xs Hx L. apply Hv; [cbn; constructor; assumption|cbn; congruence]. }
    assert (Z : z = f (b :: map fst r)).
    { apply (IH2 (fun xs => f (b :: xs))); [apply Hs|]. intros ix xs Hx L. apply Hv; [cbn; constructor; assumption|cbn; congruence]. }
    destruct (Hl (map fst r)) as (c & m & Hc). rewrite Y, Z, !Hc. field. lra.
Qed.
(** A function that is a straight line in each of its arguments is met exactly by its table. *)
Theorem C131_exact point grid shape (v : list nat -> R) y f : multilinear point grid shape v = Ok y -> straight (length point) f ->
  (forall ix xs, Forall2 (fun gk p => nth_error (fst gk) (snd gk) = Some p) (combine grid ix) xs -> length ix = length grid -> v ix = f xs) -> y = f point.
Proof.
  intros H Hf Hv. pose proof (C131_value _ _ _ _ _ H) as B. apply multilinear_ok in H as (L1 & L2 & _). rewrite <- L2 in L1.
  assert (E : map snd (combine point grid) = grid /\ map fst (combine point grid) = point /\ length (combine point grid) = length point).
  { clear - L1. revert grid L1. induction point as [|p point IH]; intros [|g grid] L; try discriminate; cbn; [auto|].
    injection L as L. destruct (IH grid L) as (A & C & D). rewrite A, C, D. auto. }
  destruct E as (A & C & D). rewrite <- C. apply (between_straight _ _ _ B); [now rewrite D|]. rewrite A, D, L1. exact Hv.
Qed.

(** A table of 2 by 3 entries with a point inside, one at a coordinate of the second dimension, one outside, and coordinates that do not rise. *)
Definition table (ix : list nat) : float := match ix with [i; j] => nth j (nth i [[10; 20; 40]; [30; 50; 90]] []) 0 | _ => 0 end%float.
Example C131_run :
  map (fun q => multilinear (fst q) (snd q) [2; 3]%nat table)
    [([0.5; 1.5], [[0; 1]; [0; 1; 2]]); ([0.5; 1], [[0; 1]; [0; 1; 2]]); ([1; 2], [[0; 1]; [0; 1; 2]]); ([0.5; 2.5], [[0; 1]; [0; 1; 2]]);
     ([0.5; 1.5], [[0; 1]; [0; 1; 1]]); ([0.5], [[0; 1]; [0; 1; 2]])]%float
  = [Ok 50; Ok 35; Ok 90; Err ValueError; Err ValueError; Err ValueError]%float.
Proof. vm_compute. reflexivity. Qed.
(** A case of the hypotheses: a bilinear function in a table with uneven coordinates. *)
Definition bilinear (xs : list R) : R := match xs with [x; y] => 1 + 2 * x + 3 * y + 4 * x * y | _ => 0 end.
Example C131_case : fitting [1 / 2; 3] [[0; 1]; [0; 2; 5]] [2; 3]%nat /\ straight 2 bilinear.
Proof.
  split.
  - split; [reflexivity|]. split; [reflexivity|]. repeat constructor; cbn [fst snd].
    1, 3: apply rising_increasing; cbn; unR; repeat match goal with |- context [Rltb ?a ?b] => destruct (Rltb_spec a b); [|exfalso; lra] end; reflexivity.
    + exists 0, 1. cbn. repeat split; auto; lra.
    + exists 2, 5. cbn. repeat split; auto; lra.
  - constructor.
    + intros [|y [|w r]]; cbn; [exists 0, 0; intros; ring|exists (1 + 3 * y), (2 + 4 * y); intros; ring|exists 0, 0; intros; ring].
    + intros x. constructor; [|constructor]. intros [|w r]; cbn; [exists (1 + 2 * x), (3 + 4 * x); intros; ring|exists 0, 0; intros; ring].
Qed.
