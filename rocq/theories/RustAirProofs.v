(** Lemmas about the tables of air properties. *)
From Coq Require Import Sorting.Sorted Lia Lra.
From Verif Require Import Num Numpy ListFacts CycleModel CycleSpec ConcatProofs ResampleProofs RustVehModel RustVehProofs RustUtilModel RustUtilProofs RustAirSpec.
Local Open Scope R_scope.

(** *** Broken lines *)
(** Each piece rises at a rate between [m] and [M]. *)
Fixpoint rate_between (m M : R) (x0 y0 : R) (k : list (R * R)) : Prop :=
  match k with
  | [] => True
  | (x1, y1) :: r => x0 < x1 /\ m * (x1 - x0) <= y1 - y0 <= M * (x1 - x0) /\ rate_between m M x1 y1 r
  end.
Fixpoint last_x (x0 : R) (k : list (R * R)) : R := match k with [] => x0 | (x1, _) :: r => last_x x1 r end.
Lemma piece_value (x x0 y0 x1 y1 : R) : x0 < x1 ->
  (if Reqb x x0 then y0 else (y1 - y0) / (x1 - x0) * (x - x0) + y0) = (y1 - y0) / (x1 - x0) * (x - x0) + y0.
Proof. intros H. destruct (Reqb_spec x x0); [subst; field; lra|reflexivity]. Qed.
Lemma slope_in m M a b : 0 < b -> m * b <= a <= M * b -> m <= a / b <= M.
Proof.
  intros B [L U]. split; (apply (Rmult_le_reg_r b); [exact B|]); unfold Rdiv; rewrite Rmult_assoc, Rinv_l by lra; lra.
Qed.
Lemma from_start m M k : forall x x0 y0, rate_between m M x0 y0 k -> x0 <= x <= last_x x0 k ->
  m * (x - x0) <= interp_from x x0 y0 k - y0 <= M * (x - x0).
Proof.
  induction k as [|(x1 & y1) k IH]; intros x x0 y0 G H; cbn [interp_from last_x] in *.
  - assert (x = x0) by lra. subst. lra.
  - destruct G as (L & S & G). unR. destruct (Rltb_spec x x1).
    + rewrite piece_value by exact L. destruct (slope_in m M (y1 - y0) (x1 - x0)) as [A B]; [lra|exact S|].
      assert (m * (x - x0) <= (y1 - y0) / (x1 - x0) * (x - x0)) by (apply Rmult_le_compat_r; lra).
      assert ((y1 - y0) / (x1 - x0) * (x - x0) <= M * (x - x0)) by (apply Rmult_le_compat_r; lra). lra.
    + destruct (IH x x1 y1 G) as [A B]; [lra|]. lra.
Qed.
Lemma rates m M k : forall x x' x0 y0, rate_between m M x0 y0 k -> x0 <= x -> x <= x' -> x' <= last_x x0 k ->
  m * (x' - x) <= interp_from x' x0 y0 k - interp_from x x0 y0 k <= M * (x' - x).
Proof.
  induction k as [|(x1 & y1) k IH]; intros x x' x0 y0 G H1 H2 H3; cbn [interp_from last_x] in *.
  - assert (x = x0) by lra. assert (x' = x0) by lra. subst. lra.
  - destruct G as (L & S & G). destruct (slope_in m M (y1 - y0) (x1 - x0)) as [A B]; [lra|exact S|].
    unR. destruct (Rltb_spec x x1); destruct (Rltb_spec x' x1); rewrite ?piece_value by exact L.
    + set (q := (y1 - y0) / (x1 - x0)) in *.
      assert (m * (x' - x) <= q * (x' - x)) by (apply Rmult_le_compat_r; lra).
      assert (q * (x' - x) <= M * (x' - x)) by (apply Rmult_le_compat_r; lra). lra.
    + destruct (from_start m M k x' x1 y1 G) as [C D]; [lra|].
      assert (E : (y1 - y0) / (x1 - x0) * (x - x0) + y0 = y1 - (y1 - y0) / (x1 - x0) * (x1 - x)) by (field; lra). rewrite E.
      set (q := (y1 - y0) / (x1 - x0)) in *.
      assert (m * (x1 - x) <= q * (x1 - x)) by (apply Rmult_le_compat_r; lra).
      assert (q * (x1 - x) <= M * (x1 - x)) by (apply Rmult_le_compat_r; lra). lra.
    + lra.
    + apply IH; auto; lra.
Qed.
Lemma interp_rates m M x0 y0 k x x' : rate_between m M x0 y0 k -> x0 <= x -> x <= x' -> x' <= last_x x0 k ->
  m * (x' - x) <= interp1 x' ((x0, y0) :: k) - interp1 x ((x0, y0) :: k) <= M * (x' - x).
Proof.
  intros G H1 H2 H3. cbn [interp1]. unR. destruct (Rltb_spec x x0); [lra|]. destruct (Rltb_spec x' x0); [lra|]. now apply rates.
Qed.

(** Between the least and the greatest knot value. *)
Lemma from_between lo hi k : forall x x0 y0, increasing (x0 :: map fst k) -> lo <= y0 <= hi ->
  Forall (fun p => lo <= snd p <= hi) k -> x0 <= x -> lo <= interp_from x x0 y0 k <= hi.
Proof.
  induction k as [|(x1 & y1) k IH]; intros x x0 y0 I B0 Bk H; cbn [interp_from]; [exact B0|].
  cbn [map fst] in I. pose proof (inc_hd _ _ _ I) as L. inversion Bk as [|p l B1 Bk']; subst. cbn [snd] in B1. unR. destruct (Rltb_spec x x1).
  - rewrite piece_value by exact L. set (f := (x - x0) / (x1 - x0)).
    assert (F : 0 <= f <= 1).
    { unfold f. split; [apply Rmult_le_pos; [lra|left; apply Rinv_0_lt_compat; lra]|].
      apply (Rmult_le_reg_r (x1 - x0)); [lra|]. unfold Rdiv. rewrite Rmult_assoc, Rinv_l; lra. }
    replace ((y1 - y0) / (x1 - x0) * (x - x0) + y0) with (y0 * (1 - f) + y1 * f) by (unfold f; field; lra). nra.
  - apply IH; auto; [exact (inc_tl _ _ I)|lra].
Qed.
Lemma snd_all (P : R -> Prop) xs : forall ys, Forall P ys -> Forall (fun p : R * R => P (snd p)) (combine xs ys).
Proof.
  induction xs as [|x xs IH]; intros ys H; [apply Forall_nil|]. destruct ys as [|y ys]; [apply Forall_nil|]. inversion H; subst. apply Forall_cons; auto.
Qed.
Lemma interp_between lo hi xs ys x : xs <> [] -> length ys = length xs -> increasing xs -> Forall (fun y => lo <= y <= hi) ys ->
  lo <= interp1 x (combine xs ys) <= hi.
Proof.
  destruct xs as [|x0 xs]; [congruence|]. destruct ys as [|y0 ys]; [discriminate|]. intros _ L I B. inversion B as [|p l B0 Bk]; subst. cbn [combine interp1]. unR.
  destruct (Rltb_spec x x0); [exact B0|]. apply from_between; [| exact B0 |exact (snd_all (fun y => lo <= y <= hi) xs ys Bk)|lra].
  rewrite combine_fst by (cbn in L; lia). exact I.
Qed.

(** Reading a line with rising values the other way round. *)
Lemma polyline_swap xs ys x y : xs <> [] -> length ys = length xs -> increasing xs -> increasing ys -> hd 0 xs <= x <= last xs 0 ->
  on_polyline xs ys x y -> on_polyline ys xs y x.
Proof.
  intros Hne L Ix Iy [A B] [[C ->]|[[C ->]|(i & a & b & c & d & Ea & Eb & Ec & Ed & H & ->)]].
  - left. split; lra.
  - right; left. split; lra.
  - right; right. exists i, c, d, a, b. assert (a < b) by (apply (Ix i (S i)); auto). assert (c < d) by (apply (Iy i (S i)); auto).
    repeat (split; [assumption|]). set (f := (x - a) / (b - a)).
    assert (F : 0 <= f <= 1).
    { unfold f. split; [apply Rmult_le_pos; [lra|left; apply Rinv_0_lt_compat; lra]|].
      apply (Rmult_le_reg_r (b - a)); [lra|]. unfold Rdiv. rewrite Rmult_assoc, Rinv_l; lra. }
    split; [nra|]. replace x with (a + (b - a) * f) at 1 by (unfold f; field; lra). f_equal. f_equal. field. lra.
Qed.

(** *** The tables *)
Lemma air_lengths : length (@air_te R RNum) = 25%nat /\ length (@air_k R RNum) = 25%nat /\ length (@air_cp R RNum) = 25%nat /\
  length (@air_h R RNum) = 25%nat /\ length (@air_mu R RNum) = 25%nat /\ length (@air_pr R RNum) = 25%nat.
Proof. repeat split. Qed.
Lemma air_lookup (ys : list R) t : length ys = 25%nat -> r_interpolate t air_te ys false = Ok (interp1 t (combine air_te ys)).
Proof. intros L. apply r_interp; [apply Nat.leb_le; reflexivity|now rewrite L|exact air_te_inc]. Qed.
Lemma te_lookup h : r_interpolate h (@air_h R RNum) air_te false = Ok (interp1 h (combine air_h air_te)).
Proof. apply r_interp; [apply Nat.leb_le; reflexivity|reflexivity|exact air_h_inc]. Qed.
Lemma te_ends : hd 0 (@air_te R RNum) = -60 /\ last (@air_te R RNum) 0 = 5000.
Proof. unfold air_te. cbn [map hd last]. rewrite !lit_R. split; lra. Qed.
Lemma h_ends : hd 0 (@air_h R RNum) = 338940 /\ last (@air_h R RNum) 0 = 6662000.
Proof. unfold air_h. cbn [map hd last]. unR. split; lra. Qed.
Lemma h_there_back t : -60 <= t <= 5000 -> exists h, get_h t = Ok h /\ 338940 <= h <= 6662000 /\ get_te_from_h h = Ok t.
Proof.
  intros T. unfold get_h, get_te_from_h. rewrite air_lookup by reflexivity. eexists. split; [reflexivity|].
  assert (P : on_polyline air_te air_h t (interp1 t (combine air_te air_h))) by (apply interp1_polyline; [discriminate|reflexivity|exact air_te_inc]).
  set (h := interp1 t (combine air_te air_h)) in *. split.
  - apply interp_between; [discriminate|reflexivity|exact air_te_inc|]. unfold air_h. cbn [map]. unR. repeat (apply Forall_cons; [lra|]). apply Forall_nil.
  - rewrite te_lookup. f_equal. apply (on_polyline_unique air_h air_te h); [discriminate|reflexivity|exact air_h_inc| |].
    + apply interp1_polyline; [discriminate|reflexivity|exact air_h_inc].
    + apply polyline_swap; [discriminate|reflexivity|exact air_te_inc|exact air_h_inc| |exact P]. destruct te_ends as [-> ->]. exact T.
Qed.
Lemma te_there_back h : 338940 <= h <= 6662000 -> exists t, get_te_from_h h = Ok t /\ -60 <= t <= 5000 /\ get_h t = Ok h.
Proof.
  intros T. unfold get_h, get_te_from_h. rewrite te_lookup. eexists. split; [reflexivity|].
  assert (P : on_polyline air_h air_te h (interp1 h (combine air_h air_te))) by (apply interp1_polyline; [discriminate|reflexivity|exact air_h_inc]).
  set (t := interp1 h (combine air_h air_te)) in *. split.
  - apply interp_between; [discriminate|reflexivity|exact air_h_inc|]. unfold air_te. cbn [map]. rewrite !lit_R. repeat (apply Forall_cons; [lra|]). apply Forall_nil.
  - rewrite air_lookup by reflexivity. f_equal. apply (on_polyline_unique air_te air_h t); [discriminate|reflexivity|exact air_te_inc| |].
    + apply interp1_polyline; [discriminate|reflexivity|exact air_te_inc].
    + apply polyline_swap; [discriminate|reflexivity|exact air_h_inc|exact air_te_inc| |exact P]. destruct h_ends as [-> ->]. exact T.
Qed.
Lemma air_rates (ys : list R) m M t t' : length ys = 25%nat ->
  rate_between m M (hd 0 air_te) (hd 0 ys) (combine (tl air_te) (tl ys)) -> -60 <= t -> t <= t' -> t' <= 5000 ->
  exists y y', r_interpolate t air_te ys false = Ok y /\ r_interpolate t' air_te ys false = Ok y' /\ m * (t' - t) <= y' - y <= M * (t' - t).
Proof.
  intros L G H1 H2 H3. rewrite !air_lookup by exact L. do 2 eexists. split; [reflexivity|]. split; [reflexivity|].
  destruct ys as [|y0 ys]; [discriminate|]. cbn [hd tl] in G. destruct te_ends as [E1 E2].
  change (combine air_te (y0 :: ys)) with ((hd 0 (@air_te R RNum), y0) :: combine (tl air_te) ys). apply interp_rates; [exact G|lra|exact H2|].
  assert (X : last_x (hd 0 (@air_te R RNum)) (combine (tl air_te) ys) = last (@air_te R RNum) 0).
  { cbn in L. do 24 (destruct ys as [|? ys]; [discriminate|]). reflexivity. }
  lra.
Qed.
Ltac table := cbn [hd tl map combine rate_between air_te air_h air_k air_mu]; unfold air_te, air_h, air_k, air_mu; cbn [hd tl map combine rate_between]; rewrite ?lit_R; unR.
Lemma h_rate : rate_between 1004 1337 (hd 0 (@air_te R RNum)) (hd 0 (@air_h R RNum)) (combine (tl air_te) (tl air_h)).
Proof. table. repeat split; lra. Qed.
Lemma k_rate : rate_between (4 / 100000) (84 / 1000000) (hd 0 (@air_te R RNum)) (hd 0 (@air_k R RNum)) (combine (tl air_te) (tl air_k)).
Proof. table. repeat split; lra. Qed.
Lemma mu_rate : rate_between (2 / 100000000) (6 / 100000000) (hd 0 (@air_te R RNum)) (hd 0 (@air_mu R RNum)) (combine (tl air_te) (tl air_mu)).
Proof. table. repeat split; lra. Qed.

(** *** The specific heat and the enthalpy fit together *)
Lemma air_piece (ys : list R) i a b c d x : length ys = 25%nat -> nth_error air_te i = Some a -> nth_error air_te (S i) = Some b ->
  nth_error ys i = Some c -> nth_error ys (S i) = Some d -> a <= x <= b ->
  r_interpolate x air_te ys false = Ok (c + (d - c) * ((x - a) / (b - a))).
Proof.
  intros L A B C D X. rewrite air_lookup by exact L. f_equal. apply (on_polyline_unique air_te ys x); [discriminate|now rewrite L|exact air_te_inc| |].
  - apply interp1_polyline; [discriminate|now rewrite L|exact air_te_inc].
  - right; right. exists i, a, b, c, d. repeat (split; [assumption|]). reflexivity.
Qed.
Fixpoint cp_fits (te h cp : list R) : Prop :=
  match te, h, cp with
  | t0 :: ((t1 :: _) as te'), h0 :: ((h1 :: _) as h'), c0 :: ((c1 :: _) as cp') =>
      98 / 100 * c0 * (t1 - t0) <= h1 - h0 <= 102 / 100 * c0 * (t1 - t0) /\ 98 / 100 * c1 * (t1 - t0) <= h1 - h0 <= 102 / 100 * c1 * (t1 - t0) /\
      cp_fits te' h' cp'
  | _, _, _ => True
  end.
Lemma cp_fits_nth te : forall h cp i t0 t1 h0 h1 c0 c1, cp_fits te h cp -> nth_error te i = Some t0 -> nth_error te (S i) = Some t1 ->
  nth_error h i = Some h0 -> nth_error h (S i) = Some h1 -> nth_error cp i = Some c0 -> nth_error cp (S i) = Some c1 ->
  98 / 100 * c0 * (t1 - t0) <= h1 - h0 <= 102 / 100 * c0 * (t1 - t0) /\ 98 / 100 * c1 * (t1 - t0) <= h1 - h0 <= 102 / 100 * c1 * (t1 - t0).
Proof.
  induction te as [|t te IH]; intros h cp i t0 t1 h0 h1 c0 c1 G; [destruct i; discriminate|].
  destruct i as [|i].
  - destruct te as [|t' te]; [discriminate|]. destruct h as [|y [|y' h]]; try discriminate. destruct cp as [|z [|z' cp]]; try discriminate.
    intros [= ->] [= ->] [= ->] [= ->] [= ->] [= ->]. destruct G as (A & B & _). auto.
  - destruct te as [|t' te]; [destruct i; discriminate|]. destruct h as [|y [|y' h]]; try (destruct i; discriminate). destruct cp as [|z [|z' cp]]; try (destruct i; discriminate).
    destruct G as (_ & _ & G). exact (IH (y' :: h) (z' :: cp) i t0 t1 h0 h1 c0 c1 G).
Qed.
Lemma air_cp_fits : cp_fits (@air_te R RNum) air_h air_cp.
Proof. unfold air_te, air_h, air_cp. cbn [map cp_fits]. rewrite ?lit_R. unR. repeat split; lra. Qed.
Lemma cp_slope i a b t t' : nth_error (@air_te R RNum) i = Some a -> nth_error (@air_te R RNum) (S i) = Some b -> a <= t -> t <= t' -> t' <= b ->
  exists y y' c, get_h t = Ok y /\ get_h t' = Ok y' /\ get_cp t = Ok c /\ 98 / 100 * c * (t' - t) <= y' - y <= 102 / 100 * c * (t' - t).
Proof.
  intros A B H1 H2 H3. assert (Li : (S i < 25)%nat) by (apply (nth_error_Some (@air_te R RNum)); congruence).
  destruct (nth_error (@air_h R RNum) i) as [h0|] eqn:E1; [|apply nth_error_None in E1; cbn in E1; lia].
  destruct (nth_error (@air_h R RNum) (S i)) as [h1|] eqn:E2; [|apply nth_error_None in E2; cbn in E2; lia].
  destruct (nth_error (@air_cp R RNum) i) as [c0|] eqn:E3; [|apply nth_error_None in E3; cbn in E3; lia].
  destruct (nth_error (@air_cp R RNum) (S i)) as [c1|] eqn:E4; [|apply nth_error_None in E4; cbn in E4; lia].
  destruct (cp_fits_nth _ _ _ _ _ _ _ _ _ _ air_cp_fits A B E1 E2 E3 E4) as [F0 F1].
  assert (L : a < b) by (apply (air_te_inc i (S i)); auto).
  unfold get_h, get_cp. rewrite (air_piece air_h i a b h0 h1 t), (air_piece air_h i a b h0 h1 t'), (air_piece air_cp i a b c0 c1 t) by (auto || lra).
  do 3 eexists. repeat (split; [reflexivity|]).
  set (g := (t - a) / (b - a)).
  assert (G : 0 <= g <= 1).
  { unfold g. split; [apply Rmult_le_pos; [lra|left; apply Rinv_0_lt_compat; lra]|].
    apply (Rmult_le_reg_r (b - a)); [lra|]. unfold Rdiv. rewrite Rmult_assoc, Rinv_l; lra. }
  replace (h0 + (h1 - h0) * ((t' - a) / (b - a)) - (h0 + (h1 - h0) * g)) with ((h1 - h0) / (b - a) * (t' - t)) by (unfold g; field; lra).
  assert (S0 : 98 / 100 * c0 <= (h1 - h0) / (b - a) <= 102 / 100 * c0) by (apply slope_in; lra).
  assert (S1 : 98 / 100 * c1 <= (h1 - h0) / (b - a) <= 102 / 100 * c1) by (apply slope_in; lra).
  set (q := (h1 - h0) / (b - a)) in *. split; apply Rmult_le_compat_r; nra.
Qed.
Lemma air_pr_between : Forall (fun y => 698 / 1000 <= y <= 744 / 1000) (@air_pr R RNum).
Proof. unfold air_pr, air_mu, air_cp, air_k. cbn [map zipw]. rewrite ?lit_R. unR. repeat (apply Forall_cons; [lra|]). apply Forall_nil. Qed.
Lemma air_cp_between : Forall (fun y => 10055 / 10 <= y <= 1347) (@air_cp R RNum).
Proof. unfold air_cp. cbn [map]. rewrite ?lit_R. repeat (apply Forall_cons; [lra|]). apply Forall_nil. Qed.
Lemma air_k_between : Forall (fun y => 19597 / 1000000 <= y <= 26081 / 100000) (@air_k R RNum).
Proof. unfold air_k. cbn [map]. rewrite ?lit_R. repeat (apply Forall_cons; [lra|]). apply Forall_nil. Qed.
Lemma air_mu_between : Forall (fun y => 14067 / 1000000000 <= y <= 14006 / 100000000) (@air_mu R RNum).
Proof. unfold air_mu. cbn [map]. rewrite ?lit_R. repeat (apply Forall_cons; [lra|]). apply Forall_nil. Qed.
Lemma air_between (ys : list R) lo hi t : length ys = 25%nat -> Forall (fun y => lo <= y <= hi) ys ->
  exists y, r_interpolate t air_te ys false = Ok y /\ lo <= y <= hi.
Proof.
  intros L B. rewrite air_lookup by exact L. eexists. split; [reflexivity|]. apply interp_between; [discriminate|now rewrite L|exact air_te_inc|exact B].
Qed.
(** Outside of the table. *)
Lemma air_outside (ys : list R) t : length ys = 25%nat ->
  (t <= -60 -> r_interpolate t air_te ys false = Ok (hd 0 ys)) /\ (5000 <= t -> r_interpolate t air_te ys false = Ok (last ys 0)).
Proof.
  intros L. rewrite air_lookup by exact L. destruct te_ends as [E1 E2].
  split; intros H; f_equal; (apply (on_polyline_unique air_te ys t); [discriminate|now rewrite L|exact air_te_inc|apply interp1_polyline; [discriminate|now rewrite L|exact air_te_inc]|]).
  - left. split; [lra|reflexivity].
  - right; left. split; [lra|reflexivity].
Qed.

(** *** The rows *)
Ltac columns := unfold air_rows, row_te, row_k, row_cp, row_h, row_mu; cbn [map]; rewrite ?lit_R; unR; repeat (apply f_equal2; [lra|]); reflexivity.
Lemma te_rows : @air_te R RNum = map row_te air_rows. Proof. unfold air_te. columns. Qed.
Lemma k_rows : @air_k R RNum = map row_k air_rows. Proof. unfold air_k. columns. Qed.
Lemma cp_rows : @air_cp R RNum = map row_cp air_rows. Proof. unfold air_cp. columns. Qed.
Lemma h_rows : @air_h R RNum = map row_h air_rows. Proof. unfold air_h. columns. Qed.
Lemma mu_rows : @air_mu R RNum = map row_mu air_rows. Proof. unfold air_mu. columns. Qed.
Lemma zip_rows {A} (f g : A -> R) (o : R -> R -> R) l : zipw o (map f l) (map g l) = map (fun x => o (f x) (g x)) l.
Proof. induction l as [|x l IH]; [reflexivity|]. cbn [map zipw]. now rewrite IH. Qed.
Lemma pr_rows : @air_pr R RNum = map row_pr air_rows.
Proof. unfold air_pr. rewrite mu_rows, cp_rows, k_rows, zip_rows, zip_rows. reflexivity. Qed.
Lemma line_iff xs ys x y : (2 <= length xs)%nat -> length ys = length xs -> increasing xs ->
  (r_interpolate x xs ys false = Ok y <-> on_polyline xs ys x y).
Proof.
  intros L2 L I. rewrite r_interp by assumption. assert (Ne : xs <> []) by (destruct xs; [cbn in L2; lia|discriminate]).
  assert (P : on_polyline xs ys x (interp1 x (combine xs ys))) by (apply interp1_polyline; assumption). split.
  - intros [= <-]. exact P.
  - intros Q. f_equal. apply (on_polyline_unique xs ys x); assumption.
Qed.
