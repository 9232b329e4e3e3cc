(** Lemmas for C101: the figures of a run whose clock is shifted. *)
From Coq Require Import Lia.
From Verif Require Import Num Numpy ListFacts CycleModel CycleSpec VehModel SimModel SimState WalkModel PostModel
  FrameProofs WalkProofs SimSpec WalkProofs2 PostProofs PlainSpec PlainProofs PlainProofs2 PlainProofs4.
Local Open Scope R_scope.

Lemma diff_shift (t : R) l : forall p, diff_prepend (p + t) (map (fun x => x + t) l) = diff_prepend p l.
Proof. induction l as [|x l IH]; intros p; cbn [map diff_prepend]; [reflexivity|]. rewrite IH. unR. f_equal. lra. Qed.
Lemma dt_shift (t : R) (c : cyc R) (a : list R) : nth 0 a 0 = 0 ->
  zipw nmul a (dt_s (later t c)) = zipw nmul a (dt_s c).
Proof.
  intros A. unfold dt_s, later. cbn [time_s]. destruct a as [|x a]; [reflexivity|]. cbn in A. subst x.
  destruct (time_s c) as [|y l]; [reflexivity|]. cbn [map diff_prepend zipw]. rewrite diff_shift. unR. f_equal. lra.
Qed.
Lemma last_eq_dist (x y : R) : x = y -> nabs (x - y)%num / y = 0.
Proof. intros ->. unR. rewrite Rminus_eq_0, Rabs_R0. unfold Rdiv. lra. Qed.
Section Shift.
  Variables (v : vehicle R) (pr : physprops R) (sp : simparams R) (c : cyc R) (t : R) (ovr : option (list R)).
  Variables (d d' : sdrive R).
  Hypotheses (W : wf c) (C : changes_cycle sp = false).
  Hypotheses (X : run (new_sd v pr sp c) ovr d) (Y : run (new_sd v pr sp (later t c)) ovr d').
  Hypothesis E : d_rows d = d_rows d'.
  Hypothesis AX : forall l, ovr = Some l -> length l = length (time_s c) -> nth 0 l 0 = 0.
  Hypothesis V0 : nth 0 (mps c) 0 = 0.
  Lemma later_wf : wf (later t c).
  Proof. destruct W as (a & b & e). unfold wf, later, clen in *. cbn in *. rewrite map_length. auto. Qed.
  Lemma sh_keep : d_veh d = v /\ d_veh d' = v /\ d_props d = pr /\ d_props d' = pr /\ d_sp d = sp /\ d_sp d' = sp /\
    d_cyc d = c /\ d_cyc d' = later t c /\ d_cyc0 d = c /\ d_cyc0 d' = later t c.
  Proof.
    destruct (run_keeps _ _ _ (new_wf v pr sp c W) X) as (a1 & a2 & a3 & a4 & a5 & a6).
    destruct (run_keeps _ _ _ (new_wf v pr sp _ later_wf) Y) as (b1 & b2 & b3 & b4 & b5 & b6).
    specialize (a6 C). specialize (b6 C). repeat split; assumption.
  Qed.
  Lemma sh_first : exists s a, (a = 0) /\ row_at d 0 = first_row (new_sd v pr sp c) s (row_aux a zero_row).
  Proof.
    pose proof (new_wf v pr sp c W) as WD. destruct (first_is _ _ _ WD X) as (s & H). exists s, (aux_start ovr (length (d_rows d)) 0).
    split; [|exact H]. destruct (run_len _ _ _ WD X) as (L & _).
    destruct sh_keep as (_ & _ & _ & _ & _ & _ & K & _). rewrite K in L. rewrite L. unfold aux_start, is_override.
    destruct ovr as [l|]; [|reflexivity]. destruct (Nat.eqb_spec (length l) (length (time_s c))) as [Q|Q]; [|reflexivity].
    exact (AX l eq_refl Q).
  Qed.
  Lemma sh_zip (f : row R -> R) : (forall s, f (first_row (new_sd v pr sp c) s (row_aux 0 zero_row)) = 0) ->
    zipw nmul (map f (d_rows d')) (dt_s (d_cyc d')) = zipw nmul (map f (d_rows d)) (dt_s (d_cyc d)).
  Proof.
    intros Z. destruct sh_keep as (_ & _ & _ & _ & _ & _ & -> & -> & _). rewrite <- E. apply dt_shift.
    destruct sh_first as (s & a & -> & H). pose proof (run_len _ _ _ (new_wf v pr sp c W) X) as (_ & P & _).
    rewrite (nth_indep _ 0 (f zero_row)) by (rewrite map_length; lia). rewrite map_nth. fold (row_at d 0). rewrite H. apply Z.
  Qed.
  Lemma sh_sum (f : row R -> R) : (forall s, f (first_row (new_sd v pr sp c) s (row_aux 0 zero_row)) = 0) -> sum_dt d' f = sum_dt d f.
  Proof. intros Z. unfold sum_dt. now rewrite sh_zip. Qed.
  Lemma sh_post : set_post_scalars d' = set_post_scalars d.
  Proof.
    destruct sh_keep as (k1 & k2 & k3 & k4 & k5 & k6 & k7 & k8 & k9 & k10).
    assert (ML : ess_loss_arr d' = ess_loss_arr d) by (unfold ess_loss_arr; now rewrite <- E, k1, k2).
    assert (MLZ : zipw nmul (ess_loss_arr d) (dt_s (d_cyc d')) = zipw nmul (ess_loss_arr d) (dt_s (d_cyc d))).
    { rewrite k7, k8. apply dt_shift. unfold ess_loss_arr. destruct (d_rows d); reflexivity. }
    assert (MD : miss_dist_frac d' = miss_dist_frac d).
    { unfold miss_dist_frac, sum_rows, dist_m. rewrite <- E, k9, k10. rewrite dt_shift by exact V0. reflexivity. }
    assert (MT : miss_time_frac d' = miss_time_frac d).
    { unfold miss_time_frac. rewrite k7, k8, k9, k10. unR.
      transitivity 0; [|symmetry]; rewrite Rminus_eq_0, Rabs_R0; unfold Rdiv; lra. }
    assert (MS : miss_speed d' = miss_speed d).
    { unfold miss_speed, mps_ach_at, row_at, cmps. rewrite <- E, k7, k8. unfold later. cbn [time_s mps]. now rewrite map_length. }
    assert (MG : post_mpgge d' = post_mpgge d) by (unfold post_mpgge, sum_rows; now rewrite <- E, k3, k4).
    unfold set_post_scalars, sum_rows, soc_last, soc_first, mps_ach_at, row_at.
    rewrite ML, MLZ, MD, MT, MS, MG, k1, k2, k5, k6, <- E.
    rewrite !sh_sum by (intros; cbn; unR; lra).
    pose proof (sh_zip (fun r => fs_kw_out_ach (fc r)) ltac:(intros; cbn; reflexivity)) as Z. rewrite <- E in Z. rewrite Z. reflexivity.
  Qed.
End Shift.
