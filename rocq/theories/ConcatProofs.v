(** Proofs about concat and clip_by_times (properties C03-C05). *)
From Coq Require Import Sorting.Sorted.
From Verif Require Import Num Numpy ListFacts CycleModel CycleSpec MicrotripProofs.
Local Open Scope R_scope.

Lemma increasing_SS (l : list R) : increasing l <-> StronglySorted Rlt l.
Proof.
  split.
  - induction l as [|x l IH]; intros H; constructor.
    + apply IH. intros i j a b Hij Ha Hb. exact (H (S i) (S j) a b ltac:(lia) Ha Hb).
    + apply Forall_forall. intros y Hy. apply In_nth_error in Hy as (k & Hk).
      exact (H 0%nat (S k) x y ltac:(lia) eq_refl Hk).
  - induction l as [|x l IH]; intros H i j a b Hij Ha Hb.
    + destruct i; discriminate.
    + apply StronglySorted_inv in H as [H1 H2]. rewrite Forall_forall in H2.
      destruct j as [|j]; [lia|]. cbn in Hb.
      destruct i as [|i]; cbn in Ha.
      * injection Ha as <-. apply H2. now apply nth_error_In in Hb.
      * exact (IH H1 i j a b ltac:(lia) Ha Hb).
Qed.
Lemma SS_app (l1 l2 : list R) :
  StronglySorted Rlt l1 -> StronglySorted Rlt l2 ->
  (forall x y, In x l1 -> In y l2 -> x < y) -> StronglySorted Rlt (l1 ++ l2).
Proof.
  induction l1 as [|a l1 IH]; intros H1 H2 H; cbn; [assumption|].
  apply StronglySorted_inv in H1 as [H1 Ha]. constructor.
  - apply IH; auto. intros; apply H; [now right|assumption].
  - rewrite Forall_forall in *. intros y Hy. apply in_app_iff in Hy as [Hy|Hy]; [auto|].
    apply H; [now left|assumption].
Qed.
Lemma SS_last_max (l : list R) x d : StronglySorted Rlt l -> In x l -> x <= last l d.
Proof.
  induction l as [|a l IH]; intros H Hx; [destruct Hx|].
  apply StronglySorted_inv in H as [H1 H2]. rewrite Forall_forall in H2.
  destruct l as [|b l].
  - destruct Hx as [->|[]]. cbn. lra.
  - change (last (a :: b :: l) d) with (last (b :: l) d).
    destruct Hx as [->|Hx]; [|now apply IH].
    left. apply H2. apply last_In. discriminate.
Qed.

Section Generic.
  Context {F : Type} {N : Num F}.

  Lemma concat_fold_app (f : cyc F) l1 l2 :
    concat_fold f (l1 ++ l2) = do a <- concat_fold f l1; concat_fold a l2.
  Proof.
    revert f; induction l1 as [|c l1 IH]; intros f; cbn [app concat_fold bindR]; [reflexivity|].
    destruct (concat_step f c); cbn; [apply IH|reflexivity].
  Qed.
  Theorem concat_app (l1 l2 : list (cyc F)) :
    l1 <> [] -> concat (l1 ++ l2) = do a <- concat l1; concat (a :: l2).
  Proof.
    destruct l1 as [|c l1]; [congruence|intros _]. cbn [app concat]. apply concat_fold_app.
  Qed.
  Theorem concat_empty_first (c d : cyc F) l :
    time_s c = [] -> concat (c :: d :: l) = Err IndexError.
  Proof. intros H. cbn [concat concat_fold]. unfold concat_step. rewrite H. reflexivity. Qed.

  (** The accumulated cycle is a prefix of the result. *)
  Lemma concat_fold_prefix l : forall f r : cyc F, concat_fold f l = Ok r ->
    exists t v g w, time_s r = time_s f ++ t /\ mps r = mps f ++ v /\
                    grade r = grade f ++ g /\ road_type r = road_type f ++ w.
  Proof.
    induction l as [|c l IH]; intros f r; cbn [concat_fold].
    - intros [= <-]. exists [], [], [], []. rewrite !app_nil_r. auto.
    - unfold concat_step at 1. destruct (time_s f) as [|t0 ts] eqn:Ef; [discriminate|].
      cbn [bindR]. intros H. apply IH in H. cbn [time_s mps grade road_type] in H.
      destruct H as (t & v & g & w & -> & -> & -> & ->). rewrite <- !app_assoc.
      repeat eexists; reflexivity.
  Qed.
  Lemma concat_fold_ok l : forall f : cyc F, time_s f <> [] -> exists r, concat_fold f l = Ok r.
  Proof.
    induction l as [|c l IH]; intros f Hf; cbn [concat_fold]; [eauto|].
    unfold concat_step at 1. destruct (time_s f) as [|t0 ts] eqn:Ef; [congruence|].
    cbn [bindR]. apply IH. cbn. discriminate.
  Qed.
  Theorem concat_ok (c : cyc F) l : time_s c <> [] -> exists r, concat (c :: l) = Ok r.
  Proof. apply concat_fold_ok. Qed.

  Lemma concat_fold_length l : forall f r : cyc F, concat_fold f l = Ok r ->
    length (time_s r) = (length (time_s f) + list_sum (map (fun c => length (time_s c) - 1)%nat l))%nat /\
    length (mps r) = (length (mps f) + list_sum (map (fun c => length (mps c) - 1)%nat l))%nat /\
    length (grade r) = (length (grade f) + list_sum (map (fun c => length (grade c) - 1)%nat l))%nat /\
    length (road_type r) = (length (road_type f) + list_sum (map (fun c => length (road_type c) - 1)%nat l))%nat.
  Proof.
    induction l as [|c l IH]; intros f r; cbn [concat_fold].
    - intros [= <-]. cbn. lia.
    - unfold concat_step at 1. destruct (time_s f) as [|t0 ts] eqn:Ef; [discriminate|].
      cbn [bindR]. intros H. apply IH in H. cbn [time_s mps grade road_type] in H.
      destruct H as (H1 & H2 & H3 & H4).
      rewrite app_length in H1, H2, H3, H4. rewrite map_length in H1.
      rewrite tl_length in H1, H2, H3, H4. cbn [length] in *.
      change (list_sum (map ?g (c :: l))) with (g c + list_sum (map g l))%nat.
      cbn beta. lia.
  Qed.
End Generic.

Theorem concat_length (c : cyc R) l r :
  concat (c :: l) = Ok r ->
  length (time_s r) = (length (time_s c) + list_sum (map (fun d => length (time_s d) - 1)%nat l))%nat.
Proof. intros H. exact (proj1 (concat_fold_length l c r H)). Qed.

(** Where the samples of one cycle land. *)
Theorem concat_block (pre post : list (cyc R)) (c a r : cyc R) :
  pre <> [] -> concat pre = Ok a -> concat (pre ++ c :: post) = Ok r ->
  (forall i, (i < length (time_s a))%nat -> nth_error (time_s r) i = nth_error (time_s a) i) /\
  (forall i, (i < length (mps a))%nat -> nth_error (mps r) i = nth_error (mps a) i) /\
  (forall i, (i < length (grade a))%nat -> nth_error (grade r) i = nth_error (grade a) i) /\
  (forall i, (i < length (road_type a))%nat -> nth_error (road_type r) i = nth_error (road_type a) i) /\
  (forall j t, (1 <= j)%nat -> nth_error (time_s c) j = Some t ->
               nth_error (time_s r) (length (time_s a) + j - 1) = Some (t + end_time a)) /\
  (forall j v, (1 <= j)%nat -> nth_error (mps c) j = Some v ->
               nth_error (mps r) (length (mps a) + j - 1) = Some v) /\
  (forall j v, (1 <= j)%nat -> nth_error (grade c) j = Some v ->
               nth_error (grade r) (length (grade a) + j - 1) = Some v) /\
  (forall j v, (1 <= j)%nat -> nth_error (road_type c) j = Some v ->
               nth_error (road_type r) (length (road_type a) + j - 1) = Some v).
Proof.
  intros Hpre Ha Hr. rewrite concat_app in Hr by assumption. rewrite Ha in Hr. cbn [bindR concat] in Hr.
  cbn [concat_fold] in Hr. unfold concat_step at 1 in Hr.
  destruct (time_s a) as [|t0 ts] eqn:Et; [discriminate|]. cbn [bindR] in Hr.
  apply concat_fold_prefix in Hr. cbn [time_s mps grade road_type] in Hr.
  destruct Hr as (t & v & g & w & E1 & E2 & E3 & E4).
  rewrite E1, E2, E3, E4.
  assert (Hpref : forall (A : Type) (x y z : list A) i, (i < length x)%nat ->
            nth_error ((x ++ y) ++ z) i = nth_error x i).
  { intros A x y z i Hi. rewrite nth_error_app1 by (rewrite app_length; lia).
    now rewrite nth_error_app1. }
  assert (Hblk : forall (A B : Type) (f : B -> A) (x : list A) (cc : list B) (z : list A) j b,
            (1 <= j)%nat -> nth_error cc j = Some b ->
            nth_error ((x ++ map f (tl cc)) ++ z) (length x + j - 1) = Some (f b)).
  { intros A B f x cc z j b Hj Hb. destruct cc as [|c0 cc]; [destruct j; discriminate|].
    destruct j as [|j]; [lia|]. cbn in Hb. cbn [tl].
    assert (Hlen : (j < length cc)%nat) by (apply nth_error_Some; congruence).
    rewrite nth_error_app1 by (rewrite app_length, map_length; lia).
    rewrite nth_error_app2 by lia.
    replace (length x + S j - 1 - length x)%nat with j by lia.
    rewrite nth_error_map, Hb. reflexivity. }
  split; [intros; apply Hpref; assumption|].
  split; [intros; apply Hpref; assumption|].
  split; [intros; apply Hpref; assumption|].
  split; [intros; apply Hpref; assumption|].
  split; [|split; [|split]]; intros j x Hj Hx.
  - rewrite (Hblk R R (fun x => nadd x (last (t0 :: ts) t0)) (t0 :: ts) (time_s c) t j x Hj Hx).
    unR. unfold end_time. rewrite Et. now rewrite (last_default t0 ts 0 t0).
  - specialize (Hblk R R (fun x => x) (mps a) (mps c) v j x Hj Hx). now rewrite map_id in Hblk.
  - specialize (Hblk R R (fun x => x) (grade a) (grade c) g j x Hj Hx). now rewrite map_id in Hblk.
  - specialize (Hblk R R (fun x => x) (road_type a) (road_type c) w j x Hj Hx). now rewrite map_id in Hblk.
Qed.

(** One step, over the reals, in terms of [end_time]. *)
Lemma concat_step_R (a c : cyc R) : time_s a <> [] ->
  concat_step a c = Ok (mkcyc (time_s a ++ map (fun x => x + end_time a) (tl (time_s c)))
                             (mps a ++ tl (mps c)) (grade a ++ tl (grade c))
                             (road_type a ++ tl (road_type c))).
Proof.
  intros H. unfold concat_step, end_time. destruct (time_s a) as [|t ts]; [congruence|].
  unR. now rewrite (last_default t ts 0 t).
Qed.

Lemma end_time_step (a c : cyc R) r :
  time_s a <> [] -> hd_error (time_s c) = Some 0 -> concat_step a c = Ok r ->
  end_time r = end_time a + end_time c /\ time_s r <> [] /\ hd_error (time_s r) = hd_error (time_s a).
Proof.
  intros Ha Hc H. rewrite concat_step_R in H by assumption. injection H as <-.
  unfold end_time; cbn [time_s].
  destruct (time_s c) as [|c0 cs]; [discriminate|]. cbn in Hc. injection Hc as ->.
  split; [|split].
  - destruct cs as [|c1 cs]; cbn [tl map].
    + rewrite app_nil_r. cbn. lra.
    + rewrite last_app_ne. change (last (0 :: c1 :: cs) 0) with (last (c1 :: cs) 0).
      set (f := fun x => x + last (time_s a) 0). cbn [map].
      change (c1 + last (time_s a) 0) with (f c1).
      rewrite (last_default (f c1) (map f cs) 0 (f 0)).
      change (f c1 :: map f cs) with (map f (c1 :: cs)).
      rewrite last_map. unfold f. lra.
  - destruct (time_s a); [congruence|discriminate].
  - destruct (time_s a); [congruence|reflexivity].
Qed.

Theorem concat_end_time (c : cyc R) l r :
  time_s c <> [] -> (forall d, In d l -> hd_error (time_s d) = Some 0) ->
  concat (c :: l) = Ok r ->
  end_time r = end_time c + Rsum (map end_time l).
Proof.
  cbn [concat]. revert c; induction l as [|d l IH]; intros c Hc Hl; cbn [concat_fold map].
  - intros [= <-]. unfold Rsum; cbn; lra.
  - destruct (concat_step c d) as [f|] eqn:E; [|discriminate]. cbn [bindR]. intros H.
    destruct (end_time_step c d f Hc (Hl d (or_introl eq_refl)) E) as (E1 & E2 & _).
    rewrite (IH f E2 (fun x Hx => Hl x (or_intror Hx)) H), E1, Rsum_cons. lra.
Qed.

(** Nested concatenation gives the same cycle. *)
Lemma concat_nest_step (a b c r : cyc R) :
  time_s a <> [] -> hd_error (time_s b) = Some 0 -> wf b ->
  concat_step b c = Ok r -> (do x <- concat_step a b; concat_step x c) = concat_step a r.
Proof.
  intros Ha Hb Hwf H.
  assert (Hbne : time_s b <> []) by (destruct (time_s b); [discriminate|discriminate]).
  rewrite concat_step_R in H by assumption. injection H as <-.
  destruct (concat_step a b) as [x|] eqn:Ex.
  2:{ rewrite concat_step_R in Ex by assumption. discriminate. }
  cbn [bindR]. destruct (end_time_step a b x Ha Hb Ex) as (E1 & E2 & _).
  rewrite concat_step_R by assumption. rewrite E1.
  rewrite concat_step_R in Ex by assumption. injection Ex as <-.
  rewrite concat_step_R by assumption. cbn [time_s mps grade road_type].
  destruct Hwf as (W1 & W2 & W3).
  destruct (time_s b) as [|b0 bs] eqn:Eb; [congruence|].
  destruct (mps b) as [|v0 vs]; [discriminate|].
  destruct (grade b) as [|g0 gs]; [discriminate|].
  destruct (road_type b) as [|w0 ws]; [discriminate|].
  cbn [tl app]. rewrite <- !app_assoc, map_app, map_map. do 4 f_equal.
  apply map_ext. intros t. lra.
Qed.

Lemma concat_step_wf (a c r : cyc R) : wf a -> wf c -> concat_step a c = Ok r -> wf r.
Proof.
  unfold concat_step, wf. intros (A1 & A2 & A3) (C1 & C2 & C3).
  destruct (time_s a) as [|t ts] eqn:E; [discriminate|]. intros [= <-].
  cbn [time_s mps grade road_type]. cbn [length] in *. rewrite !app_length, !map_length, !tl_length. cbn [length]. rewrite ?app_length, ?map_length, ?tl_length. lia.
Qed.

Theorem concat_nested (a b : cyc R) l inner :
  time_s a <> [] -> hd_error (time_s b) = Some 0 -> wf b -> (forall d, In d l -> wf d) ->
  concat (b :: l) = Ok inner -> concat [a; inner] = concat (a :: b :: l).
Proof.
  intros Ha. cbn [concat]. revert b inner. induction l as [|c l IH]; intros b inner Hb Hwf Hl; cbn [concat_fold].
  - intros [= <-]. reflexivity.
  - destruct (concat_step b c) as [bc|] eqn:E; [|discriminate]. cbn [bindR].
    intros H.
    assert (Hbne : time_s b <> []) by (destruct (time_s b); discriminate).
    assert (Hbc : hd_error (time_s bc) = Some 0).
    { rewrite concat_step_R in E by assumption. injection E as <-. cbn [time_s].
      destruct (time_s b); [congruence|exact Hb]. }
    assert (Hwbc : wf bc) by (eapply concat_step_wf; [exact Hwf| |exact E]; apply Hl; now left).
    specialize (IH bc inner Hbc Hwbc (fun d Hd => Hl d (or_intror Hd)) H).
    cbn [concat_fold] in IH. rewrite IH.
    pose proof (concat_nest_step a b c bc Ha Hb Hwf E) as Hn.
    destruct (concat_step a b) as [ab|]; cbn [bindR] in *.
    + rewrite Hn. destruct (concat_step a bc); reflexivity.
    + rewrite <- Hn. reflexivity.
Qed.

Theorem concat_increasing (c : cyc R) l r :
  time_s c <> [] -> increasing (time_s c) ->
  (forall d, In d l -> increasing (time_s d) /\ hd_error (time_s d) = Some 0) ->
  concat (c :: l) = Ok r -> increasing (time_s r).
Proof.
  rewrite !increasing_SS. cbn [concat]. revert c; induction l as [|d l IH]; intros c Hc Hi Hl; cbn [concat_fold].
  - now intros [= <-].
  - destruct (concat_step c d) as [f|] eqn:E; [|discriminate]. cbn [bindR].
    destruct (Hl d (or_introl eq_refl)) as [Hd Hd0]. rewrite increasing_SS in Hd.
    destruct (end_time_step c d f Hc Hd0 E) as (_ & Hf & _).
    apply IH; [exact Hf| |intros x Hx; apply Hl; now right].
    rewrite concat_step_R in E by assumption. injection E as <-. cbn [time_s].
    destruct (time_s d) as [|d0 ds] eqn:Ed; [discriminate|]. injection Hd0 as ->. cbn [tl].
    apply StronglySorted_inv in Hd as [Hds Hd1]. rewrite Forall_forall in Hd1.
    apply SS_app; [assumption| |].
    + clear - Hds. induction Hds as [|x xs _ IH HF]; cbn; constructor; [assumption|].
      rewrite Forall_forall in *. intros y Hy. apply in_map_iff in Hy as (z & <- & Hz).
      specialize (HF z Hz). lra.
    + intros x y Hx Hy. apply in_map_iff in Hy as (z & <- & Hz).
      specialize (Hd1 z Hz). pose proof (SS_last_max (time_s c) x 0 Hi Hx).
      unfold end_time. lra.
Qed.
