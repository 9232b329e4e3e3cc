(** Lemmas about interpolation in a table. *)
From Verif Require Import Num Numpy RustGridModel RustGridSpec.
Local Open Scope R_scope.

(** The nested interpolation for given lower indices and fractions. *)
Fixpoint nested (l : list (nat * R)) (v : list nat -> R) : R :=
  match l with
  | [] => v []
  | (k, d) :: r => nested r (fun ix => v (k :: ix)) * (1 - d) + nested r (fun ix => v (S k :: ix)) * d
  end.
Lemma nested_ext l : forall v w, (forall ix, v ix = w ix) -> nested l v = nested l w.
Proof. induction l as [|[k d] l IH]; intros v w H; cbn; [apply H|]. rewrite (IH _ (fun ix => w (k :: ix))), (IH (fun ix => v (S k :: ix)) (fun ix => w (S k :: ix))); auto. Qed.
Lemma nested_lin l : forall a b v w, nested l (fun ix => v ix * a + w ix * b) = nested l v * a + nested l w * b.
Proof.
  induction l as [|[k d] l IH]; intros a b v w; cbn; [reflexivity|].
  rewrite (IH a b (fun ix => v (k :: ix)) (fun ix => w (k :: ix))), (IH a b (fun ix => v (S k :: ix)) (fun ix => w (S k :: ix))). ring.
Qed.
Lemma vectors_2 n : index_vectors (repeat 2%nat (S n)) = map (cons 0%nat) (index_vectors (repeat 2%nat n)) ++ map (cons 1%nat) (index_vectors (repeat 2%nat n)).
Proof. cbn. now rewrite app_nil_r. Qed.
Lemma map_seq_halves (A B : list R) (f : R -> R -> R) : length A = length B ->
  map (fun i => f (nth i (A ++ B) 0) (nth (length A + i) (A ++ B) 0)) (seq 0 (length A)) = map (fun p => f (fst p) (snd p)) (combine A B).
Proof.
  intros L. apply nth_ext with (d := f 0 0) (d' := f 0 0).
  - rewrite !map_length, seq_length, combine_length. lia.
  - intros i Hi. rewrite map_length, seq_length in Hi.
    rewrite (nth_indep _ _ (f (nth 0%nat (A ++ B) 0) (nth (length A + 0) (A ++ B) 0))) by (rewrite map_length, seq_length; lia).
    rewrite (map_nth (fun i => f (nth i (A ++ B) 0) (nth (length A + i) (A ++ B) 0))).
    rewrite seq_nth by lia. change (f 0 0) with ((fun p => f (fst p) (snd p)) (0, 0)). rewrite map_nth, combine_nth by assumption. cbn.
    rewrite app_nth1 by lia. rewrite app_nth2 by lia. f_equal. f_equal. lia.
Qed.
Lemma loop_nested (l : list (nat * R)) : forall v,
  blend_loop (map snd l) (map (fun ix => v (shift (map fst l) ix)) (index_vectors (repeat 2%nat (length l)))) = Ok (nested l v).
Proof.
  induction l as [|[k d] l IH]; intros v; [reflexivity|].
  cbn [map fst snd length]. rewrite vectors_2, map_app, !map_map. cbn [blend_loop]. rewrite map_length.
  set (P := index_vectors (repeat 2%nat (length l))).
  set (A := map (fun ix => v (shift (k :: map fst l) (0%nat :: ix))) P).
  set (B := map (fun ix => v (shift (k :: map fst l) (1%nat :: ix))) P).
  assert (LA : length P = length A) by (unfold A; now rewrite map_length).
  rewrite LA. change (@n0 R RNum) with 0. change (@n1 R RNum) with 1.
  rewrite (map_seq_halves A B (fun x y => x * (1 - d) + y * d)%num) by (unfold A, B; now rewrite !map_length).
  replace (map _ (combine A B)) with (map (fun ix => (fun ix => v (k :: ix) * (1 - d) + v (S k :: ix) * d) (shift (map fst l) ix)) P).
  - unfold P. etransitivity; [exact (IH (fun ix => v (k :: ix) * (1 - d) + v (S k :: ix) * d))|]. cbn [nested]. now rewrite (nested_lin l (1 - d) d (fun ix => v (k :: ix)) (fun ix => v (S k :: ix))).
  - unfold A, B. clear. induction P as [|x P IH]; [reflexivity|]. cbn [map combine]. f_equal; [|exact IH].
    cbn [fst snd]. unfold shift. cbn [combine map fst snd]. rewrite Nat.add_0_r, Nat.add_1_r. reflexivity.
Qed.
Lemma position_some p g k : position p g = Some k -> nth_error g k = Some p.
Proof.
  revert k. induction g as [|a g IH]; intros k; cbn; [discriminate|]. unR. destruct (Reqb_spec a p) as [->|].
  - intros [= <-]. reflexivity.
  - destruct (position p g) as [j|]; cbn; [|discriminate]. intros [= <-]. cbn. now apply IH.
Qed.
Lemma position_none p g : position p g = None -> ~ In p g.
Proof.
  induction g as [|a g IH]; cbn; [tauto|]. unR. destruct (Reqb_spec a p) as [->|]; [discriminate|].
  destruct (position p g); [discriminate|]. intros _ [E|E]; [contradiction|now apply IH].
Qed.
Lemma bracket_ok p g : forall i k d, bracket p i g = Ok (k, d) ->
  exists j a b, k = (i + j)%nat /\ nth_error g j = Some a /\ nth_error g (S j) = Some b /\ a < p < b /\ d = (p - a) / (b - a).
Proof.
  induction g as [|a g IH]; intros i k d; [discriminate|]. destruct g as [|b g]; [discriminate|]. cbn [bracket]. unR.
  destruct (Rltb_spec a p), (Rltb_spec p b); cbn [andb]; intros H.
  1: { injection H as <- <-. exists 0%nat, a, b. rewrite Nat.add_0_r. cbn. repeat split; auto. }
  all: destruct (IH _ _ _ H) as (j & a' & b' & E1 & E2 & E3 & E4 & E5); exists (S j), a', b'; repeat split; auto; try lia; apply E4.
Qed.
Lemma last_same (g : list R) : forall x d e, last (x :: g) d = last (x :: g) e.
Proof. induction g as [|y g IH]; intros x d e; [reflexivity|]. exact (IH y d e). Qed.
(** A point within a grid, at none of its coordinates, has neighbours. *)
Lemma bracket_total p g : forall i a, rising (a :: g) = true -> a < p -> p <= last (a :: g) a -> ~ In p (a :: g) -> exists x, bracket p i (a :: g) = Ok x.
Proof.
  induction g as [|b g IH]; intros i a Hr Ha Hl Hn; [cbn in Hl; lra|]. cbn [rising] in Hr. apply andb_prop in Hr as [H1 H2].
  cbn [bracket]. unR. destruct (Rltb_spec a p); [|lra]. destruct (Rltb_spec p b); cbn [andb]; [eauto|].
  apply IH; auto.
  - destruct (Req_dec b p); [subst; exfalso; apply Hn; cbn; auto|lra].
  - rewrite (last_same g b b a). exact Hl.
  - intros Hi. apply Hn. now right.
Qed.

Notation kept := (fun d : R * list R => match position (fst d) (snd d) with Some _ => false | None => true end).
Notation slot := (fun d : R * list R => position (fst d) (snd d)).
Lemma nested_between ds : forall l v, brackets (filter kept ds) = Ok l -> between ds v (nested l (fun ix => v (expand (map slot ds) ix))).
Proof.
  induction ds as [|[p g] ds IH]; intros l v; cbn [filter map fst snd].
  - cbn. intros [= <-]. constructor.
  - destruct (position p g) as [k|] eqn:E.
    + intros H. apply (at_coordinate p g ds v k); [now apply position_some|]. exact (IH l (fun ix => v (k :: ix)) H).
    + cbn [brackets]. destruct (bracket p 0 g) as [[k d]|e] eqn:B; [|discriminate]. cbn [bindR].
      destruct (brackets (filter kept ds)) as [l'|e] eqn:B'; [|discriminate]. cbn [bindR]. intros [= <-].
      destruct (bracket_ok p g _ _ _ B) as (j & a & b & -> & E2 & E3 & E4 & ->). cbn [nested expand Nat.add].
      set (y := nested l' (fun ix => v (j :: expand (map slot ds) ix))). set (z := nested l' (fun ix => v (S j :: expand (map slot ds) ix))).
      replace (y * (1 - (p - a) / (b - a)) + z * ((p - a) / (b - a))) with (y + (p - a) / (b - a) * (z - y)) by ring.
      apply (inside p g ds v j a b); auto; [exact (IH l' (fun ix => v (j :: ix)) eq_refl)|exact (IH l' (fun ix => v (S j :: ix)) eq_refl)].
Qed.
(** The checks. *)
Definition dim_ok (d : R * list R) : Prop := rising (snd d) = true /\ exists a g, snd d = a :: g /\ a <= fst d <= last (a :: g) a.
Lemma check_ok point : forall grid shape, length point = length shape -> length grid = length shape ->
  (check_dims point grid shape = Ok tt <-> shape = map (@length R) grid /\ Forall dim_ok (combine point grid)).
Proof.
  induction point as [|p point IH]; intros [|g grid] [|n shape]; cbn [length]; intros L1 L2; try discriminate.
  - cbn. intuition.
  - injection L1 as L1. injection L2 as L2. specialize (IH grid shape L1 L2). cbn [check_dims map combine]. unfold ensure.
    destruct (Nat.eqb_spec (length g) n) as [<-|Hn]; cbn [bindR].
    2: { split; [discriminate|]. intros [[= E] _]. congruence. }
    destruct (rising g) eqn:Er; cbn [bindR].
    2: { split; [discriminate|]. intros [_ H]. apply Forall_inv in H as [H _]. cbn in H. congruence. }
    destruct g as [|a g]; cbn [bindR].
    { split; [discriminate|]. intros [_ H]. apply Forall_inv in H as (_ & ? & ? & H & _). discriminate. }
    unR. destruct (Rleb_spec a p); cbn [andb bindR].
    2: { split; [discriminate|]. intros [_ H]. apply Forall_inv in H as (_ & ? & ? & H & H'). cbn [snd fst] in *. injection H as <- <-. lra. }
    destruct (Rleb_spec p (last (a :: g) a)); cbn [bindR].
    2: { split; [discriminate|]. intros [_ H]. apply Forall_inv in H as (_ & ? & ? & H & H'). cbn [snd fst] in H, H'. injection H as <- <-. lra. }
    rewrite IH. split.
    + intros [-> H]. split; [reflexivity|]. constructor; [|assumption]. split; [assumption|]. exists a, g. cbn [fst snd]. repeat split; auto.
    + intros [[= E] H]. split; [assumption|]. now apply Forall_inv_tail in H.
Qed.
Lemma brackets_total ds : Forall dim_ok ds -> exists l, brackets (filter kept ds) = Ok l.
Proof.
  induction 1 as [|[p g] ds [Hr (a & g' & E & Hp)] _ [l IH]]; cbn [filter fst snd]; [now exists []|].
  cbn [fst snd] in *. destruct (position p g) eqn:P; [eauto|]. cbn [brackets]. subst g.
  destruct (bracket_total p g' 0 a) as [x Hx]; auto.
  - destruct Hp as [[?| ->] ?]; [assumption|]. apply position_none in P. cbn in P. tauto.
  - apply Hp.
  - now apply position_none.
  - rewrite Hx. cbn [bindR]. rewrite IH. cbn [bindR]. eauto.
Qed.
Lemma brackets_length ds : forall l, @brackets R RNum ds = Ok l -> length l = length ds.
Proof.
  induction ds as [|[p g] ds IH]; intros l; cbn [brackets]; [now intros [= <-]|].
  destruct (bracket p 0 g); [|discriminate]. cbn [bindR]. destruct (brackets ds); [|discriminate]. cbn [bindR]. intros [= <-]. cbn. f_equal. now apply IH.
Qed.
(** One value remains only when every dimension is removed. *)
Lemma one_left ds : Forall dim_ok ds -> fold_right Nat.mul 1%nat (map (fun d : R * list R => length (snd d)) (filter kept ds)) = 1%nat -> filter kept ds = [].
Proof.
  intros H. destruct (filter kept ds) as [|d r] eqn:E; [reflexivity|]. cbn [map fold_right]. intros M. apply Nat.eq_mul_1 in M as [M _].
  assert (Hin : In d (filter kept ds)) by (rewrite E; now left). apply filter_In in Hin as [Hin Hk].
  rewrite Forall_forall in H. destruct (H d Hin) as (_ & a & g & Eg & Hp). destruct d as [p gg]. cbn [fst snd] in *. subst gg.
  destruct g; [|discriminate]. cbn [last] in Hp. replace p with a in Hk by lra. cbn in Hk. unR. destruct (Reqb_spec a a); [discriminate|contradiction].
Qed.
Lemma multilinear_between point grid shape v : length point = length shape -> length grid = length shape -> shape = map (@length R) grid ->
  Forall dim_ok (combine point grid) -> exists y, multilinear point grid shape v = Ok y /\ between (combine point grid) v y.
Proof.
  intros L1 L2 E H. unfold multilinear, ensure. rewrite (proj2 (Nat.eqb_eq _ _) L1), (proj2 (Nat.eqb_eq _ _) L2). cbn [bindR].
  rewrite (proj2 (check_ok point grid shape L1 L2) (conj E H)). cbn [bindR].
  destruct (brackets_total _ H) as [l Hl]. pose proof (nested_between _ l v Hl) as B.
  destruct (Nat.eqb_spec (fold_right Nat.mul 1%nat (map (fun d : R * list R => length (snd d)) (filter kept (combine point grid)))) 1) as [M|M].
  - eexists. split; [reflexivity|]. rewrite (one_left _ H M) in *. cbn in Hl. injection Hl as <-. exact B.
  - rewrite Hl. cbn [bindR]. rewrite <- (brackets_length _ _ Hl). rewrite (loop_nested l (fun ix => v (expand (map slot (combine point grid)) ix))). eauto.
Qed.
Lemma multilinear_ok point grid shape v y : multilinear point grid shape v = Ok y ->
  length point = length shape /\ length grid = length shape /\ shape = map (@length R) grid /\ Forall dim_ok (combine point grid).
Proof.
  unfold multilinear, ensure. destruct (Nat.eqb_spec (length point) (length shape)) as [L1|]; [|discriminate]. cbn [bindR].
  destruct (Nat.eqb_spec (length grid) (length shape)) as [L2|]; [|discriminate]. cbn [bindR].
  destruct (check_dims point grid shape) as [[]|] eqn:C; [|discriminate]. intros _. apply check_ok in C as [C1 C2]; auto.
Qed.
