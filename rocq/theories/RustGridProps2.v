(** C131: with one dimension, interpolation in a table agrees with the interpolation used for the vehicle's tables. *)
From Coq Require Import Lia.
From Verif Require Import Num Numpy CycleSpec RustVehModel RustAirProofs RustGridModel RustGridSpec RustGridProofs RustGridProps.
Local Open Scope R_scope.

Lemma entry (v : list nat -> R) n k : (k < n)%nat -> nth_error (map (fun k => v [k]) (seq 0 n)) k = Some (v [k]).
Proof. intros H. rewrite nth_error_map. rewrite (nth_error_nth' _ 0%nat) by (now rewrite seq_length). rewrite seq_nth by assumption. reflexivity. Qed.
(** Within the coordinates, of which there are at least two, both give the same value. *)
Theorem C131_line p g (v : list nat -> R) y : (2 <= length g)%nat -> multilinear [p] [g] [length g] v = Ok y ->
  r_interpolate p g (map (fun k => v [k]) (seq 0 (length g))) false = Ok y.
Proof.
  intros L2 H. assert (I : CycleSpec.increasing g).
  { assert (X : fitting [p] [g] [length g]) by (apply (C131_accepted _ _ _ v); eauto). destruct X as (_ & _ & X). apply Forall_inv in X as [X _]. exact X. }
  apply C131_value in H. cbn [combine] in H. apply line_iff; [assumption|now rewrite map_length, seq_length|assumption|]. right; right.
  inversion H as [|p0 g0 r v0 k y0 E B|p0 g0 r v0 k a b y0 z0 E1 E2 Hp B1 B2]; subst.
  - inversion B; subst. assert (K : (k < length g)%nat) by (apply nth_error_Some; congruence).
    destruct (Nat.lt_ge_cases (S k) (length g)) as [Q|Q].
    + destruct (nth_error g (S k)) as [b|] eqn:E2; [|apply nth_error_None in E2; lia]. pose proof (I k (S k) p b (Nat.lt_succ_diag_r k) E E2).
      exists k, p, b, (v [k]), (v [S k]). repeat split; auto using entry; try lra; unfold Rdiv; ring.
    + destruct k as [|k]; [lia|]. destruct (nth_error g k) as [a|] eqn:E1; [|apply nth_error_None in E1; lia]. pose proof (I k (S k) a p (Nat.lt_succ_diag_r k) E1 E).
      exists k, a, p, (v [k]), (v [S k]). repeat split; auto; try lra; try (apply entry; lia). field. lra.
  - inversion B1; subst. inversion B2; subst. assert (K : (S k < length g)%nat) by (apply nth_error_Some; congruence).
    exists k, a, b, (v [k]), (v [S k]). repeat split; auto; try lra; try (apply entry; lia).
Qed.
(** A case: three coordinates and a point between the last two. *)
Example C131_line_case : exists y, multilinear [3] [[0; 2; 5]] [3%nat] (fun ix => match ix with [k] => INR k | _ => 0 end) = Ok y.
Proof.
  apply C131_accepted. split; [reflexivity|]. split; [reflexivity|]. repeat constructor; cbn [fst snd].
  - apply rising_increasing. cbn. unR. repeat match goal with |- context [Rltb ?a ?b] => destruct (Rltb_spec a b); [|exfalso; lra] end. reflexivity.
  - exists 2, 5. cbn. repeat split; auto; lra.
Qed.
