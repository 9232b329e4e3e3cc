(** Numbers, Python results and the small tactics used everywhere.

    FASTSim computes with IEEE-754 doubles (numpy float64).  Every numeric
    definition of the model is written over the class [Num] below.  The instance
    [RNum] reads the operations as exact real arithmetic; the numeric theorems are
    about that instance.  [FloatNum.v] gives the binary64 instance, which makes the
    same definitions executable. *)
From Coq Require Export String.
From Coq Require Export ZArith Lia Bool.
From Coq Require Export Reals Lra.
From Coq Require Export List.
Export ListNotations.

(** Python exceptions that the modelled code can raise. *)
Inductive exn : Set :=
| IndexError | KeyError | ValueError | AssertionError | AttributeError
| TypeError | ZeroDivisionError | NotImplementedError | UnboundLocalError | PlainException
| OutOfFuel (** not a Python exception: the model's recursion bound ran out *).

(** A call either returns a value or raises. *)
Inductive Res (A : Type) : Type :=
| Ok (a : A)
| Err (e : exn).
Arguments Ok {A} a.
Arguments Err {A} e.

Definition bindR {A B} (r : Res A) (f : A -> Res B) : Res B :=
  match r with Ok a => f a | Err e => Err e end.
Notation "'do' x <- r ; k" := (bindR r (fun x => k))
  (at level 200, x name, r at level 100, k at level 200, right associativity).
(** Python's [assert]. *)
Definition assertR (b : bool) : Res unit := if b then Ok tt else Err AssertionError.

(** The numeric operations the code uses. *)
Class Num (F : Type) := {
  nadd : F -> F -> F;
  nsub : F -> F -> F;
  nmul : F -> F -> F;
  ndiv : F -> F -> F;
  nopp : F -> F;
  nabs : F -> F;
  nsqrt : F -> F;
  nsin : F -> F;
  ncos : F -> F;
  ntan : F -> F;
  natan : F -> F;
  nasin : F -> F;
  nexp : F -> F;
  nln : F -> F;
  npow : F -> F -> F;
  nltb : F -> F -> bool;
  nleb : F -> F -> bool;
  neqb : F -> F -> bool;
  nofZ : Z -> F;
  nfloor : F -> Z
}.

Declare Scope num_scope.
Delimit Scope num_scope with num.
Notation "x + y" := (nadd x y) : num_scope.
Notation "x - y" := (nsub x y) : num_scope.
Notation "x * y" := (nmul x y) : num_scope.
Notation "x / y" := (ndiv x y) : num_scope.
Notation "- x" := (nopp x) : num_scope.
Notation "x <? y" := (nltb x y) : num_scope.
Notation "x <=? y" := (nleb x y) : num_scope.
Notation "x =? y" := (neqb x y) : num_scope.
Notation "x >? y" := (nltb y x) (only parsing) : num_scope.
Notation "x >=? y" := (nleb y x) (only parsing) : num_scope.

Section Derived.
  Context {F : Type} {N : Num F}.
  Local Open Scope num_scope.

  (** Decimal literal [p / q]: the quotient of two exactly representable integers is
      the correctly rounded value of the decimal literal it stands for. *)
  Definition lit (p q : Z) : F := nofZ p / nofZ q.
  Definition n0 : F := nofZ 0.
  Definition n1 : F := nofZ 1.
  Definition n2 : F := nofZ 2.
  (** [nat] as a number: Python ints mixed into float arithmetic. *)
  Definition nofN (n : nat) : F := nofZ (Z.of_nat n).

  (** Python's two-argument [min] and [max]: the first argument wins ties. *)
  Definition nmin (a b : F) : F := if b <? a then b else a.
  Definition nmax (a b : F) : F := if b >? a then b else a.

  (** Python's [min]/[max] of a nonempty sequence given as head and tail. *)
  Definition nminl (a : F) (l : list F) : F := fold_left nmin l a.
  Definition nmaxl (a : F) (l : list F) : F := fold_left nmax l a.

  (** math.ceil / numpy.ceil as an integer. *)
  Definition nceil (x : F) : Z :=
    let f := nfloor x in if nofZ f =? x then f else (f + 1)%Z.

  (** Python [round(x)] / [np.round(x)]: nearest integer, ties to even. *)
  Definition nround (x : F) : Z :=
    let f := nfloor x in
    let d := x - nofZ f in
    if d <? lit 1 2 then f
    else if d >? lit 1 2 then (f + 1)%Z
    else if Z.even f then f else (f + 1)%Z.

  (** Python [int(x)] of a float: truncation towards zero. *)
  Definition ntrunc (x : F) : Z := if x <? n0 then Z.opp (nfloor (- x)) else nfloor x.

  (** [x ** 2] and [x ** 3].  numpy's fast path for squares is a product; the cube is
      modelled as a product too (float [pow] may differ in the last bit). *)
  Definition nsq (x : F) : F := x * x.
  Definition ncube (x : F) : F := x * x * x.

  (** Sum of a list, left to right from 0 (numpy's pairwise summation differs from
      this only by rounding). *)
  Definition nsum (l : list F) : F := fold_left nadd l n0.
End Derived.

(** ** The exact-real instance *)

Definition Rltb (x y : R) : bool := if Rlt_dec x y then true else false.
Definition Rleb (x y : R) : bool := if Rle_dec x y then true else false.
Definition Reqb (x y : R) : bool := if Req_EM_T x y then true else false.

(** Python [x ** y] over the reals: powers of 0 are 0 (1 for exponent 0), positive
    bases use [exp (y ln x)].  Negative bases are not used by the code. *)
Definition Rpow_py (x y : R) : R :=
  if Req_EM_T x 0 then (if Req_EM_T y 0 then 1%R else 0%R) else Rpower x y.

#[global] Instance RNum : Num R := {
  nadd := Rplus; nsub := Rminus; nmul := Rmult; ndiv := Rdiv; nopp := Ropp;
  nabs := Rabs; nsqrt := sqrt; nsin := sin; ncos := cos; ntan := tan;
  natan := atan; nasin := asin; nexp := exp; nln := ln; npow := Rpow_py;
  nltb := Rltb; nleb := Rleb; neqb := Reqb; nofZ := IZR; nfloor := Int_part
}.

(** ** Reflection lemmas for the real comparisons *)
Lemma Rltb_spec x y : reflect (x < y)%R (Rltb x y).
Proof. unfold Rltb; destruct (Rlt_dec x y); constructor; assumption. Qed.
Lemma Rleb_spec x y : reflect (x <= y)%R (Rleb x y).
Proof. unfold Rleb; destruct (Rle_dec x y); constructor; assumption. Qed.
Lemma Reqb_spec x y : reflect (x = y)%R (Reqb x y).
Proof. unfold Reqb; destruct (Req_EM_T x y); constructor; assumption. Qed.

Lemma Rltb_true x y : Rltb x y = true <-> (x < y)%R.
Proof. destruct (Rltb_spec x y); intuition congruence. Qed.
Lemma Rltb_false x y : Rltb x y = false <-> (y <= x)%R.
Proof. destruct (Rltb_spec x y); split; intros; try congruence; lra. Qed.
Lemma Rleb_true x y : Rleb x y = true <-> (x <= y)%R.
Proof. destruct (Rleb_spec x y); intuition congruence. Qed.
Lemma Rleb_false x y : Rleb x y = false <-> (y < x)%R.
Proof. destruct (Rleb_spec x y); split; intros; try congruence; lra. Qed.
Lemma Reqb_true x y : Reqb x y = true <-> x = y.
Proof. destruct (Reqb_spec x y); intuition congruence. Qed.
Lemma Reqb_false x y : Reqb x y = false <-> x <> y.
Proof. destruct (Reqb_spec x y); intuition congruence. Qed.

(** Rewrite class projections at the real instance into the stdlib operations. *)
Ltac unR :=
  change (@nadd R RNum) with Rplus in *; change (@nsub R RNum) with Rminus in *;
  change (@nmul R RNum) with Rmult in *; change (@ndiv R RNum) with Rdiv in *;
  change (@nopp R RNum) with Ropp in *; change (@nabs R RNum) with Rabs in *;
  change (@nsqrt R RNum) with sqrt in *; change (@nsin R RNum) with sin in *;
  change (@ncos R RNum) with cos in *; change (@ntan R RNum) with tan in *;
  change (@natan R RNum) with atan in *; change (@nasin R RNum) with asin in *;
  change (@nexp R RNum) with exp in *; change (@nln R RNum) with ln in *;
  change (@npow R RNum) with Rpow_py in *;
  change (@nltb R RNum) with Rltb in *; change (@nleb R RNum) with Rleb in *;
  change (@neqb R RNum) with Reqb in *; change (@nofZ R RNum) with IZR in *;
  change (@nfloor R RNum) with Int_part in *;
  change (@n0 R RNum) with 0%R in *; change (@n1 R RNum) with 1%R in *;
  change (@n2 R RNum) with 2%R in *.

Lemma lit_R p q : @lit R RNum p q = (IZR p / IZR q)%R.
Proof. reflexivity. Qed.
Lemma nofN_R n : @nofN R RNum n = INR n.
Proof. unfold nofN; unR; now rewrite INR_IZR_INZ. Qed.

(** Split on one real comparison, giving it a name. *)
Ltac rcase :=
  match goal with
  | |- context [Rltb ?x ?y] => destruct (Rltb_spec x y)
  | |- context [Rleb ?x ?y] => destruct (Rleb_spec x y)
  | |- context [Reqb ?x ?y] => destruct (Reqb_spec x y)
  end.
Ltac rcase_in H :=
  match type of H with
  | context [Rltb ?x ?y] => destruct (Rltb_spec x y)
  | context [Rleb ?x ?y] => destruct (Rleb_spec x y)
  | context [Reqb ?x ?y] => destruct (Reqb_spec x y)
  end.

(** Python min/max over the reals are [Rmin]/[Rmax]. *)
Lemma nmin_R a b : @nmin R RNum a b = Rmin a b.
Proof.
  unfold nmin; unR. unfold Rmin. destruct (Rle_dec a b); rcase; lra.
Qed.
Lemma nmax_R a b : @nmax R RNum a b = Rmax a b.
Proof.
  unfold nmax; unR. unfold Rmax. destruct (Rle_dec a b); rcase; lra.
Qed.

Lemma nfold_add_R l a : fold_left (@nadd R RNum) l a = (a + fold_right Rplus 0 l)%R.
Proof.
  revert a; induction l as [|x l IH]; intros a; cbn [fold_left fold_right]; unR.
  - lra.
  - rewrite IH. lra.
Qed.
Lemma nsum_R l : @nsum R RNum l = fold_right Rplus 0%R l.
Proof. unfold nsum. rewrite nfold_add_R. unR. lra. Qed.

(** Integer part facts. *)
Lemma nfloor_R_bounds x : (IZR (@nfloor R RNum x) <= x < IZR (@nfloor R RNum x) + 1)%R.
Proof. unR. generalize (base_Int_part x). lra. Qed.
Lemma nfloor_R_unique x z : (IZR z <= x < IZR z + 1)%R -> @nfloor R RNum x = z.
Proof.
  intros Hz. pose proof (nfloor_R_bounds x) as Hb. unR.
  assert (H1 : (IZR (Int_part x) < IZR (z + 1))%R) by (rewrite plus_IZR; lra).
  assert (H2 : (IZR z < IZR (Int_part x + 1))%R) by (rewrite plus_IZR; lra).
  apply lt_IZR in H1. apply lt_IZR in H2. lia.
Qed.
Lemma nceil_R_bounds x : (x <= IZR (@nceil R RNum x) < x + 1)%R.
Proof.
  unfold nceil. pose proof (nfloor_R_bounds x) as Hb. unR.
  rcase; [lra|]. rewrite plus_IZR. lra.
Qed.
Lemma nceil_R_unique x z : (x <= IZR z < x + 1)%R -> @nceil R RNum x = z.
Proof.
  intros Hz. pose proof (nceil_R_bounds x) as Hb.
  assert (H1 : (IZR (@nceil R RNum x) < IZR (z + 1))%R) by (rewrite plus_IZR; lra).
  assert (H2 : (IZR z < IZR (@nceil R RNum x + 1))%R) by (rewrite plus_IZR; lra).
  apply lt_IZR in H1. apply lt_IZR in H2. lia.
Qed.
