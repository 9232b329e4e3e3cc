(** The binary64 instance of [Num], for executing the model by [vm_compute].

    [+ - * / sqrt] and comparisons are the kernel's IEEE-754 operations.  The
    transcendental functions are series approximations (about 15 digits): the real
    code calls the C library, whose results this file does not claim to match in
    the last bits. *)
From Coq Require Import Floats Uint63.
From Verif Require Import Num.

Definition f_ofZ (z : Z) : float :=
  match z with
  | Z0 => PrimFloat.of_uint63 0
  | Zpos p => PrimFloat.of_uint63 (Uint63.of_Z (Zpos p))
  | Zneg p => PrimFloat.opp (PrimFloat.of_uint63 (Uint63.of_Z (Zpos p)))
  end.

Definition f_floor (x : float) : Z :=
  match Prim2SF x with
  | S754_finite s m e =>
      let v := if s then Zneg m else Zpos m in
      if (0 <=? e)%Z then Z.shiftl v e else Z.shiftr v (- e)
  | _ => 0%Z
  end.

Local Open Scope float_scope.

Fixpoint f_powi (x : float) (n : nat) : float :=
  match n with O => 1 | S k => x * f_powi x k end.
(** 2 ^ z for |z| below 1100. *)
Definition f_pow2 (z : Z) : float :=
  if (0 <=? z)%Z then f_powi 2 (Z.to_nat z) else 1 / f_powi 2 (Z.to_nat (- z)).

(** sum_{k<n} x^k/k! by Horner from the back: 1 + x/1 (1 + x/2 (1 + ...)). *)
Fixpoint f_exp_series (x : float) (k n : nat) : float :=
  match n with
  | O => 1
  | S m => 1 + (x / f_ofZ (Z.of_nat (S k))) * f_exp_series x (S k) m
  end.
Definition f_ln2 : float := 0.693147180559945309.
Definition f_exp (x : float) : float :=
  if x <? (-745) then 0
  else if 709.7 <? x then PrimFloat.infinity
  else
    let k := f_floor (x / f_ln2 + 0.5) in
    f_exp_series (x - f_ofZ k * f_ln2) 0 22 * f_pow2 k.

(** ln by atanh series after scaling the mantissa to [1/2, 1). *)
Fixpoint f_atanh_series (y2 : float) (k n : nat) : float :=
  match n with
  | O => 0
  | S m => 1 / f_ofZ (Z.of_nat k) + y2 * f_atanh_series y2 (S (S k)) m
  end.
Definition f_ln (x : float) : float :=
  let '(m, e) := PrimFloat.frshiftexp x in
  let k := (Uint63.to_Z e - FloatOps.shift)%Z in
  let '(m, k) := if m <? 0.70710678 then (m * 2, (k - 1)%Z) else (m, k) in
  let y := (m - 1) / (m + 1) in
  f_ofZ k * f_ln2 + 2 * y * f_atanh_series (y * y) 1 30.

Definition f_pi : float := 3.14159265358979312.
Fixpoint f_cos_series (x2 : float) (k n : nat) : float :=
  match n with
  | O => 1
  | S m => 1 - (x2 / f_ofZ (Z.of_nat ((k + 1) * (k + 2)))) * f_cos_series x2 (k + 2) m
  end.
Definition f_reduce (x : float) : float := x - f_ofZ (f_floor (x / (2 * f_pi) + 0.5)) * (2 * f_pi).
Definition f_sin (x : float) : float := let r := f_reduce x in r * f_cos_series (r * r) 1 24.
Definition f_cos (x : float) : float := let r := f_reduce x in f_cos_series (r * r) 0 24.
Definition f_tan (x : float) : float := f_sin x / f_cos x.

(** atan with two half-angle reductions and the alternating series. *)
Fixpoint f_atan_series (x2 : float) (k n : nat) : float :=
  match n with
  | O => 0
  | S m => 1 / f_ofZ (Z.of_nat k) - x2 * f_atan_series x2 (S (S k)) m
  end.
Definition f_atan_core (x : float) : float := x * f_atan_series (x * x) 1 30.
Definition f_half (x : float) : float := x / (1 + PrimFloat.sqrt (1 + x * x)).
Definition f_atan (x : float) : float := 4 * f_atan_core (f_half (f_half x)).
Definition f_asin (x : float) : float := f_atan (x / PrimFloat.sqrt (1 - x * x)).

Definition f_pow (x y : float) : float :=
  if x =? 0 then (if y =? 0 then 1 else 0)
  else if f_ofZ (f_floor y) =? y then
         (if (0 <=? f_floor y)%Z && (f_floor y <=? 64)%Z then f_powi x (Z.to_nat (f_floor y))
          else f_exp (y * f_ln x))
       else f_exp (y * f_ln x).

#[global] Instance FNum : Num float := {
  nadd := PrimFloat.add; nsub := PrimFloat.sub; nmul := PrimFloat.mul; ndiv := PrimFloat.div;
  nopp := PrimFloat.opp; nabs := PrimFloat.abs; nsqrt := PrimFloat.sqrt;
  nsin := f_sin; ncos := f_cos; ntan := f_tan; natan := f_atan; nasin := f_asin;
  nexp := f_exp; nln := f_ln; npow := f_pow;
  nltb := PrimFloat.ltb; nleb := PrimFloat.leb; neqb := PrimFloat.eqb;
  nofZ := f_ofZ; nfloor := f_floor
}.
