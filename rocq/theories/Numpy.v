(** The parts of numpy and of Python's list indexing that the modelled code calls.
    These definitions describe library behaviour (numpy reference manual), not code in
    /repo; each comment names one call site in /repo. *)
From Verif Require Import Num.

Section Numpy.
  Context {F : Type} {N : Num F}.
  Local Open Scope num_scope.

  (** [f(a, b)] elementwise on two arrays of the same shape (numpy raises ValueError on
      other shapes; callers below only pass equal lengths). *)
  Fixpoint zipw {A B C} (f : A -> B -> C) (l1 : list A) (l2 : list B) : list C :=
    match l1, l2 with
    | a :: l1', b :: l2' => f a b :: zipw f l1' l2'
    | _, _ => []
    end.

  (** np.cumsum / ndarray.cumsum (cycle.py:54). *)
  Fixpoint cumsum_from (acc : F) (l : list F) : list F :=
    match l with
    | [] => []
    | x :: r => (acc + x) :: cumsum_from (acc + x) r
    end.
  Definition cumsum (l : list F) : list F := cumsum_from n0 l.

  (** np.diff(l, prepend=p) (cycle.py:199). *)
  Fixpoint diff_prepend (p : F) (l : list F) : list F :=
    match l with
    | [] => []
    | x :: r => (x - p) :: diff_prepend x r
    end.

  (** np.diff(l) (cycle.py:592). *)
  Definition diff (l : list F) : list F :=
    match l with [] => [] | x :: r => diff_prepend x r end.

  (** np.zeros(n). *)
  Definition zeros (n : nat) : list F := repeat n0 n.

  (** np.argmax of a boolean array: index of the first True, 0 if there is none
      (cycle.py:307). *)
  Fixpoint first_true (l : list bool) : option nat :=
    match l with
    | [] => None
    | true :: _ => Some O
    | false :: r => option_map S (first_true r)
    end.
  Definition argmax_b (l : list bool) : nat :=
    match first_true l with Some i => i | None => O end.

  (** Python indexing [l[z]], negative indices counting from the end. *)
  Definition pyget {A} (l : list A) (z : Z) : Res A :=
    let n := Z.of_nat (length l) in
    let k := if (z <? 0)%Z then (z + n)%Z else z in
    if ((0 <=? k)%Z && (k <? n)%Z)%bool then
      match nth_error l (Z.to_nat k) with Some a => Ok a | None => Err IndexError end
    else Err IndexError.

  (** Slices with nonnegative bounds: [l[i:j]]. *)
  Definition slice {A} (l : list A) (i j : nat) : list A := firstn (j - i) (skipn i l).

  (** [l[i] = v] for [i] in range; out of range leaves the list as it is. *)
  Fixpoint set_nth {A} (l : list A) (i : nat) (v : A) : list A :=
    match l, i with
    | [], _ => []
    | _ :: r, O => v :: r
    | x :: r, S k => x :: set_nth r k v
    end.

  (** Boolean-mask indexing [l[mask]] for a mask of the same length (cycle.py:641). *)
  Fixpoint mask_list {A} (mask : list bool) (l : list A) : list A :=
    match mask, l with
    | b :: m, x :: r => if b then x :: mask_list m r else mask_list m r
    | _, _ => []
    end.

  (** np.arange(start, stop, step): ceil((stop-start)/step) points (cycle.py:576). *)
  Definition arange (start stop step : F) : list F :=
    map (fun k => start + nofN k * step) (seq 0 (Z.to_nat (nceil ((stop - start) / step)))).

  (** np.interp for one abscissa: the value right of knot (x0, y0), given x >= x0.
      At a knot its value is returned; beyond the last knot the last value. *)
  Fixpoint interp_from (x x0 y0 : F) (knots : list (F * F)) : F :=
    match knots with
    | [] => y0
    | (x1, y1) :: r =>
        if x <? x1 then
          if x =? x0 then y0 else ((y1 - y0) / (x1 - x0)) * (x - x0) + y0
        else interp_from x x1 y1 r
    end.
  (** np.interp(x, xp, fp) for one x; an empty xp is a ValueError in numpy. *)
  Definition interp1 (x : F) (knots : list (F * F)) : F :=
    match knots with
    | [] => n0
    | (x0, y0) :: r => if x <? x0 then y0 else interp_from x x0 y0 r
    end.
  (** np.interp(xs, xp, fp) (cycle.py:616). *)
  Definition interp (xs xp fp : list F) : list F :=
    map (fun x => interp1 x (combine xp fp)) xs.

  (** np.linspace(a, b, n) for n >= 2: [a + k*((b-a)/(n-1))], last point b. *)
  Definition linspace (a b : F) (n : nat) : list F :=
    map (fun k => if Nat.eqb k (n - 1) then b else a + nofN k * ((b - a) / nofN (n - 1))) (seq 0 n).

  (** [(arr == 0).all()] *)
  Definition all_zero (l : list F) : bool := forallb (fun x => x =? n0) l.
End Numpy.
