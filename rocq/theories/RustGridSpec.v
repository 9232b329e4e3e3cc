(** Specification of interpolation in a table: dimension by dimension, between two neighbouring coordinates around the point. *)
From Verif Require Import Num.
Local Open Scope R_scope.

(** [between ds v y]: [y] is a value at the points of [ds], each with the coordinates of its dimension, in the table [v]. *)
Inductive between : list (R * list R) -> (list nat -> R) -> R -> Prop :=
| here v : between [] v (v [])
| at_coordinate p g r v k y : nth_error g k = Some p -> between r (fun ix => v (k :: ix)) y -> between ((p, g) :: r) v y
| inside p g r v k a b y z : nth_error g k = Some a -> nth_error g (S k) = Some b -> a < p < b ->
    between r (fun ix => v (k :: ix)) y -> between r (fun ix => v (S k :: ix)) z -> between ((p, g) :: r) v (y + (p - a) / (b - a) * (z - y)).
(** The index vectors of a table whose dimensions have the coordinates [g]. *)
Inductive index_in : list (list R) -> list nat -> Prop :=
| no_dims : index_in [] []
| dim g r k ix : (k < length g)%nat -> index_in r ix -> index_in (g :: r) (k :: ix).
(** A function of several numbers that is a straight line in each of them. *)
Inductive straight : nat -> (list R -> R) -> Prop :=
| straight_0 f : straight 0 f
| straight_S n f : (forall r, exists a b, forall x, f (x :: r) = a + b * x) -> (forall x, straight n (fun r => f (x :: r))) -> straight (S n) f.
