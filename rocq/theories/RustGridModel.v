(** Model of multilinear and get_index_permutations, rust/fastsim-core/src/utils.rs:252-498: interpolation in a table of any dimensionality.
    An array is its shape and the function from index vectors to entries; its entries in row-major order are those at the index vectors that
    get_index_permutations lists.  Not modelled: the refusal of surrounding values that are not a number (utils.rs:481-486), overflow. *)
From Verif Require Import Num Numpy.

(** get_index_permutations, utils.rs:252-261: the index vectors of a shape, the last index running fastest. *)
Fixpoint index_vectors (shape : list nat) : list (list nat) :=
  match shape with [] => [[]] | n :: r => flat_map (fun i => map (cons i) (index_vectors r)) (seq 0 n) end.
(** The index vector of the whole array for one of the view, index_axis_inplace, utils.rs:422-435: removed dimensions have a fixed index. *)
Fixpoint expand (slots : list (option nat)) (ix : list nat) : list nat :=
  match slots with
  | [] => []
  | Some k :: r => k :: expand r ix
  | None :: r => match ix with [] => 0%nat :: expand r [] | i :: ix => i :: expand r ix end
  end.
(** slice_each_axis, utils.rs:460-465: the index vector in the view for one among the surrounding values. *)
Definition shift (lower ix : list nat) : list nat := map (fun p => (fst p + snd p)%nat) (combine lower ix).

Section Grid.
  Context {F : Type} {N : Num F}.
  Local Open Scope num_scope.

  (** windows(2).all(|w| w[0] < w[1]), utils.rs:407. *)
  Fixpoint rising (g : list F) : bool := match g with a :: ((b :: _) as r) => ((a <? b) && rising r)%bool | _ => true end.
  (** ensure!, utils.rs:391-416. *)
  Definition ensure (b : bool) : Res unit := if b then Ok tt else Err ValueError.
  (** The checks of the dimensions, utils.rs:399-417; the subscript of an empty grid panics. *)
  Fixpoint check_dims (point : list F) (grid : list (list F)) (shape : list nat) : Res unit :=
    match point, grid, shape with
    | p :: point, g :: grid, n :: shape =>
        do _ <- ensure (Nat.eqb (length g) n);
        do _ <- ensure (rising g);
        do _ <- (match g with [] => Err IndexError | a :: _ => ensure ((a <=? p) && (p <=? last g a))%bool end);
        check_dims point grid shape
    | _, _, _ => Ok tt
    end.
  (** position(|&grid_point| grid_point == point[dim]), utils.rs:427-429. *)
  Fixpoint position (p : F) (g : list F) : option nat :=
    match g with [] => None | a :: r => if a =? p then Some 0%nat else option_map S (position p r) end.
  (** The lower index and the fraction, utils.rs:447-453. *)
  Fixpoint bracket (p : F) (i : nat) (g : list F) : Res (nat * F) :=
    match g with
    | a :: ((b :: _) as r) => if ((a <? p) && (p <? b))%bool then Ok (i, (p - a) / (b - a)) else bracket p (S i) r
    | _ => Err ValueError
    end.
  (** utils.rs:445-456. *)
  Fixpoint brackets (ds : list (F * list F)) : Res (list (nat * F)) :=
    match ds with [] => Ok [] | (p, g) :: r => do x <- bracket p 0 g; do l <- brackets r; Ok (x :: l) end.
  (** The loop over the dimensions, utils.rs:470-494, on the values in row-major order: entry i of the first half with entry i of the second. *)
  Fixpoint blend_loop (diffs : list F) (vals : list F) : Res F :=
    match diffs with
    | [] => match vals with x :: _ => Ok x | [] => Err ValueError end
    | d :: r => let next := length (index_vectors (repeat 2%nat (length r))) in
        blend_loop r (map (fun i => nth i vals n0 * (n1 - d) + nth (next + i) vals n0 * d) (seq 0 next))
    end.
  (** multilinear, utils.rs:386-498. *)
  Definition multilinear (point : list F) (grid : list (list F)) (shape : list nat) (values : list nat -> F) : Res F :=
    do _ <- ensure (Nat.eqb (length point) (length shape));
    do _ <- ensure (Nat.eqb (length grid) (length shape));
    do _ <- check_dims point grid shape;
    let ds := combine point grid in
    let slots := map (fun d => position (fst d) (snd d)) ds in
    let rest := filter (fun d => match position (fst d) (snd d) with Some _ => false | None => true end) ds in
    let view ix := values (expand slots ix) in
    if Nat.eqb (fold_right Nat.mul 1%nat (map (fun d => length (snd d)) rest)) 1 then Ok (view (repeat 0%nat (length rest)))
    else
      do l <- brackets rest;
      blend_loop (map snd l) (map (fun ix => view (shift (map fst l) ix)) (index_vectors (repeat 2%nat (length rest)))).
End Grid.
