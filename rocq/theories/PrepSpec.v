(** Small specifications for the pre-processing of vehicle data. *)
From Coq Require Import Ascii.
From Verif Require Import Num.

(** [l'] is [l] without the elements that do not satisfy [P]. *)
Inductive keeps {A} (P : A -> Prop) : list A -> list A -> Prop :=
| keeps_nil : keeps P [] []
| keeps_in x l l' : P x -> keeps P l l' -> keeps P (x :: l) (x :: l')
| keeps_out x l l' : ~ P x -> keeps P l l' -> keeps P (x :: l) l'.

(** Cell of a row in the (last) column named [k]. *)
Definition in_column (header row : list string) (k t : string) : Prop :=
  exists i, nth_error header i = Some k /\ nth_error row i = Some t /\
    forall j, (i < j < length row)%nat -> nth_error header j <> Some k.
(** The same, read as a number. *)
Definition number_in (int_of : string -> option Z) (header row : list string) (k : string) (n : Z) : Prop :=
  exists t, in_column header row k t /\ int_of t = Some n.

(** The digits of ASCII. *)
Definition digits : list (ascii * Z) := [("0", 0); ("1", 1); ("2", 2); ("3", 3); ("4", 4); ("5", 5); ("6", 6); ("7", 7); ("8", 8); ("9", 9)]%char%Z.
(** A name beginning with two digits and no third. *)
Definition two_digits (s : string) (n : Z) : Prop :=
  exists a b c r x y, s = String a (String b (String c r)) /\ In (a, x) digits /\ In (b, y) digits /\
    ~ In c (map fst digits) /\ n = (10 * x + y)%Z.
(** A name beginning with four digits and a dash and containing ".csv" behind it. *)
Definition year_csv (s : string) (n : Z) : Prop :=
  exists a b c d x y z w p q, s = String a (String b (String c (String d (String "-" (p ++ ".csv" ++ q))))) /\
    In (a, x) digits /\ In (b, y) digits /\ In (c, z) digits /\ In (d, w) digits /\ n = (1000 * x + 100 * y + 10 * z + w)%Z.

(** Blanks: tabulator, the line, page and record separators of ASCII, and the space. *)
Definition blank (c : ascii) : Prop := In (nat_of_ascii c) [9; 10; 11; 12; 13; 28; 29; 30; 31; 32]%nat.
