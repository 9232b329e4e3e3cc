(** Vocabulary for the vehicle library properties C106-C108. *)
From Coq Require Import Ascii Permutation.
From Verif Require Import Num Numpy VehModel VehDictModel VehTableModel VehLibModel DictSpec.
Local Open Scope R_scope.

(** The row has [w] under the heading [h]. *)
Definition cell_at {F} (t : table F) (cells : list (pyval F)) (h : string) (w : pyval F) : Prop :=
  exists j, nth_error (t_cols t) j = Some h /\ nth_error cells j = Some w.
(** A row has vehicle number [k]. *)
Definition number {F} {N : Num F} (t : table F) (cells : list (pyval F)) (k : Z) : Prop :=
  cell_at t cells "selection" (VInt k) \/ cell_at t cells "selection" (VNum (nofZ k)).
(** A table of vehicles: the headings are different, and every row has a cell for each of them and a vehicle number. *)
Record vehicle_table (t : table R) : Prop := {
  vt_heads : NoDup (t_cols t);
  vt_rect : forall cells, In cells (t_rows t) -> length cells = length (t_cols t);
  vt_num : forall cells, In cells (t_rows t) -> exists k, number t cells k }.
(** A text without percent sign and without the words for truth values. *)
Definition plain (s : string) : Prop := ~ has_percent s /\ ~ mentions word_true s /\ ~ mentions word_false s.
(** float(str(v)) is the number [x]. *)
Definition prints_as (T : texts R) (v : pyval R) (x : R) : Prop := plain (show T v) /\ to_float T (show T v) = Some x.
(** The text of a cell can be read as the number [x], perhaps a percentage. *)
Definition cell_number (T : texts R) (w : pyval R) (x : R) : Prop :=
  let s := match w with VStr s => s | _ => show T w end in
  to_float T s = Some x \/ exists t y, has_percent s /\ no_percent s t /\ to_float T t = Some y /\ x = y / 100.
(** Python prints what it reads: truth values as True and False, the numbers read from the table and the vehicle numbers so that
    they are read back as they are. *)
Record round_trip (T : texts R) (t : table R) : Prop := {
  rt_true : show T (VBool true) = "True"%string;
  rt_false : show T (VBool false) = "False"%string;
  rt_cells : forall cells w x, In cells (t_rows t) -> In w cells -> cell_number T w x -> prints_as T (VNum x) x;
  rt_whole : forall cells k, In cells (t_rows t) -> cell_at t cells "selection" (VInt k) -> prints_as T (VInt k) (IZR k);
  rt_float : forall cells k, In cells (t_rows t) -> cell_at t cells "selection" (VNum (IZR k)) -> prints_as T (VNum (IZR k)) (IZR k) }.
(** The same vehicle but for its number. *)
Definition renumbered {F} (v w : pyveh F) (n : Z) : Prop :=
  w = mkpv (pv_core v) (pv_scenario v) n (pv_year v) (pv_type v) (pv_wheels v) (pv_vals v) (pv_rho v) (pv_afr v).
