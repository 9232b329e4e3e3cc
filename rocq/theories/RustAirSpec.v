(** The rows of the table in air.rs: temperature (degrees Celsius), conductivity (W/(m K)), specific heat (J/(kg K)),
    enthalpy (J/kg) and viscosity (Pa s), as printed there. *)
From Coq Require Import Reals List.
Import ListNotations.
Local Open Scope R_scope.

Definition air_rows : list (R * R * R * R * R) :=
  [(-60, 0.019597, 1006.2, 338940, 1.4067e-5);
   (-57.03690616, 0.019841, 1006.1, 341930, 1.4230e-5);
   (-53.1958198, 0.020156, 1006, 345790, 1.4440e-5);
   (-48.21658352, 0.020561, 1005.9, 350800, 1.4711e-5);
   (-41.7619528, 0.021083, 1005.7, 357290, 1.5058e-5);
   (-33.39475442, 0.021753, 1005.6, 365710, 1.5502e-5);
   (-22.54827664, 0.022612, 1005.5, 376610, 1.6069e-5);
   (-8.48788571, 0.023708, 1005.6, 390750, 1.6791e-5);
   (9.73873099, 0.025102, 1005.9, 409080, 1.7703e-5);
   (33.36606527, 0.026867, 1006.6, 432860, 1.8850e-5);
   (63.99440042, 0.02909, 1008.3, 463710, 2.0283e-5);
   (103.69819869, 0.031875, 1011.6, 503800, 2.2058e-5);
   (155.16660498, 0.035342, 1017.9, 556020, 2.4240e-5);
   (221.88558305, 0.039633, 1028.9, 624280, 2.6899e-5);
   (308.37402042, 0.044917, 1047, 714030, 3.0112e-5);
   (420.48979341, 0.051398, 1073.4, 832880, 3.3966e-5);
   (565.82652205, 0.059334, 1107.6, 991400, 3.8567e-5);
   (754.22788725, 0.069059, 1146.1, 1203800, 4.4049e-5);
   (998.45434496, 0.081025, 1184.5, 1488700, 5.0595e-5);
   (1315.04739396, 0.095855, 1219.5, 1869600, 5.8464e-5);
   (1725.44993435, 0.11442, 1250.1, 2376700, 6.8036e-5);
   (2257.45859876, 0.13797, 1277.1, 3049400, 7.9878e-5);
   (2947.10642291, 0.16828, 1301.7, 3939100, 9.4840e-5);
   (3841.10336915, 0.20795, 1324.5, 5113600, 1.1423e-4);
   (5000, 0.26081, 1347, 6662000, 1.4006e-4)].
Definition row_te (r : R * R * R * R * R) : R := let '(t, _, _, _, _) := r in t.
Definition row_k (r : R * R * R * R * R) : R := let '(_, k, _, _, _) := r in k.
Definition row_cp (r : R * R * R * R * R) : R := let '(_, _, c, _, _) := r in c.
Definition row_h (r : R * R * R * R * R) : R := let '(_, _, _, h, _) := r in h.
Definition row_mu (r : R * R * R * R * R) : R := let '(_, _, _, _, m) := r in m.
(** Prandtl number: viscosity times specific heat over conductivity. *)
Definition row_pr (r : R * R * R * R * R) : R := row_mu r * row_cp r / row_k r.
