(** C123: the helper functions of the two implementations.  C124: the compiled tables of air properties. *)
From Coq Require Import Ascii Floats Lia.
From Verif Require Import Num FloatNum Numpy ListFacts CycleModel CycleSpec VehModel VehProofs SimModel SimState WalkModel UtilModel UtilSpec TextProofs
  UtilProofs UtilProofs2 UtilProps SimDemo RustVehModel RustVehProofs RustUtilModel RustUtilProofs RustAirSpec RustAirProofs.
Local Open Scope R_scope.
Local Set Warnings "-inexact-float".

(** ** C123 *)
(** *** Air density, heating value, error *)
Theorem C123_density (t : R) : (forall h : R, r_get_rho t (Some h) = get_rho_air t h) /\ r_get_rho t None = get_rho_air t 180.
Proof. split; [intros h|]; apply (r_rho_same t). Qed.
Theorem C123_properties : @r_default_props R RNum = default_props /\
  forall (p : pprops R) (x : R), r_get_fuel_lhv p = get_fuel_lhv p /\ r_set_fuel_lhv p x = set_fuel_lhv p x /\
    (pp_fuel_rho p <> 0 -> r_get_fuel_lhv (r_set_fuel_lhv p x) = x).
Proof. split; [reflexivity|]. intros p x. split; [reflexivity|]. split; [reflexivity|]. exact (lhv_get_set p x). Qed.
(** The compiled error is that of C55, refusals included. *)
Theorem C123_error (m e t : list R) : r_get_error_val m e t = get_error_val m e t.
Proof. apply r_error_same. Qed.
Theorem C123_error_value (m e t : list R) : length m = length t -> length e = length t -> t <> [] ->
  r_get_error_val m e t = Ok (area t (gaps m e) / (last t 0 - hd 0 t)).
Proof. apply r_error_value. Qed.
Example C123_run : (r_get_error_val [1; 2; 4] [1; 3; 2] [0; 1; 3] = Ok 1.1666666666666667 /\ r_get_fuel_lhv r_default_props = 42737.120211360634)%float.
Proof. vm_compute. split; reflexivity. Qed.

(** *** Drag coefficients *)
(** Without the fit, Rust's coefficients are those of Python (run with use_rust=False) whenever Python returns any. *)
Theorem C123_drag (v v' : vehicle R) (a b c d r t h : R) :
  (abc_to_drag_coeffs v a b c None = Ok (v', (d, r)) -> forall rt rh,
     r_abc_to_drag_coeffs v a b c None rt rh = (v', (d, r)) /\ r_abc_to_drag_coeffs v a b c (Some false) rt rh = (v', (d, r))) /\
  (abc_to_drag_coeffs v a b c (Some (t, h)) = Ok (v', (d, r)) ->
     r_abc_to_drag_coeffs v a b c (Some true) (Some t) (Some h) = (v', (d, r)) /\
     (h = 180 -> r_abc_to_drag_coeffs v a b c (Some true) (Some t) None = (v', (d, r))) /\
     (t = 20 -> r_abc_to_drag_coeffs v a b c (Some true) None (Some h) = (v', (d, r)))).
Proof.
  split; intros E; destruct (C53_changed _ _ _ _ _ _ _ _ E) as (-> & -> & -> & _); unfold ambient_density; rewrite ?lit_R.
  - intros rt rh. rewrite !r_abc_value. split; reflexivity.
  - rewrite !r_abc_value. split; [reflexivity|]. split; intros ->; reflexivity.
Qed.
(** Rust returns for every vehicle, changes these two parameters only and leaves a road load with the first and last coefficient given. *)
Theorem C123_drag_always (v : vehicle R) (a b c : R) (rho : option bool) (t h : option R) : exists d r,
  r_abc_to_drag_coeffs v a b c rho t h = (with_drag v d r, (d, r)) /\
  (veh_kg v <> 0 -> frontal_area_m2 v <> 0 ->
   forall custom, custom = (match rho with
     | Some true => Some (match t with Some t => t | None => 20 end, match h with Some h => h | None => 180 end) | _ => None end) ->
   ambient_density custom <> 0 -> drag_coeffs_to_abc (with_drag v d r) custom = (a, 0, c)).
Proof.
  do 2 eexists. split; [apply r_abc_value|]. intros M A custom E D.
  assert (X : (match rho with Some true => get_rho_air (match t with Some t => t | None => 20 end) (match h with Some h => h | None => 180 end) | _ => 12 / 10 end)
              = ambient_density custom).
  { rewrite E. destruct rho as [[]|]; try reflexivity; unfold ambient_density; now rewrite lit_R. }
  rewrite X. clear X E. set (den := ambient_density custom) in *.
  match goal with |- drag_coeffs_to_abc ?w _ = _ => set (u := w) end. pose proof (abc_values u custom) as P.
  destruct (drag_coeffs_to_abc u custom) as [[a' b'] c']. destruct P as (-> & P1 & P2). fold den in P2. unfold u in P1, P2.
  cbn [with_drag wheel_rr_coef veh_kg drag_coef frontal_area_m2] in P1, P2.
  assert (a' = a). { apply (Rmult_eq_reg_r (4448 / 1000)); [|lra]. rewrite P1. field; auto. }
  assert (c' = c). { apply (Rmult_eq_reg_r (4448 / 1000 * (22369 / 10000) ^ 2)); [|lra]. rewrite <- !Rmult_assoc, P2. field; auto. }
  subst. reflexivity.
Qed.
Example C123_drag_run : snd (r_abc_to_drag_coeffs demo_hev 33.082284172661872 0 0.016175010943216953 None None None)%float = (drag_coef demo_hev, wheel_rr_coef demo_hev).
Proof. vm_compute. reflexivity. Qed.

(** *** Tyre codes *)
(** Whatever letters come before it, a code gives rim radius plus side wall, in metres; a space before the construction letter is allowed. *)
Theorem C123_tire (pre w a sp con sep d rest : string) (W A D : R) :
  text_all (fun c => is_digit c = false) pre -> numeral 2 3 w W -> numeral 1 2 a A -> at_most_one " " sp -> at_most_one "BbDdRr" con -> at_most_one "Xx- " sep ->
  append sp (append con sep) <> EmptyString -> numeral 1 2 d D -> ends_number rest ->
  r_tire_code_to_radius (append pre (append w (String "/" (append a (append sp (append con (append sep (append d rest)))))))) = Ok (tire_mm W A D / 1000).
Proof. apply r_tire_code. Qed.
(** In a text without spaces Rust takes the first place where Python would accept what follows. *)
Theorem C123_tire_first (s : string) (r : R) : text_all (fun c => c <> " "%char) s ->
  (r_tire_code_to_radius s = Ok r <-> exists p t, s = append p t /\ calculate_tire_radius t "m" = Ok r /\
     forall p' t', s = append p' t' -> (String.length p' < String.length p)%nat -> calculate_tire_radius (F := R) t' "m" = Err ValueError).
Proof. apply r_tire_first. Qed.
(** So what Python accepts there, Rust accepts, with the same radius. *)
Theorem C123_tire_same (s : string) (r : R) : text_all (fun c => c <> " "%char) s ->
  calculate_tire_radius s "m" = Ok r -> r_tire_code_to_radius s = Ok r.
Proof. intros H E. apply r_tire_first; [exact H|]. exists EmptyString, s. split; [reflexivity|]. split; [exact E|]. cbn. lia. Qed.
Theorem C123_tire_no_slash (s : string) : text_all (fun c => c <> "/"%char) s -> r_tire_code_to_radius (F := R) s = Err ValueError.
Proof. apply r_tire_no_slash. Qed.
(** With a space Python reads another tyre: aspect ratio 6 and a rim of no size. *)
Theorem C123_space_refuted : exists (s : string) (x y : R), calculate_tire_radius s "m" = Ok x /\ r_tire_code_to_radius s = Ok y /\ x = 123 / 10000 /\ y = 3262 / 10000.
Proof.
  assert (N : forall w, digits w -> float_of (F := R) w = IZR (decimal 0 w)) by (intros w H; apply (float_numeral 2 3); left; auto).
  exists "P205/60 R16"%string, (123 / 10000), (3262 / 10000). split; [|split; [|split; reflexivity]].
  - unfold calculate_tire_radius. let x := eval vm_compute in (tire_matches "P205/60 R16") in change (tire_matches "P205/60 R16") with x. cbv iota beta zeta.
    rewrite !N by (split; [discriminate|cbn; auto]). cbn [String.eqb Ascii.eqb Bool.eqb]. cbv iota. f_equal.
    change (decimal 0 "205") with 205%Z. change (decimal 0 "6") with 6%Z. change (decimal 0 "0") with 0%Z. unR. rewrite ?lit_R. lra.
  - unfold r_tire_code_to_radius. let x := eval vm_compute in (r_captures "P205/60 R16") in change (r_captures "P205/60 R16") with x. cbv iota beta zeta.
    rewrite !N by (split; [discriminate|cbn; auto]). f_equal.
    change (decimal 0 "205") with 205%Z. change (decimal 0 "60") with 60%Z. change (decimal 0 "16") with 16%Z. unR. rewrite ?lit_R. lra.
Qed.
(** Light-truck codes, which Python refuses. *)
Theorem C123_light_truck_refuted : exists (s : string) (y : R), calculate_tire_radius (F := R) s "m" = Err ValueError /\ r_tire_code_to_radius s = Ok y.
Proof.
  exists "LT245/75R16"%string. eexists. split; [reflexivity|].
  unfold r_tire_code_to_radius. let x := eval vm_compute in (r_captures "LT245/75R16") in change (r_captures "LT245/75R16") with x. reflexivity.
Qed.
Example C123_tire_run : r_tire_code_to_radius "P205/60R16" = Ok 0.3262%float /\ r_tire_code_to_radius "225/70Rx19.5G" = Ok 0.40514999999999995%float /\
  r_tire_code_to_radius (F := float) "205" = Err ValueError.
Proof. vm_compute. auto. Qed.
Example C123_tire_case : r_tire_code_to_radius "LT245/75 R16 E" = Ok (tire_mm 245 75 16 / 1000).
Proof.
  apply (C123_tire "LT" "245" "75" " " "R" "" "16" " E"); [cbn; auto| | | | | |discriminate| |split; [reflexivity|discriminate]].
  - left. split; [split; [discriminate|cbn; auto]|reflexivity].
  - left. split; [split; [discriminate|cbn; auto]|reflexivity].
  - right. exists " "%char. cbn. auto.
  - right. exists "R"%char. cbn. tauto.
  - left. reflexivity.
  - left. split; [split; [discriminate|cbn; auto]|reflexivity].
Qed.

(** ** C124 *)
(** Every property is read off the straight lines between the rows of the table. *)
Theorem C124_lines (t y : R) :
  (get_k t = Ok y <-> on_polyline (map row_te air_rows) (map row_k air_rows) t y) /\
  (get_cp t = Ok y <-> on_polyline (map row_te air_rows) (map row_cp air_rows) t y) /\
  (get_h t = Ok y <-> on_polyline (map row_te air_rows) (map row_h air_rows) t y) /\
  (get_mu t = Ok y <-> on_polyline (map row_te air_rows) (map row_mu air_rows) t y) /\
  (get_pr t = Ok y <-> on_polyline (map row_te air_rows) (map row_pr air_rows) t y) /\
  (get_te_from_h t = Ok y <-> on_polyline (map row_h air_rows) (map row_te air_rows) t y).
Proof.
  rewrite <- te_rows, <- k_rows, <- cp_rows, <- h_rows, <- mu_rows, <- pr_rows.
  assert (L : (2 <= length (@air_te R RNum))%nat) by (apply Nat.leb_le; reflexivity).
  assert (L' : (2 <= length (@air_h R RNum))%nat) by (apply Nat.leb_le; reflexivity).
  split; [|split; [|split; [|split; [|split]]]].
  - exact (line_iff air_te air_k t y L eq_refl air_te_inc).
  - exact (line_iff air_te air_cp t y L eq_refl air_te_inc).
  - exact (line_iff air_te air_h t y L eq_refl air_te_inc).
  - exact (line_iff air_te air_mu t y L eq_refl air_te_inc).
  - exact (line_iff air_te air_pr t y L eq_refl air_te_inc).
  - exact (line_iff air_h air_te t y L' eq_refl air_h_inc).
Qed.
(** Every property has a value at every temperature, between the least and the greatest of its table. *)
Theorem C124_defined (t : R) :
  (exists k, get_k t = Ok k /\ 19597 / 1000000 <= k <= 26081 / 100000) /\ (exists c, get_cp t = Ok c /\ 10055 / 10 <= c <= 1347) /\
  (exists m, get_mu t = Ok m /\ 14067 / 1000000000 <= m <= 14006 / 100000000) /\ (exists p, get_pr t = Ok p /\ 698 / 1000 <= p <= 744 / 1000).
Proof.
  repeat split.
  - exact (air_between air_k _ _ t eq_refl air_k_between).
  - exact (air_between air_cp _ _ t eq_refl air_cp_between).
  - exact (air_between air_mu _ _ t eq_refl air_mu_between).
  - exact (air_between air_pr _ _ t eq_refl air_pr_between).
Qed.
(** The temperature from the enthalpy undoes the enthalpy from the temperature, and the other way round. *)
Theorem C124_inverse :
  (forall t : R, -60 <= t <= 5000 -> exists h, get_h t = Ok h /\ 338940 <= h <= 6662000 /\ get_te_from_h h = Ok t) /\
  (forall h : R, 338940 <= h <= 6662000 -> exists t, get_te_from_h h = Ok t /\ -60 <= t <= 5000 /\ get_h t = Ok h).
Proof. split; [exact h_there_back|exact te_there_back]. Qed.
(** Warmer air has more enthalpy, conducts better and is more viscous, at bounded rates. *)
Theorem C124_rising (t t' : R) : -60 <= t -> t <= t' -> t' <= 5000 ->
  (exists h h', get_h t = Ok h /\ get_h t' = Ok h' /\ 1004 * (t' - t) <= h' - h <= 1337 * (t' - t)) /\
  (exists k k', get_k t = Ok k /\ get_k t' = Ok k' /\ 4 / 100000 * (t' - t) <= k' - k <= 84 / 1000000 * (t' - t)) /\
  (exists m m', get_mu t = Ok m /\ get_mu t' = Ok m' /\ 2 / 100000000 * (t' - t) <= m' - m <= 6 / 100000000 * (t' - t)).
Proof.
  intros H1 H2 H3. split; [|split].
  - exact (air_rates air_h _ _ t t' eq_refl h_rate H1 H2 H3).
  - exact (air_rates air_k _ _ t t' eq_refl k_rate H1 H2 H3).
  - exact (air_rates air_mu _ _ t t' eq_refl mu_rate H1 H2 H3).
Qed.
(** Between neighbouring temperatures of the table the enthalpy rises at the specific heat, within two per cent. *)
Theorem C124_heat (i : nat) (a b t t' : R) : nth_error (@air_te R RNum) i = Some a -> nth_error (@air_te R RNum) (S i) = Some b -> a <= t -> t <= t' -> t' <= b ->
  exists h h' c, get_h t = Ok h /\ get_h t' = Ok h' /\ get_cp t = Ok c /\ 98 / 100 * c * (t' - t) <= h' - h <= 102 / 100 * c * (t' - t).
Proof. apply cp_slope. Qed.
(** Below -60 and above 5000 degrees the values stay where they are. *)
Theorem C124_outside (t : R) :
  (t <= -60 -> get_k t = Ok (19597 / 1000000) /\ get_cp t = Ok (10062 / 10) /\ get_h t = Ok 338940 /\ get_mu t = Ok (14067 / 1000000000)) /\
  (5000 <= t -> get_k t = Ok (260810 / 1000000) /\ get_cp t = Ok (13470 / 10) /\ get_h t = Ok 6662000 /\ get_mu t = Ok (140060 / 1000000000)).
Proof.
  unfold get_k, get_cp, get_h, get_mu.
  destruct (air_outside air_k t eq_refl) as [K1 K2]. destruct (air_outside air_cp t eq_refl) as [C1 C2].
  destruct (air_outside air_h t eq_refl) as [H1 H2]. destruct (air_outside air_mu t eq_refl) as [M1 M2].
  split; intros T; [rewrite K1, C1, H1, M1 by exact T|rewrite K2, C2, H2, M2 by exact T];
    unfold air_k, air_cp, air_h, air_mu; cbn [map hd last]; rewrite ?lit_R; repeat split; reflexivity.
Qed.
(** So far below the table the enthalpy no longer tells the temperature. *)
Theorem C124_inverse_cold_refuted : exists t h : R, get_h t = Ok h /\ get_te_from_h h <> Ok t.
Proof.
  exists (-100), 338940. destruct (C124_outside (-100)) as [X _]. destruct (X ltac:(lra)) as (_ & _ & H & _). split; [exact H|]. clear X H. destruct (te_there_back 338940 ltac:(lra)) as (u & E & U & _).
  rewrite E. intros [= Q]. lra.
Qed.
(** The specific heat is least at about -22.5 degrees: it does not rise throughout. *)
Theorem C124_cp_rising_refuted : exists (t t' c c' : R), -60 <= t < t' /\ t' <= 5000 /\ get_cp t = Ok c /\ get_cp t' = Ok c' /\ c' < c.
Proof.
  exists (-60), (-2254827664 / 100000000), (10062 / 10), (10055 / 10). split; [lra|]. split; [lra|].
  destruct (C124_outside (-60)) as [X _]. destruct (X ltac:(lra)) as (_ & H & _). split; [exact H|]. clear X H. split; [|lra].
  unfold get_cp. rewrite (air_piece air_cp 6 (-2254827664 / 100000000) (-848788571 / 100000000) (10055 / 10) (10056 / 10)).
  - f_equal. field.
  - reflexivity.
  - unfold air_te. cbn [map nth_error]. now rewrite lit_R.
  - unfold air_te. cbn [map nth_error]. now rewrite lit_R.
  - unfold air_cp. cbn [map nth_error]. now rewrite lit_R.
  - unfold air_cp. cbn [map nth_error]. now rewrite lit_R.
  - lra.
Qed.
Example C124_run : (get_k 20 = Ok 0.025868533354462278 /\ get_te_from_h 409080 = Ok 9.73873099)%float.
Proof. vm_compute. split; reflexivity. Qed.
Example C124_case : exists h h', get_h 0 = Ok h /\ get_h 100 = Ok h' /\ 100400 <= h' - h <= 133700.
Proof. destruct (C124_rising 0 100) as ((h & h' & A & B & C) & _); [lra|lra|lra|]. exists h, h'. split; [exact A|]. split; [exact B|]. lra. Qed.
