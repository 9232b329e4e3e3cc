(** Pre-processing of vehicle data: tables by year (C98), test files and archives by year (C99). *)
From Coq Require Import Ascii Permutation.
From Verif Require Import Num FrameProofs VehDictModel PrepModel PrepSpec PrepProofs PrepProofs2.
Local Open Scope string_scope.
Local Open Scope list_scope.

(** A reading of decimal numbers for the examples. *)
Fixpoint decimal (acc : Z) (s : string) : option Z :=
  match s with EmptyString => Some acc | String c r => match digit c with Some n => decimal (10 * acc + n) r | None => None end end.
Definition demo_vehicles : list (list string) :=
  [["id "; " year"; "model"]; ["11"; "2019"; "A"]; ["12"; "2020"; "B"]; ["13"; "2019"; "C"]; ["11"; "2021"; "D"]].
Definition demo_emissions : list (list string) := [["score"; "id"]; ["7"; "12"]; ["8"; "11"]; ["9"; "99"]; ["6"; "11"]].

(** ** C98: tables by year *)
(** The years are those of the vehicles; the file of a year has the header and exactly that year's rows, in their order. *)
Theorem C98_vehicles : forall int_of h rows emissions vf ef,
  sort_by_year int_of (h :: rows) emissions = Ok (vf, ef) ->
  NoDup (map fst vf) /\
  (forall y, In y (map fst vf) <-> exists r, In r rows /\ number_in int_of (map strip h) r "year" y) /\
  (forall y f, In (y, f) vf -> exists rs, f = map strip h :: rs /\ keeps (fun r => number_in int_of (map strip h) r "year" y) rows rs).
Proof.
  intros int_of h rows emissions vf ef H. unfold sort_by_year in H. cbn [csv_header tl] in H.
  apply bind_ok in H as (st & E1 & H). apply bind_ok in H as (em & E2 & H). injection H as <- <-.
  apply (vehicles_inv int_of (map strip h) rows [] _ st (inv_nil _ _)) in E1. cbn [app] in E1. destruct E1 as (D1 & _ & K & _).
  rewrite map_map. cbn [fst]. split; [apply D1|]. split.
  - intros y. rewrite (dense_keys _ y D1). specialize (K y). pose proof (keeps_in_iff _ _ _ K) as Q. split.
    + destruct (zlist (fst st) y) as [|r l] eqn:E; [congruence|]. intros _. exists r. apply Q. now left.
    + intros (r & R). apply Q in R. intros C. rewrite C in R. destruct R.
  - intros y f I. apply in_map_iff in I as ((z & l) & E & I). cbn [fst snd] in E. injection E as <- <-. exists l. split; [reflexivity|].
    rewrite (dense_in _ _ _ D1 I). apply K.
Qed.
(** No vehicle is lost and none is repeated. *)
Theorem C98_no_loss : forall int_of h rows emissions vf ef,
  sort_by_year int_of (h :: rows) emissions = Ok (vf, ef) -> Permutation (concat (map (fun f => tl (snd f)) vf)) rows.
Proof.
  intros int_of h rows emissions vf ef H. unfold sort_by_year in H. cbn [csv_header tl] in H.
  apply bind_ok in H as (st & E1 & H). apply bind_ok in H as (em & E2 & H). injection H as <- <-.
  apply (vehicles_inv int_of (map strip h) rows [] _ st (inv_nil _ _)) in E1. destruct E1 as (_ & _ & _ & _ & P). cbn [app] in P.
  rewrite map_map. exact P.
Qed.
(** The emissions go to every year that has a vehicle with their id, in their order; those of unknown ids are left out. *)
Theorem C98_emissions : forall int_of h rows eh erows vf ef,
  sort_by_year int_of (h :: rows) (eh :: erows) = Ok (vf, ef) ->
  let of_year y r := exists i v, number_in int_of (map strip eh) r "id" i /\ In v rows /\
    number_in int_of (map strip h) v "id" i /\ number_in int_of (map strip h) v "year" y in
  NoDup (map fst ef) /\
  (forall y, In y (map fst ef) <-> exists r, In r erows /\ of_year y r) /\
  (forall y f, In (y, f) ef -> exists rs, f = map strip eh :: rs /\ keeps (of_year y) erows rs).
Proof.
  intros int_of h rows eh erows vf ef H of_year. unfold sort_by_year in H. cbn [csv_header tl] in H.
  apply bind_ok in H as (st & E1 & H). apply bind_ok in H as (em & E2 & H). injection H as <- <-.
  apply (vehicles_inv int_of (map strip h) rows [] _ st (inv_nil _ _)) in E1. cbn [app] in E1. destruct E1 as (_ & D2 & _ & Ids & _).
  assert (I0 : inv_em int_of (map strip eh) (snd st) [] []) by (split; [apply dense_nil|intros; constructor]).
  apply (emissions_inv int_of (map strip eh) (snd st) erows D2 [] [] em I0) in E2. cbn [app] in E2. destruct E2 as (D & K0).
  assert (K : forall y, keeps (of_year y) erows (zlist em y)).
  { intros y. eapply keeps_ext; [|apply K0]. intros r _. unfold of_year. split.
    - intros (i & H1 & H2). apply Ids in H2 as (v & V1 & V2 & V3). exists i, v. auto.
    - intros (i & v & H1 & H2 & H3 & H4). exists i. split; [exact H1|]. apply Ids. exists v. auto. }
  rewrite map_map. cbn [fst]. split; [apply D|]. split.
  - intros y. rewrite (dense_keys _ y D). specialize (K y). pose proof (keeps_in_iff _ _ _ K) as Q. split.
    + destruct (zlist em y) as [|r l] eqn:E; [congruence|]. intros _. exists r. apply Q. now left.
    + intros (r & R). apply Q in R. intros C. rewrite C in R. destruct R.
  - intros y f I. apply in_map_iff in I as ((z & l) & E & I). cbn [fst snd] in E. injection E as <- <-. exists l. split; [reflexivity|].
    rewrite (dense_in _ _ _ D I). apply K.
Qed.
(** All or nothing: the files are written exactly if every vehicle has a year and an id and every emission an id. *)
Theorem C98_complete : forall int_of h rows eh erows,
  (exists files, sort_by_year int_of (h :: rows) (eh :: erows) = Ok files) <->
  (forall r, In r rows -> (exists y, number_in int_of (map strip h) r "year" y) /\ (exists i, number_in int_of (map strip h) r "id" i)) /\
  (forall r, In r erows -> exists i, number_in int_of (map strip eh) r "id" i).
Proof.
  intros int_of h rows eh erows. unfold sort_by_year. cbn [csv_header tl]. rewrite <- (vehicles_total int_of (map strip h) rows ([], [])). split.
  - intros (f & H). apply bind_ok in H as (st & E1 & H). apply bind_ok in H as (em & E2 & H). split; [eauto|].
    apply (emissions_total int_of (map strip eh) (snd st) erows []). eauto.
  - intros ((st & E1) & H2). apply (emissions_total int_of (map strip eh) (snd st) erows []) in H2 as (em & E2).
    rewrite E1. cbn [bindR]. rewrite E2. cbn [bindR]. eauto.
Qed.
Lemma is_space_blank c : is_space c = true <-> blank c.
Proof.
  unfold is_space, blank. cbv zeta. generalize (nat_of_ascii c). intros n. rewrite !Bool.orb_true_iff, !Bool.andb_true_iff, !Nat.leb_le, Nat.eqb_eq.
  cbn [In]. lia.
Qed.
Lemma blanks_around : forall s, exists l r, s = (l ++ strip s ++ r)%string /\
  (forall c, In c (list_ascii_of_string l) \/ In c (list_ascii_of_string r) -> is_space c = true) /\
  (forall c t, strip s = String c t -> is_space c = false) /\ (forall t c, strip s = (t ++ String c "")%string -> is_space c = false).
Proof.
  assert (A : forall a b c : string, ((a ++ b) ++ c)%string = (a ++ b ++ c)%string) by (induction a as [|x a IH]; intros; cbn; [reflexivity|now rewrite IH]).
  assert (L : forall s, exists l, s = (l ++ lstrip s)%string /\ (forall c, In c (list_ascii_of_string l) -> is_space c = true) /\ (forall c t, lstrip s = String c t -> is_space c = false)).
  { induction s as [|c s (l & E & B & C)]; [exists ""; repeat split; [intros ? []|discriminate]|]. cbn [lstrip]. destruct (is_space c) eqn:Q.
    - exists (String c l). split; [cbn; congruence|]. split; [|exact C]. intros x [<-|X]; auto.
    - exists "". split; [reflexivity|]. split; [intros ? []|]. intros x t X. injection X as <- _. exact Q. }
  assert (Rr : forall s, exists r, s = (rstrip s ++ r)%string /\ (forall c, In c (list_ascii_of_string r) -> is_space c = true) /\
    (forall t c, rstrip s = (t ++ String c "")%string -> is_space c = false) /\
    (forall c u d v, s = String c u -> is_space c = false -> rstrip s = String d v -> d = c)).
  { induction s as [|c s (r & E & B & C & _)].
    - exists "". repeat split; [intros ? []| |discriminate]. intros [|? ?] ? X; discriminate.
    - cbn [rstrip]. destruct (rstrip s) as [|d t] eqn:Q.
      + cbn in E. subst r. destruct (is_space c) eqn:Sc.
        * exists (String c s). split; [reflexivity|]. split; [intros x [<-|X]; auto|]. split; [intros [|? ?] ? X; discriminate|discriminate].
        * exists s. split; [reflexivity|]. split; [exact B|]. split; [|congruence]. intros [|? t] x X; cbn in X; [injection X as <-; exact Sc|]. injection X as _ X. destruct t; discriminate.
      + exists r. split; [cbn in *; congruence|]. split; [exact B|]. split; [|congruence]. intros [|y t'] x X; cbn in X; [discriminate|]. injection X as _ X. eapply C. exact X. }
  intros s. destruct (L s) as (l & E & B & C). destruct (Rr (lstrip s)) as (r & E' & B' & C' & F). exists l, r. unfold strip. split; [now rewrite <- E'|].
  split; [intros c [X|X]; auto|]. split; [|exact C']. intros c t X. destruct (lstrip s) as [|d u] eqn:Q; [discriminate|]. rewrite (F d u c t eq_refl (C _ _ eq_refl) X). exact (C _ _ eq_refl).
Qed.
(** Names of columns lose the blanks around them and only those. *)
Theorem C98_blanks : forall s, exists l r, s = (l ++ strip s ++ r)%string /\
  (forall c, In c (list_ascii_of_string l) \/ In c (list_ascii_of_string r) -> blank c) /\
  (forall c t, strip s = String c t -> ~ blank c) /\ (forall t c, strip s = (t ++ String c "")%string -> ~ blank c).
Proof.
  intros s. destruct (blanks_around s) as (l & r & E & A & B & C). exists l, r. split; [exact E|].
  split; [intros c X; apply is_space_blank; auto|]. split; [intros c t X Q|intros t c X Q]; apply is_space_blank in Q; [apply B in X|apply C in X]; congruence.
Qed.
Example C98_run : sort_by_year (decimal 0) demo_vehicles demo_emissions = Ok
  ([(2019, [["id"; "year"; "model"]; ["11"; "2019"; "A"]; ["13"; "2019"; "C"]]);
    (2020, [["id"; "year"; "model"]; ["12"; "2020"; "B"]]); (2021, [["id"; "year"; "model"]; ["11"; "2021"; "D"]])]%Z,
   [(2020, [["score"; "id"]; ["7"; "12"]]); (2019, [["score"; "id"]; ["8"; "11"]; ["6"; "11"]]); (2021, [["score"; "id"]; ["8"; "11"]; ["6"; "11"]])]%Z).
Proof. vm_compute. reflexivity. Qed.
Example C98_run_bad : sort_by_year (decimal 0) (demo_vehicles ++ [["14"; "MY20"]]) demo_emissions = Err ValueError /\
  sort_by_year (decimal 0) demo_vehicles (demo_emissions ++ [["5"]]) = Err KeyError.
Proof. vm_compute. auto. Qed.

(** ** C99: test files and archives by year *)
(** The year a test file is for: the one from 1971 to 2070 that ends in the two digits the name begins with. *)
Theorem C99_century : forall s y, epa_year s = Some y <-> (1971 <= y <= 2070)%Z /\ two_digits s (y mod 100).
Proof. exact epa_year_spec. Qed.
(** Every year has one output, made from the last file for it that is a CSV file or a workbook. *)
Theorem C99_test_files : forall C (of_xlsx : C -> C) files,
  NoDup (map fst (process_epa of_xlsx files)) /\
  forall y c, In (y, c) (process_epa of_xlsx files) <->
    exists pre stem suffix c0 post, files = pre ++ (stem, suffix, c0) :: post /\
      ((1971 <= y <= 2070)%Z /\ two_digits stem (y mod 100)) /\
      ((suffix = ".csv" /\ c = c0) \/ (suffix = ".xlsx" /\ c = of_xlsx c0)) /\
      forall st su d, In (st, su, d) post -> two_digits st (y mod 100) -> su <> ".csv" /\ su <> ".xlsx".
Proof.
  intros C of_xlsx files. destruct (epa_last of_xlsx files) as (ND & H). split; [exact ND|]. intros y c. rewrite (zget_in _ y c ND), H. split.
  - intros (pre & stem & suffix & c0 & post & E & Y & W & L). exists pre, stem, suffix, c0, post. apply epa_year_spec in Y. repeat split; auto; try apply Y;
    (apply (L st su d); [assumption|]; apply epa_year_spec; split; [apply Y|assumption]).
  - intros (pre & stem & suffix & c0 & post & E & Y & W & L). exists pre, stem, suffix, c0, post. split; [exact E|]. split; [now apply epa_year_spec|]. split; [exact W|].
    intros st su d I Q. apply epa_year_spec in Q. apply (L st su d); [exact I|apply Q].
Qed.
(** It is false that every test file gets into the output: of two for the same year one is dropped without notice. *)
Theorem C99_all_kept_refuted : exists files : list (string * string * nat),
  (forall st su c, In (st, su, c) files -> su = ".csv" /\ exists y, epa_year st = Some y) /\
  exists f, In f files /\ ~ In (snd f) (map snd (process_epa (fun c => c) files)).
Proof.
  exists [("20tstcar-a", ".csv", 1%nat); ("20tstcar-b", ".csv", 2%nat)]. split.
  - intros st su c [E|[E|[]]]; injection E as <- <- <-; split; try reflexivity; now exists 2020%Z.
  - exists ("20tstcar-a", ".csv", 1%nat). split; [now left|]. vm_compute. intros [C|[]]. discriminate.
Qed.
Example C99_run : process_epa (fun c => c + 100)%nat [("98tstcar", ".csv", 1); ("20tstcar-2021", ".xlsx", 2); ("2020x", ".csv", 3); ("70a", ".csv", 4); ("71a", ".pdf", 5); ("71a", ".csv", 6); ("71b", ".pdf", 7)]%nat
  = [(1998, 1%nat); (2020, 102%nat); (2070, 4%nat); (1971, 6%nat)]%Z.
Proof. vm_compute. reflexivity. Qed.
(** The archive of a year has exactly the files whose names begin with it and a dash and have ".csv" in them, in their order. *)
Theorem C99_archives : forall names,
  NoDup (map fst (zip_by_year names)) /\
  (forall y, In y (map fst (zip_by_year names)) <-> exists n, In n names /\ year_csv n y) /\
  (forall y ns, In (y, ns) (zip_by_year names) -> keeps (fun n => year_csv n y) names ns).
Proof.
  intros names. destruct (zip_fold names [] [] dense_nil (fun y => keeps_nil _)) as (D & K). cbn [app] in K. fold (zip_by_year names) in D, K.
  split; [apply D|]. split.
  - intros y. rewrite (dense_keys _ y D). specialize (K y). pose proof (keeps_in_iff _ _ _ K) as Q. split.
    + destruct (zlist (zip_by_year names) y) as [|r l] eqn:E; [congruence|]. intros _. exists r. apply Q. now left.
    + intros (r & R). apply Q in R. intros C. rewrite C in R. destruct R.
  - intros y ns I. rewrite (dense_in _ _ _ D I). apply K.
Qed.
(** It is false that only CSV files are archived: ".csv" need not be the end of the name. *)
Theorem C99_only_csv_refuted : exists names y ns n, In (y, ns) (zip_by_year names) /\ In n ns /\ ~ exists p, n = (p ++ ".csv")%string.
Proof.
  exists ["2020-vehicles.csv"; "2020-vehicles.csv.bak"], 2020%Z, ["2020-vehicles.csv"; "2020-vehicles.csv.bak"], "2020-vehicles.csv.bak".
  split; [now left|]. split; [right; now left|]. intros (p & E).
  assert (G : forall a b : string, list_ascii_of_string (a ++ b) = list_ascii_of_string a ++ list_ascii_of_string b) by (induction a as [|x a IH]; intros; cbn; [reflexivity|now rewrite IH]).
  apply (f_equal (fun s => hd_error (rev (list_ascii_of_string s)))) in E. rewrite G, rev_app_distr in E. discriminate.
Qed.
Example C99_run_zip : zip_by_year ["2020-vehicles.csv"; "2019-testcar.csv"; "notes.txt"; "20-x.csv"; "2020-emissions.csv"; "2021_x.csv"]
  = [(2020, ["2020-vehicles.csv"; "2020-emissions.csv"]); (2019, ["2019-testcar.csv"])]%Z.
Proof. vm_compute. reflexivity. Qed.
