(** C128: the EPA test chosen for a record of fueleconomy.gov.  C129: what is read from the name of a transmission.  C130: the vehicles imported for a request. *)
From Coq Require Import Ascii Floats Lia.
From Verif Require Import Num FloatNum Numpy ListFacts CycleModel VehModel SimModel SimState UtilModel PrepModel PrepProofs2 RustVehModel RustUtilModel RustImportModel RustImportProofs.
Local Open Scope R_scope.
Local Set Warnings "-inexact-float".

(** ** C128 *)
(** A test comes into question if it is of the year and, but for capitals, of the make, not a test of cold start emissions, and the name has something in common. *)
Definition upper (s : string) : string := smap to_upper s.
Definition holds (p s : string) : Prop := exists l r, s = (l ++ p ++ r)%string.
Definition in_question (fe : fe_data R) (x : epa_data R) : Prop :=
  epa_year x = fe_year fe /\ upper (epa_make x) = upper (fe_make fe) /\ ~ holds "Cold CO" (epa_fuel x) /\ 0 < name_match fe x.
Lemma fits_spec fe x : fits fe x = true <-> in_question fe x.
Proof.
  unfold fits, in_question, same_text, upper, holds. rewrite !Bool.andb_true_iff, Z.eqb_eq, String.eqb_eq, !Bool.negb_true_iff. pose proof (name_match_pos fe x).
  split.
  - intros (((A & B) & C) & D). split; [exact A|]. split; [exact B|]. split; [intros H1; apply has_sub_spec in H1; congruence|]. destruct (Reqb_spec (name_match fe x) 0); [discriminate|lra].
  - intros (A & B & C & D). split; [split; [split; assumption|]|].
    + destruct (has_sub "Cold CO" (epa_fuel x)) eqn:E; [|reflexivity]. apply has_sub_spec in E. contradiction.
    + destruct (Reqb_spec (name_match fe x) 0); [lra|reflexivity].
Qed.
(** The test chosen is, of those in question, the best by name and then by score, and the first of equals; none is chosen only if none is in question. *)
Theorem C128_best (fe : fe_data R) tests r : match_test fe tests = Ok r -> exists g t, transmission_specs (fe_trans fe) = Ok (g, t) /\
  match r with
  | None => forall x, In x tests -> ~ in_question fe x
  | Some x => exists pre post, tests = pre ++ x :: post /\ in_question fe x /\
      let name y := name_match fe y in let score y := match_score fe g t y in
      (forall y, In y pre -> in_question fe y -> name y < name x \/ (name y = name x /\ score y < score x)) /\
      (forall y, In y post -> in_question fe y -> name y < name x \/ (name y = name x /\ score y <= score x))
  end.
Proof.
  intros E. apply match_ok in E. destruct E as (g & t & ET & E). exists g, t. split; [exact ET|]. destruct r as [x|].
  - destruct E as (pre & post & -> & F & A & B). exists pre, post. split; [reflexivity|]. split; [now apply fits_spec|]. cbn zeta. split; intros y I Q; apply fits_spec in Q.
    + specialize (A y I Q). unfold ahead in A. cbn [fst snd] in A. destruct A as [A|[A1 A2]]; [left; exact A|right; split; [symmetry; exact A1|exact A2]].
    + specialize (B y I Q). unfold ahead in B. cbn [fst snd] in B. destruct (Rlt_le_dec (name_match fe y) (name_match fe x)); [now left|]. right.
      assert (name_match fe y = name_match fe x) by (destruct (Rlt_le_dec (name_match fe x) (name_match fe y)); [exfalso; apply B; now left|lra]). split; [assumption|].
      destruct (Rlt_le_dec (match_score fe g t x) (match_score fe g t y)); [exfalso; apply B; right; now split|assumption].
  - intros x I Q. apply fits_spec in Q. rewrite (E x I) in Q. discriminate.
Qed.
(** A test is chosen if any is in question; the procedure is refused only where the transmission is. *)
Theorem C128_found (fe : fe_data R) tests : ((exists e, match_test fe tests = Err e) <-> (exists e, transmission_specs (fe_trans fe) = Err e)) /\
  (forall x, In x tests -> in_question fe x -> forall r, match_test fe tests = Ok r -> exists y, r = Some y).
Proof.
  split.
  - unfold match_test. destruct (transmission_specs (fe_trans fe)) as [g|e]; cbn [bindR].
    + split; intros [e E]; [|discriminate]. destruct (candidates fe (fst g) (snd g) tests) as [|[[? ?] ?] ?]; discriminate.
    + split; intros _; now exists e.
  - intros x I Q r E. apply C128_best in E. destruct E as (g & t & _ & E). destruct r as [y|]; [now exists y|]. exfalso. exact (E x I Q).
Qed.
(** *** The name *)
Definition same_id (fe : fe_data R) (x : epa_data R) : Prop := epa_test x <> ""%string /\ exists c r l, fe_efid fe = String c r /\ epa_test x = (l ++ r)%string.
Lemma ends_spec s p : ends_with s p = true <-> exists l, s = (l ++ p)%string.
Proof.
  induction s as [|c s IH]; cbn [ends_with]; rewrite Bool.orb_true_iff, String.eqb_eq.
  - split; [intros [->|H]; [now exists ""%string|discriminate]|]. intros [l E]. left. destruct l; cbn in E; [exact E|discriminate].
  - rewrite IH. split.
    + intros [<-|[l ->]]; [now exists ""%string|]. now exists (String c l).
    + intros [[|d l] E]; cbn in E; [now left|]. right. injection E as -> ->. now exists l.
Qed.
Lemma name_cases (fe : fe_data R) x : ((same_id fe x \/ upper (epa_model x) = upper (fe_model fe)) /\ name_match fe x = 1) \/
  (~ same_id fe x /\ upper (epa_model x) <> upper (fe_model fe) /\ name_match fe x = word_match (fe_model fe) (epa_model x)).
Proof.
  unfold name_match, same_text. fold (upper (epa_model x)). fold (upper (fe_model fe)).
  match goal with |- context [(?b || _)%bool] => assert (B : b = true <-> same_id fe x) end.
  { rewrite !Bool.andb_true_iff, !Bool.negb_true_iff, !String.eqb_neq, ends_spec. unfold same_id. split.
    - intros ((A & B) & l & C). split; [exact A|]. destruct (fe_efid fe) as [|c r]; [congruence|]. exists c, r, l. split; [reflexivity|exact C].
    - intros (A & c & r & l & -> & C). split; [split; [exact A|discriminate]|]. exists l. exact C. }
  destruct (String.eqb_spec (upper (epa_model x)) (upper (fe_model fe))) as [M|M].
  - left. split; [now right|]. rewrite Bool.orb_true_r. reflexivity.
  - rewrite Bool.orb_false_r. match goal with |- context [if ?b then _ else _] => destruct b end.
    + left. split; [left; now apply B|reflexivity].
    + right. split; [intros Q; apply B in Q; discriminate|]. split; [exact M|reflexivity].
Qed.
Lemma shared_count (a b : list string) : NoDup b -> (length (filter (fun w => existsb (String.eqb w) a) b) <= length a)%nat.
Proof.
  intros ND. apply NoDup_incl_length; [now apply NoDup_filter|]. intros w I. apply filter_In in I. destruct I as [_ I]. apply existsb_exists in I. destruct I as (v & I & E).
  apply String.eqb_eq in E. now subst.
Qed.
Lemma filter_len {A} (f : A -> bool) (l : list A) : (length (filter f l) <= length l)%nat.
Proof. induction l as [|a l IH]; cbn; [lia|]. destruct (f a); cbn; lia. Qed.
(** The mark of the name is 1 for the same test id (but for its first character) or the same name; otherwise it is positive exactly if a word is shared, and at most 1
    if no word occurs twice in the name of the test. *)
Theorem C128_name (fe : fe_data R) x :
  (same_id fe x \/ upper (epa_model x) = upper (fe_model fe) -> name_match fe x = 1) /\
  (~ same_id fe x -> upper (epa_model x) <> upper (fe_model fe) ->
     (0 < name_match fe x <-> exists w, In w (model_words (fe_model fe)) /\ In w (model_words (epa_model x)))) /\
  (NoDup (model_words (epa_model x)) -> name_match fe x <= 1).
Proof.
  destruct (name_cases fe x) as [[C ->]|(C1 & C2 & ->)].
  - split; [reflexivity|]. split; [|lra]. intros H1 H2. tauto.
  - split; [tauto|]. unfold word_match. unR. set (a := model_words (fe_model fe)). set (b := model_words (epa_model x)). set (sh := filter _ b).
    pose proof (filter_len (fun w => existsb (String.eqb w) a) b) as LB. fold sh in LB.
    assert (HN : forall n m k : nat, (n <= m)%nat -> 0 < IZR (Z.of_nat n) -> 0 < IZR (Z.of_nat m)) by (intros n m k L P; eapply Rlt_le_trans; [exact P|apply IZR_le; lia]).
    split.
    + intros _ _. assert (SH : (exists w, In w a /\ In w b) <-> sh <> []).
      { split.
        - intros (w & I1 & I2) Q. assert (In w sh). { apply filter_In. split; [exact I2|]. apply existsb_exists. exists w. split; [exact I1|apply String.eqb_refl]. } rewrite Q in H. destruct H.
        - destruct sh as [|w r] eqn:E; [congruence|]. intros _. assert (I : In w sh) by (rewrite E; now left). apply filter_In in I. destruct I as [I1 I2]. apply existsb_exists in I2.
          destruct I2 as (v & I2 & E2). apply String.eqb_eq in E2. subst v. exists w. now split. }
      rewrite SH. split.
      * intros P Q. rewrite Q in P. cbn in P. unfold Rdiv in P. rewrite !Rmult_0_l in P. lra.
      * intros Q. assert (LA : (1 <= length a)%nat). { apply SH in Q. destruct Q as (w & I & _). destruct a; [destruct I|cbn; lia]. }
        assert (LS : (1 <= length sh)%nat) by (destruct sh; [congruence|cbn; lia]). 
        assert (0 < IZR (Z.of_nat (length sh))) by (apply IZR_lt; lia). assert (0 < IZR (Z.of_nat (length b))) by (apply IZR_lt; lia). assert (0 < IZR (Z.of_nat (length a))) by (apply IZR_lt; lia).
        apply Rdiv_lt_0_compat; nra.
    + intros ND. pose proof (shared_count a b ND) as LA. fold sh in LA. apply inj_le in LA. apply inj_le in LB. apply IZR_le in LA, LB.
      assert (P : 0 <= IZR (Z.of_nat (length sh))) by (apply IZR_le; lia). set (n := IZR (Z.of_nat (length sh))) in *. set (m := IZR (Z.of_nat (length b))) in *. set (k := IZR (Z.of_nat (length a))) in *.
      clearbody n m k. assert (DE : 0 <= m * k) by (apply Rmult_le_pos; lra). destruct DE as [Q|Q].
      * apply (Rmult_le_reg_r (m * k)); [exact Q|]. replace (n * n / (m * k) * (m * k)) with (n * n) by (field; split; intros ->; lra). rewrite Rmult_1_l. apply Rmult_le_compat; lra.
      * rewrite <- Q. unfold Rdiv. rewrite Rinv_0. lra.
Qed.
(** A word that occurs twice counts twice: a test of another name can be preferred to the test of the very same name, here with the same data otherwise. *)
Theorem C128_name_refuted : exists (fe : fe_data float) x y, epa_model x = fe_model fe /\ upper (epa_model y) <> upper (fe_model fe) /\ fe_efid fe = ""%string /\
  match_test fe [x; y] = Ok (Some y) /\ y = mkepa (epa_year x) (epa_make x) "CITY CITY"%string (epa_test x) (epa_displ x) (epa_hp x) (epa_cyl x) (epa_tcode x) (epa_ttype x) (epa_gears x) (epa_drive x) (epa_lbs x) (epa_fuel x).
Proof.
  exists (mkfe 2014 "Honda" "City" "F" "" "4" 1.5%float "1.5" "Manual 5-spd" "" 0).
  exists (mkepa 2014 "HONDA" "City" "ABC" 1.5%float 120 "4" "M" "M" 5 "F" 3000%float "Tier 2"). eexists.
  split; [reflexivity|]. split; [|split; [reflexivity|split; [|reflexivity]]]; [vm_compute; discriminate|vm_compute; reflexivity].
Qed.
(** An efid of one character says nothing: it matches every test that has an id. *)
Theorem C128_short_id (fe : fe_data R) c x : fe_efid fe = String c "" -> epa_test x <> ""%string -> name_match fe x = 1.
Proof.
  intros E X. apply C128_name. left. split; [exact X|]. exists c, ""%string, (epa_test x). split; [exact E|]. clear. induction (epa_test x) as [|d s IH]; [reflexivity|]. cbn. now rewrite <- IH.
Qed.
(** The words of a name: what blanks separate. *)
Definition word (w : string) : Prop := w <> ""%string /\ forall l c r, w = (l ++ String c r)%string -> blank c = false.
Lemma word_tail c w : word (String c w) -> blank c = false /\ (w = ""%string \/ word w).
Proof.
  intros [_ H]. split; [apply (H ""%string c w); reflexivity|]. destruct w as [|d w]; [now left|]. right. split; [discriminate|]. intros l e r E. apply (H (String c l) e r). cbn. now rewrite E.
Qed.
Lemma app_nil_s (s : string) : (s ++ "")%string = s. Proof. induction s; cbn; congruence. Qed.
Lemma app_assoc_t (a b c : string) : ((a ++ b) ++ c)%string = (a ++ (b ++ c))%string. Proof. induction a; cbn; congruence. Qed.
Lemma words_run w : forall acc rest, (w = ""%string \/ word w) -> words_from acc (w ++ rest)%string = words_from (acc ++ w)%string rest.
Proof.
  induction w as [|c w IH]; intros acc rest H. { cbn. now rewrite app_nil_s. }
  destruct H as [H|H]; [discriminate|]. apply word_tail in H. destruct H as [B H]. cbn [append words_from]. rewrite B, IH by exact H. now rewrite app_assoc_t.
Qed.
Theorem C128_words (ws : list string) : Forall word ws -> words (String.concat " " ws) = ws.
Proof.
  unfold words. induction ws as [|w ws IH]; intros H; [reflexivity|]. inversion H as [|? ? W WS]; subst. specialize (IH WS).
  assert (NE : String.eqb w "" = false) by (apply String.eqb_neq; apply W).
  destruct ws as [|v ws]; cbn [String.concat].
  - rewrite <- (app_nil_s w) at 1. rewrite words_run by now right. cbn. now rewrite NE.
  - rewrite words_run by now right. cbn [append words_from]. change (blank " ") with true. cbn iota. rewrite NE. f_equal. exact IH.
Qed.
(** Any text is made of words and the blanks (space, tab, line feed, form feed, carriage return) between them. *)
Theorem C128_blanks : (forall c, blank c = true <-> In (nat_of_ascii c) [32; 9; 10; 12; 13]%nat) /\
  (forall c s, blank c = true -> words (String c s) = words s) /\ (forall w c s, word w -> blank c = true -> words (w ++ String c s) = w :: words s) /\ (forall w, word w -> words w = [w]).
Proof.
  split; [|split; [|split]].
  - intros c. unfold blank. cbv zeta. rewrite !Bool.orb_true_iff, !Nat.eqb_eq. cbn [In]. intuition congruence.
  - intros c s B. unfold words. cbn [words_from]. rewrite B. reflexivity.
  - intros w c s W B. unfold words. rewrite words_run by now right. cbn [append words_from]. rewrite B. assert (NE : String.eqb w "" = false) by (apply String.eqb_neq; apply W). now rewrite NE.
  - intros w W. pose proof (C128_words [w]) as H. cbn [String.concat] in H. apply H. now constructor.
Qed.
(** Names are compared word by word in capitals, with AWD for 4WD. *)
Lemma awd_front a b : lacks "4" a -> awd (a ++ b) = (a ++ awd b)%string.
Proof.
  induction a as [|c a IH]; intros L; [reflexivity|]. apply lacks_cons in L. destruct L as [D L]. cbn [append]. rewrite <- (IH L).
  destruct c as [[] [] [] [] [] [] [] []]; try reflexivity. exfalso. apply D. reflexivity.
Qed.
Theorem C128_awd (a b : string) : lacks "4" a -> awd (a ++ "4WD" ++ b) = (a ++ "AWD" ++ awd b)%string /\ awd a = a /\
  (forall r, awd b = r -> (forall q, b <> "WD" ++ q)%string -> awd (a ++ String "4" b) = (a ++ String "4" r)%string).
Proof.
  intros L. split; [rewrite awd_front by exact L; reflexivity|]. split.
  - pose proof (awd_front a "" L) as H. rewrite app_nil_s in H. rewrite H. cbn. apply app_nil_s.
  - intros r <- NB. rewrite awd_front by exact L. f_equal. destruct b as [|w [|d q]]; [reflexivity| |].
    + destruct w as [[] [] [] [] [] [] [] []]; reflexivity.
    + cbn [awd]. destruct (ascii_dec w "W") as [->|NW].
      * destruct (ascii_dec d "D") as [->|ND]; [exfalso; exact (NB q eq_refl)|]. destruct d as [[] [] [] [] [] [] [] []]; try reflexivity. exfalso. apply ND. reflexivity.
      * destruct w as [[] [] [] [] [] [] [] []]; try reflexivity. exfalso. apply NW. reflexivity.
Qed.
Lemma filter_parts {A} (f : A -> bool) (l : list A) : (length (filter f l) + length (filter (fun x => negb (f x)) l) = length l)%nat.
Proof. induction l as [|a l IH]; cbn; [reflexivity|]. destruct (f a); cbn; lia. Qed.
(** The exact mark of a name: the square of the words of the test that the record also has, over the product of the numbers of words. *)
Theorem C128_mark (fe : fe_data R) x a b : ~ same_id fe x -> upper (epa_model x) <> upper (fe_model fe) ->
  words (awd (upper (fe_model fe))) = a -> words (awd (upper (epa_model x))) = b -> a <> [] -> b <> [] ->
  exists shared others, (length shared + length others = length b)%nat /\ (forall w, In w shared <-> In w b /\ In w a) /\ (forall w, In w others <-> In w b /\ ~ In w a) /\
    name_match fe x * (INR (length a) * INR (length b)) = INR (length shared) * INR (length shared).
Proof.
  intros NI NN EA EB NA NB. set (f := fun w => existsb (String.eqb w) a).
  assert (FS : forall w, f w = true <-> In w a). { intros w. unfold f. rewrite existsb_exists. split; [intros (v & I & E); apply String.eqb_eq in E; now subst|intros I; exists w; split; [exact I|apply String.eqb_refl]]. }
  exists (filter f b), (filter (fun w => negb (f w)) b). split; [apply filter_parts|]. split; [intros w; rewrite filter_In, FS; tauto|]. split.
  - intros w. rewrite filter_In, Bool.negb_true_iff. split; intros [I Q]; (split; [exact I|]); [intros K; apply FS in K; congruence|destruct (f w) eqn:E; [apply FS in E; contradiction|reflexivity]].
  - destruct (name_cases fe x) as [[[C|C] _]|(_ & _ & ->)]; [contradiction|contradiction|]. unfold word_match, model_words. fold (upper (fe_model fe)). fold (upper (epa_model x)). rewrite EA, EB. fold f. unR.
    rewrite <- !INR_IZR_INZ. assert (INR (length a) <> 0) by (apply not_0_INR; destruct a; [congruence|cbn; lia]). assert (INR (length b) <> 0) by (apply not_0_INR; destruct b; [congruence|cbn; lia]). field. split; assumption.
Qed.
(** *** The score *)
Definition engine_agrees (fe : fe_data R) (x : epa_data R) : Prop :=
  if String.eqb (fe_alt fe) "EV" then epa_cyl x = ""%string /\ r_round (epa_displ x) = 0 else epa_cyl x = fe_cyl fe /\ r_round (epa_displ x * 10) / 10 = fe_displ fe.
Theorem C128_score (fe : fe_data R) g t x : 0 <= match_score fe g t x <= 3 /\
  (match_score fe g t x = 3 <-> engine_agrees fe x /\ epa_drive_code x = fe_drive_code fe /\ epa_tcode x = t /\ epa_gears x = g).
Proof.
  unfold match_score, engine_agrees. unR. rewrite !lit_R.
  match goal with |- context [(if ?b then 1 else 0) + _] => set (e := b) end.
  assert (EE : e = true <-> (if String.eqb (fe_alt fe) "EV" then epa_cyl x = ""%string /\ r_round (epa_displ x) = 0 else epa_cyl x = fe_cyl fe /\ r_round (epa_displ x * 10) / 10 = fe_displ fe)).
  { unfold e. destruct (String.eqb (fe_alt fe) "EV"); rewrite Bool.andb_true_iff, String.eqb_eq.
    - destruct (Reqb_spec (r_round (epa_displ x)) 0); intuition congruence.
    - destruct (Reqb_spec (r_round (epa_displ x * 10) / 10) (fe_displ fe)); intuition congruence. }
  rewrite <- EE. clearbody e. clear EE.
  destruct e; destruct (String.eqb_spec (epa_drive_code x) (fe_drive_code fe)); destruct (String.eqb_spec (epa_tcode x) t); destruct (Z.eqb_spec (epa_gears x) g);
    try destruct (String.prefix (epa_ttype x) t); (split; [lra|]); split; intros Q; try lra; try tauto; try (destruct Q as (Q1 & Q2 & Q3 & Q4); congruence).
Qed.
(** The four parts of the score: engine and drive 1 each, transmission 1/2 (1/4 if only the type agrees), number of gears 1/2. *)
Theorem C128_parts (fe : fe_data R) g t x : exists e d c n, match_score fe g t x = e + d + c + n /\
  (engine_agrees fe x -> e = 1) /\ (~ engine_agrees fe x -> e = 0) /\
  (epa_drive_code x = fe_drive_code fe -> d = 1) /\ (epa_drive_code x <> fe_drive_code fe -> d = 0) /\
  (epa_tcode x = t -> c = 1 / 2) /\ (epa_tcode x <> t -> (exists r, t = epa_ttype x ++ r)%string -> c = 1 / 4) /\ (epa_tcode x <> t -> ~ (exists r, t = epa_ttype x ++ r)%string -> c = 0) /\
  (epa_gears x = g -> n = 1 / 2) /\ (epa_gears x <> g -> n = 0).
Proof.
  unfold match_score, engine_agrees. unR. rewrite !lit_R. do 4 eexists. split; [reflexivity|].
  split; [|split].
  - intros Q. destruct (String.eqb (fe_alt fe) "EV"); destruct Q as [-> ->]; rewrite String.eqb_refl; cbn [andb]; [destruct (Reqb_spec 0 0)|destruct (Reqb_spec (fe_displ fe) (fe_displ fe))]; congruence.
  - intros Q. destruct (String.eqb (fe_alt fe) "EV").
    + destruct (String.eqb_spec (epa_cyl x) ""); [|reflexivity]. destruct (Reqb_spec (r_round (epa_displ x)) 0); [tauto|reflexivity].
    + destruct (String.eqb_spec (epa_cyl x) (fe_cyl fe)); [|reflexivity]. destruct (Reqb_spec (r_round (epa_displ x * 10) / 10) (fe_displ fe)); [tauto|reflexivity].
  - destruct (String.eqb_spec (epa_drive_code x) (fe_drive_code fe)); (split; [congruence|split; [congruence|]]);
      (destruct (String.eqb_spec (epa_tcode x) t) as [T|T]; (split; [congruence|split; [|split]]); [congruence|congruence|..]; try (intros _ [r Q]; try contradiction));
      try (destruct (Z.eqb_spec (epa_gears x) g); split; intros; congruence).
    all: try (rewrite Q, prefix_self; reflexivity).
    all: intros _ Q; destruct (String.prefix (epa_ttype x) t) eqn:E; [|reflexivity]; exfalso; apply Q; apply prefix_spec in E; exact E.
Qed.
(** The drive of a test is all-wheel if its model or its drive says so, and as given otherwise; that of a record is its first letter. *)
Theorem C128_drive (fe : fe_data R) (x : epa_data R) :
  (holds "4WD" (epa_model x) \/ holds "AWD" (epa_model x) \/ holds "4-Wheel Drive" (epa_drive x) -> epa_drive_code x = "A"%string) /\
  (~ holds "4WD" (epa_model x) -> ~ holds "AWD" (epa_model x) -> ~ holds "4-Wheel Drive" (epa_drive x) -> epa_drive_code x = epa_drive x) /\
  (forall c r, fe_drive fe = String c r -> fe_drive_code fe = String c "") /\ (fe_drive fe = ""%string -> fe_drive_code fe = ""%string).
Proof.
  unfold epa_drive_code, fe_drive_code, holds. split; [|split; [|split]].
  - intros H. destruct (has_sub "4WD" (epa_model x)) eqn:E1; [reflexivity|]. destruct (has_sub "AWD" (epa_model x)) eqn:E2; [reflexivity|]. destruct (has_sub "4-Wheel Drive" (epa_drive x)) eqn:E3; [reflexivity|].
    exfalso. destruct H as [H|[H|H]]; apply has_sub_spec in H; congruence.
  - intros A B C. destruct (has_sub "4WD" (epa_model x)) eqn:E1; [apply has_sub_spec in E1; contradiction|]. destruct (has_sub "AWD" (epa_model x)) eqn:E2; [apply has_sub_spec in E2; contradiction|].
    destruct (has_sub "4-Wheel Drive" (epa_drive x)) eqn:E3; [apply has_sub_spec in E3; contradiction|reflexivity].
  - intros c r ->. reflexivity.
  - intros ->. reflexivity.
Qed.
(** Displacements are compared after rounding, halves away from zero. *)
Theorem C128_round (x : R) : exists k, r_round x = IZR k /\ Rabs (x - IZR k) <= 1 / 2 /\ (Rabs (x - IZR k) = 1 / 2 -> Rabs x < Rabs (IZR k)).
Proof.
  unfold r_round. unR. rewrite lit_R. destruct (Rltb_spec x 0) as [L|L].
  - exists (- Int_part (- x + 1 / 2))%Z. pose proof (nfloor_R_bounds (- x + 1 / 2)) as B. unR. rewrite opp_IZR. match goal with |- context [Int_part ?z] => set (k := IZR (Int_part z)) in * end. clearbody k. split; [reflexivity|].
    split; [apply Rabs_le; lra|]. intros Q. unfold Rabs in Q. destruct (Rcase_abs _); try lra; unfold Rabs; repeat destruct (Rcase_abs _); lra.
  - exists (Int_part (x + 1 / 2)). pose proof (nfloor_R_bounds (x + 1 / 2)) as B. unR. match goal with |- context [Int_part ?z] => set (k := IZR (Int_part z)) in * end. clearbody k. split; [reflexivity|].
    split; [apply Rabs_le; lra|]. intros Q. unfold Rabs in Q. destruct (Rcase_abs _); try lra; unfold Rabs; repeat destruct (Rcase_abs _); lra.
Qed.

(** The second test shares two words with the record, the first one only; the third is no test in question. *)
Example C128_run :
  (let fe := mkfe 2020 "Subaru" "Outback Wagon 4WD" "All-Wheel Drive" "" "4" 2.5 "2.5" "Automatic (AV-S8)" "" 0%Z in
   let t m d f := mkepa 2020 "SUBARU" m "LFJ" d 182%Z "4" "SCV" "SCV" 8%Z "4" 4000 f in
   words (awd (upper (fe_model fe))) = ["OUTBACK"; "WAGON"; "AWD"]%string /\
   match_test fe [t "LEGACY AWD" 2.5 "Tier 2"; t "OUTBACK AWD" 2.4 "Tier 2"; t "Outback Wagon 4WD" 2.5 "Cold CO"]%string = Ok (Some (t "OUTBACK AWD" 2.4 "Tier 2")))%string%float.
Proof. split; vm_compute; reflexivity. Qed.

(** ** C129 *)
(** The number that decimal digits stand for. *)
Definition digit_value (c : ascii) (v : Z) : Prop := is_digit c = true /\ v = (Z.of_nat (nat_of_ascii c) - 48)%Z.
Inductive decimal : string -> Z -> Prop :=
| one_digit c v : digit_value c v -> decimal (String c "") v
| more_digits s n c v : decimal s n -> digit_value c v -> decimal (s ++ String c "") (10 * n + v).
Lemma digit_range c v : digit_value c v -> (0 <= v <= 9)%Z.
Proof. intros [D ->]. unfold is_digit, in_range in D. apply Bool.andb_true_iff in D. destruct D as [A B]. apply N.leb_le in A, B. unfold nat_of_ascii. cbn in A, B. lia. Qed.
Lemma decimal_pos s n : decimal s n -> (0 <= n)%Z.
Proof. induction 1 as [c v D|s n c v _ IH D]; apply digit_range in D; lia. Qed.
Lemma decimal_read s n : decimal s n -> (n < 4294967296)%Z -> u32_digits 0 s = Some n.
Proof.
  induction 1 as [c v D|s n c v S IH D]; intros B; pose proof (digit_range c v D) as R0; destruct D as [D ->].
  - cbn [u32_digits]. rewrite D. cbv zeta. rewrite (proj2 (Z.ltb_lt _ _)) by lia. f_equal; lia.
  - pose proof (decimal_pos s n S). rewrite u32_app, IH by lia. cbn [u32_digits]. rewrite D. cbv zeta. rewrite (proj2 (Z.ltb_lt _ _)) by lia. f_equal; lia.
Qed.
Lemma decimal_head s n : decimal s n -> exists c r, s = String c r /\ is_digit c = true.
Proof. induction 1 as [c v [D _]|s n c v S (c' & r & -> & D) _]; [now exists c, ""%string|]. exists c', (r ++ String c "")%string. split; [reflexivity|exact D]. Qed.
Lemma decimal_parse s n : decimal s n -> (n < 4294967296)%Z -> parse_u32 s = Some n.
Proof.
  intros D B. pose proof (decimal_read s n D B) as RD. apply decimal_head in D. destruct D as (c & r & -> & D). unfold parse_u32.
  assert (E : (match String c r with String "+" r0 => r0 | _ => String c r end) = String c r).
  { destruct c as [[] [] [] [] [] [] [] []]; try reflexivity. cbv in D. discriminate. }
  rewrite E. exact RD.
Qed.
Lemma decimal_lacks s n c : decimal s n -> is_digit c = false -> lacks c s.
Proof.
  intros D N0. induction D as [d v [D _]|s n d v _ IH [D _]].
  - intros [|e l] r E; cbn in E; injection E; intros; subst; [congruence|]. destruct l; discriminate.
  - apply lacks_app; [exact IH|]. intros [|e l] r E; cbn in E; injection E; intros; subst; [congruence|]. destruct l; discriminate.
Qed.
Lemma holds_bool p s : (holds p s -> has_sub p s = true) /\ (~ holds p s -> has_sub p s = false).
Proof. split; intros H; [now apply has_sub_spec|]. destruct (has_sub p s) eqn:E; [|reflexivity]. apply has_sub_spec in E. contradiction. Qed.
(** Names with the number of gears between S and a bracket, as in "Automatic (S6)", "Automatic (AM-S7)" and "Auto(AV-S8)". *)
Theorem C129_selectable (a d rest : string) n : lacks "S" a -> lacks ")" a -> decimal d n -> (n < 4294967296)%Z ->
  let t := (a ++ "S" ++ d ++ ")" ++ rest)%string in ~ holds "Manual" t -> ~ holds "variable gear ratios" t ->
  (holds "AV-S" t -> transmission_specs t = Ok (n, "SCV"%string)) /\
  (~ holds "AV-S" t -> holds "AM-S" t -> transmission_specs t = Ok (n, "AMS"%string)) /\
  (~ holds "AV-S" t -> ~ holds "AM-S" t -> transmission_specs t = Ok (n, "SA"%string)).
Proof.
  intros LS LB D B t NM NV. assert (G : gears_after_s t = Ok n).
  { unfold gears_after_s, find_text. unfold t at 1. rewrite (index_first "S" "" a (d ++ ")" ++ rest)) by exact LS. cbn [bindR].
    assert (T : t = ((a ++ "S" ++ d) ++ ")" ++ rest)%string) by (unfold t; now rewrite !app_assoc_u).
    rewrite T at 1. rewrite (index_first ")" "" (a ++ "S" ++ d) rest).
    2: { apply lacks_app; [exact LB|]. apply lacks_app; [|apply (decimal_lacks d n); [exact D|reflexivity]]. intros [|e l] r E; cbn in E; injection E; intros; subst; [discriminate|]. destruct l; discriminate. }
    cbn [bindR]. replace t with ((a ++ "S") ++ d ++ ")" ++ rest)%string by (unfold t; now rewrite !app_assoc_u).
    replace (String.length a + 1)%nat with (String.length (a ++ "S")) by (rewrite len_app_s; reflexivity).
    replace (String.length (a ++ "S" ++ d)) with (String.length (a ++ "S") + String.length d)%nat by (rewrite !len_app_s; cbn; lia).
    rewrite slice_mid. cbn [bindR]. now rewrite (decimal_parse d n D B). }
  unfold transmission_specs. rewrite (proj2 (holds_bool _ _) NM), (proj2 (holds_bool _ _) NV), G. cbn [bindR].
  assert (HS : has_sub "S" t = true) by (apply holds_bool; exists a, (d ++ ")" ++ rest)%string; reflexivity). rewrite HS.
  split; [intros H; now rewrite (proj1 (holds_bool _ _) H)|]. split; intros H K; rewrite (proj2 (holds_bool _ _) H); [now rewrite (proj1 (holds_bool _ _) K)|now rewrite (proj2 (holds_bool _ _) K)].
Qed.
(** Names with the number of gears before "-spd": the last digit is read. *)
Theorem C129_speeds (a rest : string) c v : lacks "-" a -> digit_value c v -> let t := (a ++ String c "-spd" ++ rest)%string in
  (holds "Manual" t -> transmission_specs t = Ok (v, "M"%string)) /\
  (~ holds "Manual" t -> ~ holds "variable gear ratios" t -> ~ holds "S" t -> transmission_specs t = Ok (v, "A"%string)).
Proof.
  intros L D t. assert (DC : decimal (String c "") v) by now constructor. pose proof (digit_range c v D).
  assert (LC : lacks "-" (String c "")) by (apply (decimal_lacks _ v); [exact DC|reflexivity]).
  assert (T : t = ((a ++ String c "") ++ "-spd" ++ rest)%string) by (unfold t; now rewrite app_assoc_u).
  assert (G : gear_before_spd t = Ok v).
  { unfold gear_before_spd, find_text. rewrite T at 1. rewrite (index_first "-" "spd" (a ++ String c "") rest) by now apply lacks_app. cbn [bindR].
    rewrite len_app_s. cbn [String.length]. rewrite Nat.add_comm. cbn [Nat.add Nat.eqb]. rewrite Nat.sub_succ, Nat.sub_0_r.
    replace (S (String.length a)) with (String.length a + String.length (String c ""))%nat by (cbn; lia). change t with (a ++ String c "" ++ ("-spd" ++ rest))%string. rewrite slice_mid. cbn [bindR].
    now rewrite (decimal_parse _ v DC) by lia. }
  unfold transmission_specs. rewrite G. cbn [bindR]. split.
  - intros H1. now rewrite (proj1 (holds_bool _ _) H1).
  - intros H1 H2 H3. assert (forall p q, p = (q ++ "S")%string -> ~ holds p t).
    { intros p q -> (l & r & E). apply H3. exists (l ++ q)%string, r. rewrite E. now rewrite !app_assoc_u. }
    rewrite (proj2 (holds_bool _ _) H1), (proj2 (holds_bool _ _) H2), (proj2 (holds_bool _ _) (H0 "AV-S"%string "AV-"%string eq_refl)), (proj2 (holds_bool _ _) (H0 "AM-S"%string "AM-"%string eq_refl)), (proj2 (holds_bool _ _) H3).
    assert (HS : has_sub "-spd" t = true) by (apply holds_bool; exists (a ++ String c "")%string, rest; exact T). now rewrite HS.
Qed.
(** So ten speeds are read as none. *)
Theorem C129_ten_refuted : exists t, t = "Automatic 10-spd"%string /\ transmission_specs t = Ok (0%Z, "A"%string) /\ transmission_specs "Manual 10-spd" = Ok (0%Z, "M"%string).
Proof. eexists. split; [reflexivity|]. split; reflexivity. Qed.
(** Continuously variable ones count as one gear; what stands in "(A...)" is read as a number, and as 1 if it is none. *)
Theorem C129_variable (t : string) : ~ holds "Manual" t -> holds "variable gear ratios" t -> transmission_specs t = Ok (1%Z, "CVT"%string).
Proof. intros A B. unfold transmission_specs. now rewrite (proj2 (holds_bool _ _) A), (proj1 (holds_bool _ _) B). Qed.
Theorem C129_automatic (a d rest : string) : lacks "(" a -> lacks ")" a -> lacks ")" d -> let t := (a ++ "(A" ++ d ++ ")" ++ rest)%string in
  ~ holds "Manual" t -> ~ holds "variable gear ratios" t -> ~ holds "S" t -> ~ holds "-spd" t ->
  (forall n, decimal d n -> (n < 4294967296)%Z -> transmission_specs t = Ok (n, "A"%string)) /\
  ((forall n, parse_u32 d <> Some n) -> transmission_specs t = Ok (1%Z, "A"%string)).
Proof.
  intros LO LB LD t H1 H2 H3 H4. assert (forall p q, p = (q ++ "S")%string -> ~ holds p t).
  { intros p q -> (l & r & E). apply H3. exists (l ++ q)%string, r. rewrite E. now rewrite !app_assoc_u. }
  assert (E : transmission_specs t = Ok (match parse_u32 d with Some n => n | None => 1%Z end, "A"%string)).
  { unfold transmission_specs. rewrite (proj2 (holds_bool _ _) H1), (proj2 (holds_bool _ _) H2), (proj2 (holds_bool _ _) (H "AV-S"%string "AV-"%string eq_refl)), (proj2 (holds_bool _ _) (H "AM-S"%string "AM-"%string eq_refl)), (proj2 (holds_bool _ _) H3), (proj2 (holds_bool _ _) H4).
    unfold find_text. unfold t at 1. rewrite (index_first "(" "A" a (d ++ ")" ++ rest)) by exact LO. cbn [bindR].
    assert (T : t = ((a ++ "(A" ++ d) ++ ")" ++ rest)%string) by (unfold t; now rewrite !app_assoc_u).
    rewrite T at 1. rewrite (index_first ")" "" (a ++ "(A" ++ d) rest).
    2: { apply lacks_app; [exact LB|]. apply lacks_app; [|exact LD]. intros [|e [|f l]] r E; cbn in E; try discriminate. injection E; intros; subst. destruct l; discriminate. }
    cbn [bindR]. replace t with ((a ++ "(A") ++ d ++ ")" ++ rest)%string by (unfold t; now rewrite !app_assoc_u).
    replace (String.length a + 2)%nat with (String.length (a ++ "(A")) by (rewrite len_app_s; reflexivity).
    replace (String.length (a ++ "(A" ++ d)) with (String.length (a ++ "(A") + String.length d)%nat by (rewrite !len_app_s; cbn; lia).
    rewrite slice_mid. reflexivity. }
  rewrite E. split.
  - intros n D B. now rewrite (decimal_parse d n D B).
  - intros Q. destruct (parse_u32 d) as [n|]; [exfalso; exact (Q n eq_refl)|reflexivity].
Qed.
(** A name with a closing bracket before any opening one is refused. *)
Theorem C129_brackets (a rest : string) : lacks "(" a -> lacks ")" a -> let t := (a ++ ")" ++ rest)%string in
  ~ holds "Manual" t -> ~ holds "variable gear ratios" t -> ~ holds "S" t -> ~ holds "-spd" t -> exists e, transmission_specs t = Err e.
Proof.
  intros LO LB t H1 H2 H3 H4. assert (forall p q, p = (q ++ "S")%string -> ~ holds p t).
  { intros p q -> (l & r & E). apply H3. exists (l ++ q)%string, r. rewrite E. now rewrite !app_assoc_u. }
  unfold transmission_specs. rewrite (proj2 (holds_bool _ _) H1), (proj2 (holds_bool _ _) H2), (proj2 (holds_bool _ _) (H "AV-S"%string "AV-"%string eq_refl)), (proj2 (holds_bool _ _) (H "AM-S"%string "AM-"%string eq_refl)), (proj2 (holds_bool _ _) H3), (proj2 (holds_bool _ _) H4).
  unfold find_text. destruct (index 0 "(A" t) as [i|] eqn:E; cbn [bindR]; [|eauto].
  assert (G : (String.length a < i)%nat).
  { unfold t in E. clear - E LO. revert i E. induction a as [|c a IH]; intros i E.
    - cbn [append] in E. rewrite (index_step "(A" "(" "A") in E by (reflexivity || discriminate). destruct (index 0 "(A" rest); [injection E as <-; cbn; lia|discriminate].
    - apply lacks_cons in LO as [D L]. cbn [append] in E. rewrite (index_step "(A" "(" "A") in E by (reflexivity || exact D).
      change (String ")" rest) with (")" ++ rest)%string in E. destruct (index 0 "(A" (a ++ ")" ++ rest)) as [k|] eqn:K; [|discriminate]. injection E as <-. specialize (IH L k eq_refl). cbn. lia. }
  unfold t at 1. rewrite (index_first ")" "" a rest) by exact LB. cbn [bindR]. unfold slice. rewrite (proj2 (Nat.leb_gt _ _)) by lia. cbn [andb bindR]. eauto.
Qed.
(** A record without a transmission ends the import of all vehicles of the request. *)
Theorem C129_missing_refuted : exists e, transmission_specs "" = Err e.
Proof. eexists. reflexivity. Qed.
Example C129_run : map transmission_specs ["Manual 6-spd"; "Automatic (S8)"; "Automatic (AM-S7)"; "Auto(AV-S8)"; "Automatic 4-spd"; "Automatic (variable gear ratios)"; "Automatic (A1)"; "Auto (AV)"; "Auto) (A6"; "Auto (A6"]%string =
  [Ok (6, "M"); Ok (8, "SA"); Ok (7, "AMS"); Ok (8, "SCV"); Ok (4, "A"); Ok (1, "CVT"); Ok (1, "A"); Ok (1, "A"); Err ValueError; Err ValueError]%Z%string.
Proof. vm_compute. reflexivity. Qed.

(** ** C130 *)
(** A record is asked for if year, make and model are those of the request, but for capitals and blanks at the ends. *)
Definition plain (s : string) : string := strip (smap to_lower s).
Definition asked (rq : request R) (fe : fe_data R) : Prop :=
  fe_year fe = rq_year rq /\ plain (fe_make fe) = plain (rq_make rq) /\ plain (fe_model fe) = plain (rq_model rq).
Lemma records_spec (rq : request R) fes : exists want, records_for rq fes = filter want fes /\ forall fe, want fe = true <-> asked rq fe.
Proof.
  eexists. split; [reflexivity|]. intros fe. cbv beta. fold (plain (fe_make fe)). fold (plain (rq_make rq)). fold (plain (fe_model fe)). fold (plain (rq_model rq)).
  unfold asked. rewrite !Bool.andb_true_iff, Z.eqb_eq, !String.eqb_eq. tauto.
Qed.
Lemma import_ok (rq : request R) tests : forall hits l, import_records rq hits tests = Ok l ->
  (forall fe z, In (fe, z) l -> exists x, match_test fe tests = Ok (Some x) /\ z = make_sizes fe x rq) /\
  map fst l = filter (fun fe => match match_test fe tests with Ok (Some _) => true | _ => false end) hits /\
  (forall fe, In fe hits -> exists m, match_test fe tests = Ok m).
Proof.
  induction hits as [|fe hits IH]; intros l E; cbn [import_records] in E.
  - injection E as <-. split; [intros fe z []|]. split; [reflexivity|intros fe []].
  - destruct (match_test fe tests) as [m|] eqn:EM; [|discriminate]. cbn [bindR] in E. destruct (import_records rq hits tests) as [r|]; [|discriminate]. cbn [bindR] in E.
    destruct (IH r eq_refl) as (A & B & C). cbn [filter]. rewrite EM. injection E as E. subst l. split; [|split].
    + intros fe' z I. destruct m as [x|]; [destruct I as [I|I]; [injection I as <- <-; now exists x|]|]; now apply A.
    + destruct m as [x|]; cbn [map fst]; now rewrite B.
    + intros fe' [<-|I]; [now exists m|now apply C].
Qed.
(** The vehicles are those asked for with a test in question, one for each record and in their order; each is made of its record, its test and the request. *)
Theorem C130_vehicles (rq : request R) fes tests l : import_vehicles rq fes tests = Ok l ->
  (exists keep, map fst l = filter keep fes /\ forall fe, In fe fes -> (keep fe = true <-> asked rq fe /\ exists x, In x tests /\ in_question fe x)) /\
  (forall fe z, In (fe, z) l -> exists x, In x tests /\ match_test fe tests = Ok (Some x) /\ z = make_sizes fe x rq).
Proof.
  unfold import_vehicles. destruct (records_spec rq fes) as (want & EW & W). rewrite EW. intros E. apply import_ok in E. destruct E as (A & B & C). split.
  - exists (fun fe => (want fe && match match_test fe tests with Ok (Some _) => true | _ => false end)%bool). split.
    + rewrite B. clear. induction fes as [|fe fes IH]; [reflexivity|]. cbn [filter]. destruct (want fe); cbn [andb filter]; [|exact IH]. destruct (match_test fe tests) as [[x|]|]; rewrite IH; reflexivity.
    + intros fe I. rewrite Bool.andb_true_iff, W. split; intros [H1 H2]; (split; [exact H1|]).
      * destruct (match_test fe tests) as [[x|]|] eqn:EM; try discriminate. apply C128_best in EM. destruct EM as (g & t & _ & pre & post & -> & Q & _). exists x. split; [apply in_or_app; right; now left|exact Q].
      * destruct H2 as (x & IX & Q). destruct (C fe) as [m EM]; [apply filter_In; split; [exact I|now apply W]|]. rewrite EM. destruct (C128_found fe tests) as [_ F].
        destruct (F x IX Q m EM) as [y ->]. reflexivity.
  - intros fe z I. destruct (A fe z I) as (x & EM & EZ). exists x. split; [|split; assumption]. apply C128_best in EM. destruct EM as (g & t & _ & pre & post & -> & _). apply in_or_app. right. now left.
Qed.
(** The import is refused exactly if the transmission of a record asked for cannot be read, whether or not there is a test for it. *)
Theorem C130_refused (rq : request R) fes tests : (exists e, import_vehicles rq fes tests = Err e) <->
  (exists fe e, In fe fes /\ asked rq fe /\ transmission_specs (fe_trans fe) = Err e).
Proof.
  unfold import_vehicles. destruct (records_spec rq fes) as (want & -> & W).
  assert (H : (exists e, import_records rq (filter want fes) tests = Err e) <-> exists fe e, In fe (filter want fes) /\ transmission_specs (fe_trans fe) = Err e).
  { induction (filter want fes) as [|fe hits IH]; cbn [import_records].
    - split; [intros [e E]; discriminate|intros (fe & e & [] & _)].
    - destruct (C128_found fe tests) as [F _]. destruct (match_test fe tests) as [m|e0] eqn:EM; cbn [bindR].
      + assert (NF : forall e, transmission_specs (fe_trans fe) <> Err e). { intros e Q. destruct F as [_ F]. destruct F as [e' F]; [now exists e|discriminate]. }
        destruct (import_records rq hits tests) as [r|e1]; cbn [bindR].
        * split; [intros [e E]; discriminate|]. intros (fe' & e & [<-|I] & Q); [exfalso; exact (NF e Q)|]. destruct IH as [_ IH]. destruct IH as [e' E']; [now exists fe', e|discriminate].
        * split; [|intros _; now exists e1]. intros _. destruct IH as [IH _]. destruct IH as (fe' & e & I & Q); [now exists e1|]. exists fe', e. split; [now right|exact Q].
      + split; [|intros _; now exists e0]. intros _. destruct F as [F _]. destruct F as [e Q]; [now exists e0|]. exists fe, e. split; [now left|exact Q]. }
  rewrite H. split.
  - intros (fe & e & I & Q). apply filter_In in I. destruct I as [I K]. exists fe, e. split; [exact I|]. split; [now apply W|exact Q].
  - intros (fe & e & I & K & Q). exists fe, e. split; [apply filter_In; split; [exact I|now apply W]|exact Q].
Qed.
(** Sizes: weight in pounds, 85 % of width times height in inches, power in hp, tank in gallons of 33.7 kWh. *)
Theorem C130_common (fe : fe_data R) x rq : let z := make_sizes fe x rq in
  z_kg z * 2.20462 = epa_lbs x /\ z_area z * (39.3701 * 39.3701) = 0.85 * (rq_width rq * rq_height rq) /\
  (fe_drive fe = "Front-Wheel Drive"%string -> z_cg z = 0.53) /\ (fe_drive fe <> "Front-Wheel Drive"%string -> z_cg z = - 0.53).
Proof.
  assert (K : forall y, y / (220462 / 100000) * 2.20462 = y) by (intros; lra).
  assert (A : forall y, 85 / 100 * y / (393701 / 10000 * (393701 / 10000)) * (39.3701 * 39.3701) = 0.85 * y) by (intros; lra).
  assert (C : (fe_drive fe = "Front-Wheel Drive"%string -> (if String.eqb (fe_drive fe) "Front-Wheel Drive" then 53 / 100 else - (53 / 100)) = 0.53) /\
              (fe_drive fe <> "Front-Wheel Drive"%string -> (if String.eqb (fe_drive fe) "Front-Wheel Drive" then 53 / 100 else - (53 / 100)) = - 0.53)).
  { destruct (String.eqb_spec (fe_drive fe) "Front-Wheel Drive"); split; intros; try congruence; lra. }
  unfold make_sizes, lbs_per_kg, in_per_m. unR. rewrite !lit_R. destruct (import_pt (fe_alt fe)); cbn [z_kg z_area z_cg]; (split; [apply K|split; [apply A|exact C]]).
Qed.
Theorem C130_powertrain (fe : fe_data R) x rq : let z := make_sizes fe x rq in let kw := IZR (epa_hp x) / 1.34102 in
  (fe_alt fe = "Hybrid"%string -> z_pt z = HEV) /\ (fe_alt fe = "Plug-in Hybrid"%string -> z_pt z = PHEV) /\ (fe_alt fe = "EV"%string -> z_pt z = BEV) /\
  (fe_alt fe <> "Hybrid"%string -> fe_alt fe <> "Plug-in Hybrid"%string -> fe_alt fe <> "EV"%string -> z_pt z = CONV) /\
  (z_pt z = BEV -> z_fs z = 0 /\ z_fs_kwh z = 0 /\ z_fc z = 0 /\ z_mc z = kw /\ z_ess z = 1.05 * z_mc z /\ z_ess_kwh z = rq_ess_kwh rq /\ z_range z = IZR (fe_range fe)) /\
  (z_pt z <> BEV -> z_fs z = 2000 /\ z_fs_kwh z = rq_tank rq * 33.7 /\ z_range z = 0) /\
  (z_pt z = CONV -> z_fc z = kw /\ z_mc z = 0 /\ z_ess z = 0 /\ z_ess_kwh z = 0) /\
  (z_pt z = HEV \/ z_pt z = PHEV -> z_fc z = match rq_fc rq with Some k => k | None => kw end /\ z_mc z = rq_mc rq /\ z_ess z = rq_ess rq /\ z_ess_kwh z = rq_ess_kwh rq).
Proof.
  assert (P : IZR (epa_hp x) / (134102 / 100000) = IZR (epa_hp x) / 1.34102) by (f_equal; lra).
  assert (PT : (fe_alt fe = "Hybrid"%string -> import_pt (fe_alt fe) = HEV) /\ (fe_alt fe = "Plug-in Hybrid"%string -> import_pt (fe_alt fe) = PHEV) /\ (fe_alt fe = "EV"%string -> import_pt (fe_alt fe) = BEV) /\
    (fe_alt fe <> "Hybrid"%string -> fe_alt fe <> "Plug-in Hybrid"%string -> fe_alt fe <> "EV"%string -> import_pt (fe_alt fe) = CONV)).
  { split; [intros ->; reflexivity|]. split; [intros ->; reflexivity|]. split; [intros ->; reflexivity|]. intros A B C. unfold import_pt.
    now rewrite (proj2 (String.eqb_neq _ _) A), (proj2 (String.eqb_neq _ _) B), (proj2 (String.eqb_neq _ _) C). }
  destruct PT as (P1 & P2 & P3 & P4). unfold make_sizes, hp_per_kw, r_default_props. unR. rewrite !lit_R, !P. cbn [pp_kwh_per_gge]. rewrite ?lit_R.
  destruct (import_pt (fe_alt fe)); cbn [z_pt z_fs z_fs_kwh z_fc z_mc z_ess z_ess_kwh z_range];
    (split; [exact P1|split; [exact P2|split; [exact P3|split; [exact P4|]]]]);
    (split; [|split; [|split]]); intros Q; try discriminate; try congruence; try (destruct Q; discriminate); repeat split; try lra.
Qed.
(** Control and losses by powertrain. *)
Theorem C130_control (fe : fe_data R) x rq : let z := make_sizes fe x rq in
  (z_dischg z, z_mph_on z, z_kw_on z, z_aux z, z_trans z) =
  match z_pt z with CONV => (0, 55, 100, 0.7, 0.92) | HEV => (0, 1, 100, 0.5, 0.95) | PHEV => (1, 85, 120, 0.3, 0.98) | BEV => (0, 1, 100, 0.25, 0.98) end.
Proof. unfold make_sizes. unR. rewrite !lit_R. destruct (import_pt (fe_alt fe)); cbn [z_pt z_dischg z_mph_on z_kw_on z_aux z_trans]; repeat f_equal; lra. Qed.
(** Two records asked for, of which one has a test; the second test has the right engine and is preferred to the first. *)
Example C130_run :
  (let fe m := mkfe 2022 "Toyota" m "Front-Wheel Drive" "Hybrid" "4" 1.8 "1.8" "Automatic (variable gear ratios)" "" 0%Z in
   let t d hp := mkepa 2022 "TOYOTA" "PRIUS" "NTYX" d hp "4" "CVT" "A" 1%Z "F" 3375 "Tier 2" in
   let rq := mkreq " toyota" "prius" 2022%Z 69 58 11 1 53 27 None in
   match import_vehicles rq [fe "Corolla"; fe "Prius"; fe "PRIUS "] [t 2.5 176%Z; t 1.8 96%Z]%string with
   | Ok [(f, z); (g, _)] => (String.eqb (fe_model f) "Prius" && String.eqb (fe_model g) "PRIUS " && (71 <? z_fc z)%float && (z_fc z <? 72)%float && (z_mc z =? 53)%float)%bool
   | _ => false end = true)%string%float.
Proof. vm_compute. reflexivity. Qed.
