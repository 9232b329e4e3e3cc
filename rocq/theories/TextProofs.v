(** camel_to_snake and calculate_tire_radius. *)
From Coq Require Import Ascii Lia Lra.
From Verif Require Import Num Numpy CycleModel ListFacts UtilModel UtilSpec.

Ltac all_chars c := destruct c as [[] [] [] [] [] [] [] []].
Lemma lower_digit_not_upper c : is_lower c = true \/ is_digit c = true -> is_upper c = false.
Proof. all_chars c; cbn; intros [H|H]; (reflexivity || discriminate). Qed.
Lemma upper_not c : is_upper c = true -> (is_lower c || is_digit c)%bool = false.
Proof. all_chars c; cbn; intros H; (reflexivity || discriminate). Qed.
Lemma to_lower_not_upper c : is_upper (to_lower c) = false.
Proof. all_chars c; reflexivity. Qed.
Lemma to_lower_id c : is_upper c = false -> to_lower c = c.
Proof. unfold to_lower. intros ->. reflexivity. Qed.
Lemma to_lower_us c : Ascii.eqb (to_lower c) "_" = Ascii.eqb c "_".
Proof. all_chars c; reflexivity. Qed.

(** Second substitution *)
Fixpoint caps_after (before : ascii) (s : string) : string :=
  match s with
  | EmptyString => EmptyString
  | String u r => if ((is_lower before || is_digit before) && is_upper u)%bool then String "_" (String u (caps_after u r)) else String u (caps_after u r)
  end.
Lemma sub_caps_spec : forall n s c, (String.length s <= n)%nat -> sub_caps n (String c s) = String c (caps_after c s).
Proof.
  induction n as [n IH] using (well_founded_induction lt_wf). intros s c L. destruct s as [|u r].
  - destruct n; reflexivity.
  - cbn in L. destruct n as [|n]; [lia|]. cbn [sub_caps caps_after].
    destruct ((is_lower c || is_digit c) && is_upper u)%bool eqn:E.
    + apply andb_prop in E. destruct E as [E1 E2]. do 3 f_equal. destruct r as [|d r]; [destruct n; reflexivity|].
      cbn in L. destruct n as [|n]; [lia|]. rewrite IH by lia. cbn [caps_after]. rewrite (upper_not _ E2). reflexivity.
    + rewrite IH by lia. reflexivity.
Qed.
Lemma smap_app f a b : smap f (append a b) = append (smap f a) (smap f b).
Proof. induction a; cbn; congruence. Qed.
Lemma span_spec s : forall low rest, span_lower s = (low, rest) -> s = append low rest /\ text_all (fun c => is_lower c = true) low /\
  match rest with String d _ => is_lower d = false | EmptyString => True end.
Proof.
  induction s as [|c s IH]; cbn; intros low rest H.
  - injection H as <- <-. cbn. auto.
  - destruct (is_lower c) eqn:E.
    + destruct (span_lower s) as [a b]. injection H as <- <-. destruct (IH _ _ eq_refl) as (-> & I2 & I3). cbn. auto.
    + injection H as <- <-. cbn. auto.
Qed.
Fixpoint last_char (d : ascii) (s : string) : ascii := match s with EmptyString => d | String c r => last_char c r end.
Lemma caps_low c low t : text_all (fun c => is_lower c = true) low -> caps_after c (append low t) = append low (caps_after (last_char c low) t).
Proof.
  revert c. induction low as [|a low IH]; intros c; cbn [append caps_after last_char]; [reflexivity|]. intros [A H].
  rewrite (lower_digit_not_upper a) by auto. rewrite Bool.andb_false_r. f_equal. auto.
Qed.
Lemma snake_low c low t : text_all (fun c => is_lower c = true) low ->
  snake_after c (append low t) = append (smap to_lower low) (snake_after (last_char c low) t).
Proof.
  revert c. induction low as [|a low IH]; intros c; cbn [append snake_after smap last_char]; [reflexivity|]. intros [A H]. cbv zeta.
  unfold word_starts. rewrite (lower_digit_not_upper a) by auto. cbn [andb]. f_equal. auto.
Qed.
Lemma last_low low c : text_all (fun c => is_lower c = true) low -> low <> EmptyString -> is_lower (last_char c low) = true.
Proof.
  revert c. induction low as [|a low IH]; intros c H N; [congruence|]. destruct H as [A H]. destruct low as [|b low]; [exact A|].
  exact (IH a H ltac:(discriminate)).
Qed.
Lemma len_app a b : String.length (append a b) = (String.length a + String.length b)%nat.
Proof. induction a; cbn; congruence. Qed.
Lemma sub_words_spec : forall n c s, (String.length s <= n)%nat ->
  exists t, sub_words n (String c s) = String c t /\ smap to_lower (caps_after c t) = snake_after c s.
Proof.
  induction n as [n IH] using (well_founded_induction lt_wf). intros c s L. destruct s as [|u r].
  - exists EmptyString. destruct n; auto.
  - cbn in L. destruct n as [|n]; [lia|]. cbn [sub_words]. destruct (span_lower r) as [low rest] eqn:Sp.
    destruct (span_spec _ _ _ Sp) as (Er & Hl & Hr).
    destruct (negb (Ascii.eqb c "010") && is_upper u && negb (String.eqb low ""))%bool eqn:E.
    + apply andb_prop in E. destruct E as [E E3]. apply andb_prop in E. destruct E as [E1 E2].
      assert (Nl : low <> EmptyString) by (intros ->; discriminate).
      eexists. split; [reflexivity|]. cbn [caps_after]. rewrite (proj2 (Bool.andb_false_iff _ _) (or_intror eq_refl) : ((is_lower c || is_digit c) && is_upper "_")%bool = false).
      change ((is_lower "_" || is_digit "_") && is_upper u)%bool with false. cbv iota.
      rewrite caps_low by auto. rewrite Er. cbn [snake_after]. cbv zeta. unfold word_starts at 1. rewrite E2.
      assert (exists a lw, low = String a lw) as (a & lw & El) by (destruct low; [congruence|eauto]).
      assert ((is_lower c || is_digit c || negb (Ascii.eqb c "010") && match append low rest with EmptyString => false | String a0 _ => is_lower a0 end)%bool = true) as ->.
      { rewrite E1, El. subst low. destruct Hl as [Ha _]. cbn [append]. rewrite Ha. cbn [andb]. apply Bool.orb_true_r. }
      cbn [andb]. rewrite snake_low by auto. cbn [smap]. do 2 f_equal. rewrite smap_app. f_equal.
      pose proof (last_low low u Hl Nl) as Z2.
      destruct rest as [|d r']; [destruct n; reflexivity|].
      assert (Ll : (String.length r' <= n)%nat) by (subst r; rewrite len_app in L; cbn in L; lia).
      destruct (IH n ltac:(lia) d r' Ll) as (t & T1 & T2). rewrite T1. cbn [caps_after snake_after]. cbv zeta. unfold word_starts. rewrite Z2. cbn [orb andb].
      destruct (is_upper d); cbn [andb smap]; rewrite T2; reflexivity.
    + destruct (IH n ltac:(lia) u r ltac:(lia)) as (t & T1 & T2). rewrite T1. eexists. split; [reflexivity|]. cbn [caps_after snake_after]. cbv zeta.
      assert (W : word_starts c u r = ((is_lower c || is_digit c) && is_upper u)%bool).
      { unfold word_starts. rewrite (Bool.andb_comm (is_lower c || is_digit c)). destruct (is_upper u); cbn [andb] in *; auto.
        destruct (is_lower c || is_digit c)%bool; cbn [orb]; auto. destruct (negb (Ascii.eqb c "010")); cbn [andb] in *; auto.
        destruct r as [|a r]; auto. cbn in Sp. destruct (is_lower a); auto. destruct (span_lower r). injection Sp as <- <-. discriminate. }
      rewrite W. destruct ((is_lower c || is_digit c) && is_upper u)%bool; cbn [smap]; rewrite T2; reflexivity.
Qed.
Lemma camel_spec s : camel_to_snake s = snake s.
Proof.
  destruct s as [|c s]; [reflexivity|]. unfold camel_to_snake. cbn [String.length].
  destruct (sub_words_spec (S (String.length s)) c s ltac:(lia)) as (t & T1 & T2). rewrite T1. cbn [String.length].
  rewrite sub_caps_spec by lia. unfold lower. cbn [smap snake]. rewrite T2. reflexivity.
Qed.
Lemma snake_after_clean c s : text_all (fun x => is_upper x = false) (snake_after c s).
Proof. revert c. induction s as [|u s IH]; intros c; cbn; auto. destruct (word_starts c u s); cbn; auto using to_lower_not_upper. Qed.
Lemma snake_clean s : text_all (fun x => is_upper x = false) (snake s).
Proof. destruct s; cbn; auto using to_lower_not_upper, snake_after_clean. Qed.
Lemma snake_after_id c s : text_all (fun x => is_upper x = false) s -> snake_after c s = s.
Proof. revert c. induction s as [|u s IH]; intros c; cbn; auto. intros [H1 H2]. unfold word_starts. rewrite H1. cbn. rewrite to_lower_id, IH; auto. Qed.
Lemma snake_id s : text_all (fun x => is_upper x = false) s -> snake s = s.
Proof. destruct s; cbn; auto. intros [H1 H2]. rewrite to_lower_id, snake_after_id; auto. Qed.
Lemma snake_after_letters c s : remove_char "_" (snake_after c s) = smap to_lower (remove_char "_" s).
Proof.
  revert c. induction s as [|u s IH]; intros c; [reflexivity|]. cbn [snake_after remove_char]. cbv zeta.
  destruct (word_starts c u s); cbn [remove_char]; change (Ascii.eqb "_" "_") with true; cbv iota; rewrite to_lower_us; destruct (Ascii.eqb u "_"); cbn [smap]; rewrite IH; reflexivity.
Qed.
Lemma snake_letters s : remove_char "_" (snake s) = smap to_lower (remove_char "_" s).
Proof. destruct s as [|c s]; [reflexivity|]. cbn [snake remove_char]. rewrite to_lower_us. destruct (Ascii.eqb c "_"); cbn [smap]; rewrite snake_after_letters; reflexivity. Qed.

(** Tyre codes *)
Definition nodigit (s : string) : Prop := match s with EmptyString => True | String c _ => is_digit c = false end.
Lemma app_assoc_s a b c : append (append a b) c = append a (append b c).
Proof. induction a; cbn; congruence. Qed.
Lemma some_greedy : forall n w rest, digits w -> nodigit rest -> (String.length (append w rest) <= n)%nat ->
  exists l, some_fuel n is_digit (append w rest) = (w, rest) :: l.
Proof.
  induction n as [|n IH]; intros w rest [N D] R L.
  - destruct w; [congruence|cbn in L; lia].
  - destruct w as [|c w]; [congruence|]. destruct D as [Dc D]. cbn [append some_fuel one]. rewrite Dc. cbn [flat_map app fst snd]. rewrite app_nil_r.
    destruct w as [|d w].
    + cbn [append]. assert (some_fuel n is_digit rest = []) as ->.
      { destruct n; [reflexivity|]. cbn. destruct rest as [|x rest]; [reflexivity|]. cbn in R. unfold one. rewrite R. reflexivity. }
      exists []. reflexivity.
    + destruct (IH (String d w) rest) as (l & ->); auto. { split; [discriminate|auto]. } { cbn in *. lia. }
      cbn. eauto.
Qed.
Lemma somem_greedy w rest : digits w -> nodigit rest -> exists l, somem is_digit (append w rest) = (w, rest) :: l.
Proof. intros. apply some_greedy; auto. Qed.
(** No decimal point within reach *)
Definition good (s : string) : Prop := exists w rest, s = append w rest /\ text_all (fun c => is_digit c = true) w /\ ends_number rest.
Lemma digit_not_dot c : is_digit c = true -> Ascii.eqb "." c = false.
Proof. all_chars c; cbn; intros H; (reflexivity || discriminate). Qed.
Lemma good_no_dot s : good s -> one (Ascii.eqb ".") s = [].
Proof.
  intros (w & rest & -> & W & E). destruct w as [|c w]; cbn [append one].
  - destruct rest as [|c r]; [reflexivity|]. cbn in E. destruct E as [_ E]. cbn [one]. destruct (Ascii.eqb "." c) eqn:Q; auto. apply Ascii.eqb_eq in Q. congruence.
  - destruct W as [W _]. rewrite digit_not_dot; auto.
Qed.
Lemma good_one s : good s -> Forall (fun x => good (snd x)) (one is_digit s).
Proof.
  intros (w & rest & -> & W & E). destruct w as [|c w]; cbn [append].
  - destruct rest as [|c r]; cbn; [constructor|]. destruct E as [E _]. rewrite E. constructor.
  - destruct W as [Wc W]. cbn [one]. rewrite Wc. constructor; [|constructor]. exists w, rest. auto.
Qed.
Lemma good_seq a b s : (forall s, good s -> Forall (fun x => good (snd x)) (a s)) -> (forall s, good s -> Forall (fun x => good (snd x)) (b s)) ->
  good s -> Forall (fun x => good (snd x)) (seqm a b s).
Proof.
  intros Ha Hb G. apply Ha in G. unfold seqm. induction (a s) as [|x l IH]; cbn; [constructor|]. inversion G; subst. apply Forall_app. split; auto.
  apply Hb in H1. clear -H1. induction (b (snd x)); cbn; constructor; inversion H1; auto.
Qed.
Lemma good_upto two s : good s -> Forall (fun x => good (snd x)) (up_to two is_digit s).
Proof.
  intros G. unfold up_to. destruct two; apply Forall_app; split; auto using good_one, good_seq.
Qed.
Lemma no_fraction two s : good s -> seqm (up_to two is_digit) (one (Ascii.eqb ".")) s = [].
Proof.
  intros G. apply (good_upto two) in G. unfold seqm. induction (up_to two is_digit s) as [|x l IH]; [reflexivity|]. inversion G; subst. cbn.
  rewrite good_no_dot by auto. cbn. auto.
Qed.
Lemma number_int two w rest : digits w -> ends_number rest -> exists l, number two (append w rest) = (w, rest) :: l.
Proof.
  intros D E. unfold number, seqm at 1, optm. rewrite no_fraction by (exists w, rest; destruct D; auto). cbn [app flat_map fst snd append]. rewrite app_nil_r.
  destruct (somem_greedy w rest D) as (l & ->); [destruct rest; cbn in *; tauto|]. cbn. eauto.
Qed.
Definition int_len (two : bool) (a : string) : Prop := if two then (2 <= String.length a <= 3)%nat else (1 <= String.length a <= 2)%nat.
Lemma number_frac two a b rest : digits a -> int_len two a -> digits b -> nodigit rest ->
  exists l, number two (append a (String "." (append b rest))) = (append a (String "." b), rest) :: l.
Proof.
  intros [Na Da] La Db Hr. destruct (somem_greedy b rest Db Hr) as (l & G).
  assert (Q : forall p, exists l, seqm (up_to two is_digit) (one (Ascii.eqb ".")) (append a (String "." p)) = (append a ".", p) :: l).
  { intros p. destruct a as [|c1 [|c2 [|c3 [|c4 a]]]]; destruct two; cbn in La; try lia; try congruence; cbn in Da;
    unfold up_to, seqm; cbn [append one]; repeat (match goal with H : _ /\ _ |- _ => destruct H end);
    repeat match goal with H : is_digit ?c = true |- _ => rewrite !H; clear H end;
    repeat (cbn [flat_map app map fst snd append one]; change (is_digit ".") with false; change (Ascii.eqb "." ".") with true; cbv iota;
            repeat match goal with H : is_digit ?c = true |- _ => rewrite !H; clear H end); eauto. }
  destruct (Q (append b rest)) as (l' & Q'). unfold number, seqm at 1, optm. rewrite Q'. cbn [app flat_map fst snd]. rewrite G. cbn.
  rewrite app_assoc_s. cbn. eauto.
Qed.

Definition two_of (lo : nat) : bool := Nat.eqb lo 2.
Lemma number_numeral (two : bool) w x rest : numeral (if two then 2 else 1) (if two then 3 else 2) w x -> ends_number rest -> exists l, number two (append w rest) = (w, rest) :: l.
Proof.
  intros [[D _]|(a & b & Da & Db & L & -> & _)] E.
  - apply number_int; auto.
  - destruct (number_frac two a b rest Da) as (l & G); auto; [destruct two; auto|destruct rest; cbn in *; tauto|].
    exists l. rewrite app_assoc_s. exact G.
Qed.
Lemma numeral_first lo hi w x : numeral lo hi w x -> exists c r, w = String c r /\ is_digit c = true.
Proof. intros [[[N D] _]|(a & b & [N D] & _ & _ & -> & _)]; [destruct w as [|c w]|destruct a as [|c a]]; try congruence; destruct D; eauto. eexists _, _. cbn. eauto. Qed.
Lemma hd_flat {A B} (f : A -> list B) x l y : (exists m, f x = y :: m) -> exists l', flat_map f (x :: l) = y :: l'.
Proof. intros (m & H). cbn. rewrite H. cbn. eauto. Qed.
Lemma digit_not_among c : is_digit c = true -> among ["P"; "|"; "L"; "T"; "S"]%char c = false /\ among ["B"; "|"; "D"; "R"]%char c = false /\ among ["X"; "|"; "-"; " "]%char c = false.
Proof. all_chars c; cbn; intros H; (auto || discriminate). Qed.
Lemma pre_among c : In c (list_ascii_of_string "PpLlTtSs") -> among ["P"; "|"; "L"; "T"; "S"]%char c = true.
Proof. cbn. intuition (subst; reflexivity). Qed.
Lemma cons_among c : In c (list_ascii_of_string "BbDdRr") -> among ["B"; "|"; "D"; "R"]%char c = true /\ is_digit c = false /\ c <> "."%char.
Proof. cbn. intuition (subst; try reflexivity; try discriminate). Qed.
Lemma sep_among c : In c (list_ascii_of_string "Xx- ") -> among ["X"; "|"; "-"; " "]%char c = true /\ among ["B"; "|"; "D"; "R"]%char c = false /\ is_digit c = false /\ c <> "."%char.
Proof. cbn. intuition (subst; try reflexivity; try discriminate). Qed.

Lemma tire_head pre w a con sep d rest W A D :
  at_most_one "PpLlTtSs" pre -> numeral 2 3 w W -> numeral 1 2 a A -> at_most_one "BbDdRr" con -> at_most_one "Xx- " sep ->
  append con sep <> EmptyString -> numeral 1 2 d D -> ends_number rest ->
  exists l, tire_matches (append pre (append w (String "/" (append a (append con (append sep (append d rest))))))) = (w, a, d) :: l.
Proof.
  intros Hp Hw Ha Hc Hs Hcs Hd Hr. unfold tire_matches.
  destruct (numeral_first _ _ _ _ Hw) as (w0 & w' & Ew & Dw). destruct (numeral_first _ _ _ _ Hd) as (d0 & d' & Ed & Dd).
  destruct (digit_not_among _ Dw) as (Aw & _ & _). destruct (digit_not_among _ Dd) as (_ & Ad1 & Ad2).
  set (s1 := append w (String "/" (append a (append con (append sep (append d rest)))))).
  assert (P0 : exists x l, optm (one (among ["P"; "|"; "L"; "T"; "S"]%char)) (append pre s1) = x :: l /\ snd x = s1).
  { destruct Hp as [->|(c & -> & Hc')]; unfold optm.
    - cbn [append]. unfold s1. rewrite Ew. cbn [append one]. rewrite Aw. cbn. eauto.
    - cbn [append one]. rewrite pre_among by auto. cbn. eauto. }
  destruct P0 as (x0 & l0 & -> & E0).
  (* rim *)
  set (s6 := append d rest). set (s5 := append sep s6). set (s4 := append con s5).
  assert (P6 : exists l, number false s6 = (d, rest) :: l) by (apply (number_numeral false d D); auto). destruct P6 as (l6 & P6).
  assert (P5 : exists x l, optm (one (among ["X"; "|"; "-"; " "]%char)) s5 = x :: l /\ snd x = s6).
  { unfold s5. destruct Hs as [->|(c & -> & Hc')]; unfold optm; cbn [append].
    - unfold s6. rewrite Ed. cbn [append one]. rewrite Ad2. cbn. eauto.
    - cbn [one]. destruct (sep_among _ Hc') as (-> & _). cbn. eauto. }
  destruct P5 as (x5 & l5 & P5 & E5).
  assert (P4 : exists x l, optm (one (among ["B"; "|"; "D"; "R"]%char)) s4 = x :: l /\ snd x = s5).
  { unfold s4. destruct Hc as [->|(c & -> & Hc')]; unfold optm; cbn [append].
    - unfold s5. destruct Hs as [->|(c & -> & Hc')]; cbn [append].
      + cbn in Hcs. congruence.
      + cbn [one]. destruct (sep_among _ Hc') as (_ & -> & _). cbn. eauto.
    - cbn [one]. destruct (cons_among _ Hc') as (-> & _). cbn. eauto. }
  destruct P4 as (x4 & l4 & P4 & E4).
  assert (N4 : ends_number s4).
  { unfold s4, s5. destruct Hc as [->|(c & -> & Hc')]; cbn [append].
    - destruct Hs as [->|(c & -> & Hc')]; [cbn in Hcs; congruence|]. cbn. apply sep_among in Hc'. tauto.
    - cbn. apply cons_among in Hc'. tauto. }
  destruct (number_numeral false a A s4 Ha N4) as (l3 & P3).
  assert (P2 : one (Ascii.eqb "/") (String "/" (append a s4)) = [("/"%string, append a s4)]) by reflexivity.
  assert (N1 : ends_number (String "/" (append a s4))) by (split; [reflexivity|discriminate]).
  destruct (number_numeral true w W (String "/" (append a s4)) Hw N1) as (l1 & P1). change (append w (String "/" (append a s4))) with s1 in P1.
  apply hd_flat. rewrite E0, P1. apply hd_flat. cbn [snd]. rewrite P2. apply hd_flat. cbn [snd]. rewrite P3. apply hd_flat. cbn [snd].
  rewrite P4. apply hd_flat. rewrite E4, P5. apply hd_flat. rewrite E5, P6. cbn. eauto.
Qed.

(** Values *)
Local Open Scope R_scope.
Lemma digit_val c : is_digit c = true -> Z.of_N (N_of_ascii c - 48) = (Z.of_nat (nat_of_ascii c) - 48)%Z.
Proof. all_chars c; cbn; intros H; (reflexivity || discriminate). Qed.
Lemma digits_value_int s acc sc after : text_all (fun c => is_digit c = true) s ->
  digits_value s acc sc after = (decimal acc s, (if after then sc * 10 ^ Z.of_nat (String.length s) else sc)%Z).
Proof.
  revert acc sc. induction s as [|c s IH]; intros acc sc; cbn [text_all digits_value decimal].
  - intros _. destruct after; f_equal. cbn. ring.
  - intros [H1 H2]. rewrite H1, IH, digit_val by auto. rewrite (Z.mul_comm acc 10). f_equal. destruct after; auto.
    cbn [String.length]. rewrite Nat2Z.inj_succ, Z.pow_succ_r by lia. ring.
Qed.
Lemma digits_value_frac a b acc sc : text_all (fun c => is_digit c = true) a -> text_all (fun c => is_digit c = true) b ->
  digits_value (append a (String "." b)) acc sc false = (decimal acc (append a b), (sc * 10 ^ Z.of_nat (String.length b))%Z).
Proof.
  revert acc. induction a as [|c a IH]; intros acc; cbn [text_all append].
  - intros _ Hb. cbn [digits_value]. change (is_digit ".") with false. cbv iota. rewrite digits_value_int by auto. reflexivity.
  - intros [H1 H2] Hb. cbn [digits_value decimal]. rewrite H1, IH, digit_val by auto. rewrite (Z.mul_comm acc 10). reflexivity.
Qed.
Lemma float_numeral lo hi s x : numeral lo hi s x -> float_of (F := R) s = x.
Proof.
  unfold float_of. intros [[[N D] ->]|(a & b & [_ Da] & [_ Db] & _ & -> & ->)].
  - rewrite digits_value_int by auto. rewrite lit_R. field.
  - rewrite digits_value_frac by auto. rewrite lit_R. rewrite Z.mul_1_l. rewrite <- pow_IZR. reflexivity.
Qed.
Lemma numeral_nonneg lo hi s x : numeral lo hi s x -> 0 <= x.
Proof.
  assert (G : forall s acc, (0 <= acc)%Z -> text_all (fun c => is_digit c = true) s -> (0 <= decimal acc s)%Z).
  { clear. induction s as [|c s IH]; intros acc A H; cbn [decimal]; auto. destruct H as [H1 H2]. apply IH; auto. rewrite <- digit_val by auto. pose proof (N2Z.is_nonneg (N_of_ascii c - 48)). lia. }
  assert (T : forall a b, text_all (fun c => is_digit c = true) a -> text_all (fun c => is_digit c = true) b -> text_all (fun c => is_digit c = true) (append a b)).
  { clear. induction a; cbn; tauto || firstorder. }
  intros [[[N D] ->]|(a & b & [_ Da] & [_ Db] & _ & -> & ->)].
  - apply IZR_le. auto with zarith.
  - apply Rmult_le_pos; [apply IZR_le, G; auto with zarith|]. left. apply Rinv_0_lt_compat, pow_lt. lra.
Qed.
Lemma tire_radius_mm pre w a con sep d rest W A D :
  at_most_one "PpLlTtSs" pre -> numeral 2 3 w W -> numeral 1 2 a A -> at_most_one "BbDdRr" con -> at_most_one "Xx- " sep ->
  append con sep <> EmptyString -> numeral 1 2 d D -> ends_number rest ->
  let code := append pre (append w (String "/" (append a (append con (append sep (append d rest)))))) in
  calculate_tire_radius code "mm" = Ok (tire_mm W A D) /\ calculate_tire_radius code "cm" = Ok (tire_mm W A D / 10) /\
  calculate_tire_radius code "m" = Ok (tire_mm W A D / 1000) /\
  calculate_tire_radius code "in" = Ok (tire_mm W A D / (254 / 10)) /\ calculate_tire_radius code "ft" = Ok (tire_mm W A D / (12 * (254 / 10))).
Proof.
  intros Hp Hw Ha Hc Hs Hcs Hd Hr code. destruct (tire_head pre w a con sep d rest W A D) as (l & H); auto. fold code in H.
  unfold calculate_tire_radius. rewrite H. rewrite (float_numeral _ _ _ _ Hw), (float_numeral _ _ _ _ Ha), (float_numeral _ _ _ _ Hd).
  unfold tire_mm. cbn [String.eqb Ascii.eqb Bool.eqb]. cbv iota. unR. rewrite ?lit_R. repeat split; f_equal; field.
Qed.
Lemma tire_units code u r : calculate_tire_radius (F := R) code u = Ok r -> In u ["m"; "cm"; "mm"; "ft"; "in"]%string.
Proof.
  unfold calculate_tire_radius. destruct (tire_matches code) as [|[[g1 g3] g5] l]; [discriminate|]. cbv zeta.
  repeat (match goal with |- context [String.eqb u ?x] => destruct (String.eqb_spec u x) end; [subst; cbn; tauto|]). discriminate.
Qed.
(** Rejected codes *)
Lemma tire_lt s c1 u : In c1 (list_ascii_of_string "LlSs") -> forall c2, In c2 (list_ascii_of_string "Tt") ->
  calculate_tire_radius (F := R) (String c1 (String c2 s)) u = Err ValueError.
Proof.
  intros H1 c2 H2. unfold calculate_tire_radius. assert (tire_matches (String c1 (String c2 s)) = []) as ->; [|reflexivity].
  cbn in H1, H2. repeat (destruct H1 as [<-|H1]); try contradiction; repeat (destruct H2 as [<-|H2]); try contradiction; reflexivity.
Qed.
Definition noslash := text_all (fun c => c <> "/"%char).
Definition keeps (m : matcher) := forall s, noslash s -> Forall (fun x => noslash (snd x)) (m s).
Lemma keeps_one p : keeps (one p).
Proof. intros [|c s] H; cbn; [constructor|]. destruct (p c); constructor; [|constructor]. exact (proj2 H). Qed.
Lemma keeps_opt m : keeps m -> keeps (optm m).
Proof. intros K s H. apply Forall_app. split; auto. Qed.
Lemma keeps_seq a b : keeps a -> keeps b -> keeps (seqm a b).
Proof.
  intros Ka Kb s H. apply Ka in H. unfold seqm. induction (a s) as [|x l IH]; cbn; [constructor|]. inversion H; subst. apply Forall_app. split; auto.
  apply Kb in H2. clear -H2. induction (b (snd x)); cbn; constructor; inversion H2; auto.
Qed.
Lemma keeps_some n p : keeps (some_fuel n p).
Proof.
  induction n as [|n IH]; intros s H; [constructor|]. cbn [some_fuel]. pose proof (keeps_one p s H) as K. induction (one p s) as [|x l IHl]; cbn; [constructor|].
  inversion K; subst. apply Forall_app. split; auto. apply Forall_app. split; [|repeat constructor; auto].
  apply IH in H2. clear -H2. induction (some_fuel n p (snd x)); cbn; constructor; inversion H2; auto.
Qed.
Lemma keeps_number two : keeps (number two).
Proof.
  apply keeps_seq; [apply keeps_opt, keeps_seq; [|apply keeps_one]|intros s; apply keeps_some].
  intros s H. unfold up_to. destruct two; apply Forall_app; split; repeat first [apply keeps_seq | apply keeps_one | assumption].
Qed.
Lemma flat_nil {A B} (f : A -> list B) l : Forall (fun x => f x = []) l -> flat_map f l = [].
Proof. induction 1; cbn; [reflexivity|]. rewrite H, IHForall. reflexivity. Qed.
Lemma tire_no_slash s u : noslash s -> calculate_tire_radius (F := R) s u = Err ValueError.
Proof.
  intros H. unfold calculate_tire_radius. assert (tire_matches s = []) as ->; [|reflexivity]. unfold tire_matches.
  apply flat_nil. eapply Forall_impl; [|apply keeps_opt, H; apply keeps_one]. intros x0 H0. cbn beta in *. apply flat_nil.
  eapply Forall_impl; [|apply (keeps_number true), H0]. intros x1 H1. cbn beta in *. destruct (snd x1) as [|c r]; [reflexivity|].
  destruct H1 as [H1 _]. cbn [one]. destruct (Ascii.eqb "/" c) eqn:Q; [apply Ascii.eqb_eq in Q; congruence|reflexivity].
Qed.
