(** Proofs about the JSON decoder and printer. *)
From Coq Require Import List String Ascii Bool Arith ZArith Permutation Lia.
From Verif Require Import Base GoStr GoStr_facts GoFloat Types Json Spec_Glob Spec_Json.
Import ListNotations.
Open Scope string_scope.
Local Arguments String.prefix : simpl never.

Lemma is_ws_iff c : is_json_ws c = true <-> space_char c.
Proof.
  unfold is_json_ws, space_char. rewrite !orb_true_iff, !Nat.eqb_eq. simpl. intuition.
Qed.
Lemma skip_spaces w s : spaces w -> skip_ws (w ++ s) = skip_ws s.
Proof.
  induction w as [|c w IH]; intro H; [auto|]. destruct H as [H1 H2]. apply is_ws_iff in H1. simpl. rewrite H1. auto.
Qed.
Definition solid (s : string) : Prop := exists c r, s = String c r /\ ~ space_char c.
Lemma skip_solid s r : solid s -> skip_ws (s ++ r) = s ++ r.
Proof.
  intros (c & x & -> & H). simpl. destruct (is_json_ws c) eqn:E; [apply is_ws_iff in E; tauto|auto].
Qed.

(** ** Strings *)
Lemma hex_iff c n : hex_val c = Some n <-> hex c n.
Proof.
  unfold hex. split.
  - destruct c as [[] [] [] [] [] [] [] []]; vm_compute; intro H; try discriminate; injection H as <-; tauto.
  - intro H. simpl in H. repeat (destruct H as [H|H]; [injection H; intros; subst; reflexivity|]). destruct H.
Qed.
Lemma hex_bound c n : hex c n -> (n < 16)%nat.
Proof. intro H. unfold hex in H. simpl in H. repeat (destruct H as [H|H]; [injection H; intros; subst; lia|]). destruct H. Qed.
Lemma of_nat_div n : N.of_nat (n / 64) = (N.of_nat n / 64)%N.
Proof.
  apply (N.div_unique _ _ _ (N.of_nat (n mod 64))); pose proof (Nat.mod_upper_bound n 64); pose proof (Nat.div_mod n 64); lia.
Qed.
Lemma of_nat_mod n : N.of_nat (n mod 64) = (N.of_nat n mod 64)%N.
Proof.
  apply (N.mod_unique _ _ (N.of_nat (n / 64))); pose proof (Nat.mod_upper_bound n 64); pose proof (Nat.div_mod n 64); lia.
Qed.
Lemma utf8_iff a b c d : (a < 16 -> b < 16 -> c < 16 -> d < 16 -> utf8 a b c d = utf8_bytes (code_point a b c d))%nat.
Proof.
  intros HA HB HC HD. unfold utf8, utf8_bytes. set (l := (c * 16 + d)%nat). set (n := code_point a b c d).
  assert (HN : n = (4096 * N.of_nat a + 256 * N.of_nat b + N.of_nat l)%N) by (unfold n, code_point, l; lia).
  assert (HL : (l < 256)%nat) by (unfold l; lia). clearbody l n.
  assert (E64 : (n / 64 = 64 * N.of_nat a + 4 * N.of_nat b + N.of_nat (l / 64))%N).
  { rewrite of_nat_div. subst n.
    replace (4096 * N.of_nat a + 256 * N.of_nat b + N.of_nat l)%N with (N.of_nat l + (64 * N.of_nat a + 4 * N.of_nat b) * 64)%N by lia.
    rewrite N.div_add by lia. lia. }
  assert (M64 : (n mod 64 = N.of_nat (l mod 64))%N).
  { rewrite of_nat_mod. subst n.
    replace (4096 * N.of_nat a + 256 * N.of_nat b + N.of_nat l)%N with (N.of_nat l + (64 * N.of_nat a + 4 * N.of_nat b) * 64)%N by lia.
    rewrite N.mod_add by lia. lia. }
  assert (HQ : (l / 64 < 4)%nat) by (apply Nat.div_lt_upper_bound; lia).
  assert (EM : ((n / 64) mod 64 = 4 * N.of_nat b + N.of_nat (l / 64))%N).
  { rewrite E64. replace (64 * N.of_nat a + 4 * N.of_nat b + N.of_nat (l / 64))%N with (4 * N.of_nat b + N.of_nat (l / 64) + N.of_nat a * 64)%N by lia.
    rewrite N.mod_add by lia. apply N.mod_small. lia. }
  assert (ED : (n / 4096 = N.of_nat a)%N).
  { change 4096%N with (64 * 64)%N. rewrite <- N.div_div by lia. rewrite E64.
    replace (64 * N.of_nat a + 4 * N.of_nat b + N.of_nat (l / 64))%N with (4 * N.of_nat b + N.of_nat (l / 64) + N.of_nat a * 64)%N by lia.
    rewrite N.div_add by lia. rewrite N.div_small by lia. lia. }
  rewrite EM, M64, ED, E64.
  destruct (N.ltb_spec n 128).
  - destruct (Nat.eqb_spec a 0); [|lia]. destruct (Nat.eqb_spec b 0); [|lia]. destruct (Nat.ltb_spec l 128); [|lia]. subst a b. simpl.
    rewrite HN. simpl. reflexivity.
  - assert (E1 : ((a =? 0) && (b =? 0) && (l <? 128) = false)%nat).
    { destruct (Nat.eqb_spec a 0); [|auto]. destruct (Nat.eqb_spec b 0); [|auto]. destruct (Nat.ltb_spec l 128); [lia|auto]. }
    rewrite E1. destruct (N.ltb_spec n 2048).
    + destruct (Nat.eqb_spec a 0); [|lia]. destruct (Nat.ltb_spec b 8); [|lia]. cbn [andb]. unfold ascii_of_nat, byte. f_equal; [f_equal; lia|].
      f_equal. f_equal. lia.
    + assert (E2 : ((a =? 0) && (b <? 8) = false)%nat).
      { destruct (Nat.eqb_spec a 0); [|auto]. destruct (Nat.ltb_spec b 8); [lia|auto]. }
      rewrite E2. destruct (N.ltb_spec n 65536); [|lia].
      unfold ascii_of_nat, byte. f_equal; [f_equal; lia|]. f_equal; [f_equal; lia|]. f_equal. f_equal. lia.
Qed.
(** *** Surrogates *)
Definition unit_chars (h1 h2 h3 h4 : ascii) (s : string) : string :=
  String bslash (String "u" (String h1 (String h2 (String h3 (String h4 s))))).
Lemma high_digits a b c d : (a < 16 -> b < 16 -> c < 16 -> d < 16 -> (high_unit (code_point a b c d) <-> a = 13 /\ 8 <= b < 12))%nat.
Proof. unfold high_unit, code_point. intros. lia. Qed.
Lemma low_digits a b c d : (a < 16 -> b < 16 -> c < 16 -> d < 16 -> (low_unit (code_point a b c d) <-> a = 13 /\ 12 <= b))%nat.
Proof. unfold low_unit, code_point. intros. lia. Qed.
Lemma surrogate_iff a b : surrogate a b = true <-> (a = 13 /\ 8 <= b)%nat.
Proof. unfold surrogate. rewrite andb_true_iff, Nat.eqb_eq, Nat.leb_le. tauto. Qed.
Lemma low_half_iff s b c d : low_half s = Some (b, c, d) <->
  exists g1 g2 g3 g4 r, hex g1 13 /\ hex g2 b /\ hex g3 c /\ hex g4 d /\ (12 <= b)%nat /\ s = unit_chars g1 g2 g3 g4 r.
Proof.
  split.
  - destruct s as [|x1 [|x2 [|g1 [|g2 [|g3 [|g4 r]]]]]]; try discriminate. cbn [low_half].
    destruct (Ascii.eqb_spec x1 bslash); [|discriminate]. destruct (Ascii.eqb_spec x2 "u"); [|discriminate]. subst. cbn [andb].
    destruct (hex_val g1) as [a'|] eqn:H1; [|discriminate]. destruct (hex_val g2) as [b'|] eqn:H2; [|discriminate].
    destruct (hex_val g3) as [c'|] eqn:H3; [|discriminate]. destruct (hex_val g4) as [d'|] eqn:H4; [|discriminate].
    destruct (Nat.eqb_spec a' 13); [|discriminate]. destruct (Nat.leb_spec 12 b'); [|discriminate]. intro E. injection E as <- <- <-. subst a'.
    apply hex_iff in H1, H2, H3, H4. exists g1, g2, g3, g4, r. auto 10.
  - intros (g1 & g2 & g3 & g4 & r & H1 & H2 & H3 & H4 & HB & ->). unfold unit_chars. cbn [low_half].
    apply hex_iff in H1, H2, H3, H4. rewrite !Ascii.eqb_refl, H1, H2, H3, H4. apply Nat.leb_le in HB. rewrite HB. reflexivity.
Qed.
Lemma low_half_follows s b c d : low_half s = Some (b, c, d) -> low_follows s.
Proof.
  intro H. apply low_half_iff in H. destruct H as (g1 & g2 & g3 & g4 & r & H1 & H2 & H3 & H4 & HB & ->).
  exists (code_point 13 b c d), (unit_chars g1 g2 g3 g4 ""), r. split; [|split].
  - apply low_digits; try (eapply hex_bound; eassumption). lia.
  - exists g1, g2, g3, g4, 13%nat, b, c, d. auto 10.
  - reflexivity.
Qed.
Lemma follows_low_half s : low_follows s -> exists b c d, low_half s = Some (b, c, d).
Proof.
  intros (n & t & r & HN & (g1 & g2 & g3 & g4 & a & b & c & d & H1 & H2 & H3 & H4 & -> & ->) & ->).
  apply low_digits in HN; try (eapply hex_bound; eassumption). destruct HN as [-> HB]. exists b, c, d. apply low_half_iff.
  exists g1, g2, g3, g4, r. auto 10.
Qed.
Lemma no_low s : low_half s = None <-> ~ low_follows s.
Proof.
  split.
  - intros E H. apply follows_low_half in H. destruct H as (b & c & d & H). congruence.
  - intro H. destruct (low_half s) as [[[b c] d]|] eqn:E; auto. apply low_half_follows in E. contradiction.
Qed.
Lemma hex_dq n : ~ hex dq n.
Proof. intro H. apply hex_iff in H. discriminate H. Qed.
Lemma low_follows_app s r : low_follows s -> low_follows (s ++ r).
Proof. intros (n & t & q & H1 & H2 & ->). exists n, t, (q ++ r). rewrite append_assoc. auto. Qed.
Lemma low_follows_quote s r : low_follows (s ++ String dq r) -> low_follows s.
Proof.
  intros (n & t & q & HN & HU & E). pose proof HU as (h1 & h2 & h3 & h4 & a & b & c & d & H1 & H2 & H3 & H4 & _ & ET). exists n, t.
  rewrite ET in E. cbn [append] in E.
  assert (HX : forall h n z w, hex h n -> String dq z <> String h w) by (intros h m z w HH HE; injection HE as <- _; exact (hex_dq m HH)).
  destruct s as [|x1 s]; [discriminate E|]. cbn [append] in E. injection E as -> E.
  destruct s as [|x2 s]; [discriminate E|]. cbn [append] in E. injection E as -> E.
  destruct s as [|x3 s]; [destruct (HX _ _ _ _ H1 E)|]. cbn [append] in E. injection E as -> E.
  destruct s as [|x4 s]; [destruct (HX _ _ _ _ H2 E)|]. cbn [append] in E. injection E as -> E.
  destruct s as [|x5 s]; [destruct (HX _ _ _ _ H3 E)|]. cbn [append] in E. injection E as -> E.
  destruct s as [|x6 s]; [destruct (HX _ _ _ _ H4 E)|]. cbn [append] in E. injection E as -> E.
  exists s. split; [exact HN|]. split; [exact HU|]. rewrite ET. reflexivity.
Qed.
Lemma pair_iff b c d b' c' d' : (8 <= b < 12 -> 12 <= b' < 16 -> c < 16 -> d < 16 -> c' < 16 -> d' < 16 ->
  utf8_pair b c d b' c' d' = utf8_bytes (pair_point (code_point 13 b c d) (code_point 13 b' c' d')))%nat.
Proof.
  intros. unfold utf8_pair, utf8_bytes. cbv zeta.
  replace (65536 + 1024 * (256 * (N.of_nat b - 8) + 16 * N.of_nat c + N.of_nat d) + (256 * (N.of_nat b' - 12) + 16 * N.of_nat c' + N.of_nat d'))%N
    with (pair_point (code_point 13 b c d) (code_point 13 b' c' d')) by (unfold pair_point, code_point; lia).
  assert (HP : (65536 <= pair_point (code_point 13 b c d) (code_point 13 b' c' d'))%N) by (unfold pair_point; lia).
  destruct (N.ltb_spec (pair_point (code_point 13 b c d) (code_point 13 b' c' d')) 128); [lia|].
  destruct (N.ltb_spec (pair_point (code_point 13 b c d) (code_point 13 b' c' d')) 2048); [lia|].
  destruct (N.ltb_spec (pair_point (code_point 13 b c d) (code_point 13 b' c' d')) 65536); [lia|]. reflexivity.
Qed.
(** what a \u escape and the text after it give *)
Lemma parse_unit h1 h2 h3 h4 a b c d s : hex h1 a -> hex h2 b -> hex h3 c -> hex h4 d ->
  parse_str (unit_chars h1 h2 h3 h4 s) =
    if surrogate a b then
      match (if (b <? 12)%nat then low_half s else None) with
      | Some (b2, c2, d2) =>
        match s with
        | String _ (String _ (String _ (String _ (String _ (String _ s4))))) => read_before (utf8_pair b c d b2 c2 d2) (parse_str s4)
        | _ => None
        end
      | None => read_before replacement (parse_str s)
      end
    else read_before (utf8 a b c d) (parse_str s).
Proof.
  intros E1 E2 E3 E4. unfold unit_chars. cbn [parse_str]. change (Ascii.eqb bslash dq) with false. rewrite Ascii.eqb_refl. cbv iota.
  change (Ascii.eqb "u" dq) with false. change (Ascii.eqb "u" bslash) with false. change (Ascii.eqb "u" "/") with false.
  change (Ascii.eqb "u" "b") with false. change (Ascii.eqb "u" "f") with false. change (Ascii.eqb "u" "n") with false.
  change (Ascii.eqb "u" "r") with false. change (Ascii.eqb "u" "t") with false. change (Ascii.eqb "u" "u") with true. cbv iota.
  apply hex_iff in E1, E2, E3, E4. rewrite E1, E2, E3, E4. reflexivity.
Qed.
Lemma parse_chars x s : chars x s -> forall r, parse_str (s ++ String dq r) = Some (x, r).
Proof.
  induction 1 as [|c x s H1 H2 H3 HC IH|e c x s HE HC IH|n t x s HU N1 N2 HC IH|n m t t' x s HU HU' N1 N2 HC IH|n t x s HU HN HC IH]; intro r.
  - simpl. reflexivity.
  - simpl. apply Ascii.eqb_neq in H2, H3. rewrite H2, H3. destruct (Nat.ltb_spec (nat_of_ascii c) 32); [lia|]. rewrite IH. auto.
  - simpl append. cbn [parse_str]. change (Ascii.eqb bslash dq) with false. rewrite Ascii.eqb_refl. cbv iota. rewrite IH.
    simpl in HE. repeat (destruct HE as [HE|HE]; [injection HE; intros; subst; reflexivity|]). destruct HE.
  - destruct HU as (h1 & h2 & h3 & h4 & a & b & c & d & E1 & E2 & E3 & E4 & -> & ->).
    change ((String bslash (String "u" (String h1 (String h2 (String h3 (String h4 "")))) ) ++ s) ++ String dq r) with (unit_chars h1 h2 h3 h4 (s ++ String dq r)).
    rewrite (parse_unit _ _ _ _ a b c d _ E1 E2 E3 E4), IH. apply hex_bound in E1, E2, E3, E4. rewrite high_digits in N1 by auto. rewrite low_digits in N2 by auto.
    destruct (surrogate a b) eqn:ES; [apply surrogate_iff in ES; lia|]. cbn [read_before]. rewrite utf8_iff by auto. reflexivity.
  - destruct HU as (h1 & h2 & h3 & h4 & a & b & c & d & E1 & E2 & E3 & E4 & -> & ->).
    destruct HU' as (g1 & g2 & g3 & g4 & a' & b' & c' & d' & F1 & F2 & F3 & F4 & -> & ->).
    change ((String bslash (String "u" (String h1 (String h2 (String h3 (String h4 ""))))) ++ String bslash (String "u" (String g1 (String g2 (String g3 (String g4 ""))))) ++ s) ++ String dq r)
      with (unit_chars h1 h2 h3 h4 (unit_chars g1 g2 g3 g4 (s ++ String dq r))).
    rewrite (parse_unit _ _ _ _ a b c d _ E1 E2 E3 E4). apply hex_bound in E1, E2, E3, E4.
    apply high_digits in N1; auto. apply low_digits in N2; try (eapply hex_bound; eassumption). destruct N1 as [-> N1]. destruct N2 as [-> N2].
    assert (EL : low_half (unit_chars g1 g2 g3 g4 (s ++ String dq r)) = Some (b', c', d')) by (apply low_half_iff; exists g1, g2, g3, g4, (s ++ String dq r); auto 10).
    apply hex_bound in F1, F2, F3, F4.
    destruct (surrogate 13 b) eqn:ES; [|assert (surrogate 13 b = true) by (apply surrogate_iff; lia); congruence].
    destruct (Nat.ltb_spec b 12); [|lia]. rewrite EL. unfold unit_chars at 1. rewrite IH. cbn [read_before]. rewrite pair_iff by lia. reflexivity.
  - destruct HU as (h1 & h2 & h3 & h4 & a & b & c & d & E1 & E2 & E3 & E4 & -> & ->).
    change ((String bslash (String "u" (String h1 (String h2 (String h3 (String h4 "")))) ) ++ s) ++ String dq r) with (unit_chars h1 h2 h3 h4 (s ++ String dq r)).
    rewrite (parse_unit _ _ _ _ a b c d _ E1 E2 E3 E4). apply hex_bound in E1, E2, E3, E4. rewrite high_digits, low_digits in HN by auto.
    destruct (surrogate a b) eqn:ES; [|assert (surrogate a b = true) by (apply surrogate_iff; lia); congruence].
    assert (EN : (if (b <? 12)%nat then low_half (s ++ String dq r) else None) = None).
    { destruct (Nat.ltb_spec b 12); auto. apply no_low. intro HF. apply low_follows_quote in HF. destruct HN as [HN|[_ HN]]; [lia|contradiction]. }
    rewrite EN, IH. reflexivity.
Qed.

(** ** Numbers *)
Lemma is_digit_iff c : is_digit c = true <-> digit_char c.
Proof. unfold is_digit, digit_char. rewrite andb_true_iff, !Nat.leb_le. tauto. Qed.
Definition no_digit (s : string) : Prop := match s with String c _ => ~ digit_char c | EmptyString => True end.
Lemma span_digits_app d s : all_chars digit_char d -> no_digit s -> span_digits (d ++ s) = (d, s).
Proof.
  induction d as [|c d IH]; intros HD HN.
  - simpl. destruct s as [|c s]; [auto|]. simpl. simpl in HN. destruct (is_digit c) eqn:E; [apply is_digit_iff in E; tauto|auto].
  - destruct HD as [H1 H2]. simpl. apply is_digit_iff in H1. rewrite H1. rewrite IH; auto.
Qed.
(** what may follow a value *)
Definition stop (s : string) : Prop :=
  match s with EmptyString => True | String c _ => space_char c \/ In c [","%char; "]"%char; "}"%char] end.
Lemma stop_no_digit s : stop s -> no_digit s.
Proof.
  destruct s as [|c s]; simpl; auto. unfold space_char, digit_char. intros [H|[H|[H|[H|[]]]]] [H1 H2]; subst.
  - simpl in H. lia.
  - vm_compute in H1. lia.
  - vm_compute in H2. lia.
  - vm_compute in H2. lia.
Qed.
Lemma stop_exp s : stop s -> match s with
              | String e r =>
                if Ascii.eqb e "e" || Ascii.eqb e "E" then
                  let (sg, r1) := match r with
                                  | String g r' => if Ascii.eqb g "+" || Ascii.eqb g "-"
                                                   then (String g "", r') else ("", r)
                                  | EmptyString => ("", r)
                                  end in
                  let (d, r2) := span_digits r1 in
                  if nonempty d then Some (String e (sg ++ d), r2) else None
                else Some ("", s)
              | EmptyString => Some ("", s)
              end = Some ("", s).
Proof.
  destruct s as [|c s]; simpl; auto. intro H.
  destruct (Ascii.eqb c "e") eqn:E1; [apply Ascii.eqb_eq in E1; subst c; exfalso; unfold space_char in H; simpl in H; intuition (try discriminate; try lia)|].
  destruct (Ascii.eqb c "E") eqn:E2; [apply Ascii.eqb_eq in E2; subst c; exfalso; unfold space_char in H; simpl in H; intuition (try discriminate; try lia)|].
  auto.
Qed.

Lemma lex_number_text t r : number_text t -> stop r -> lex_number (t ++ r) = Some (t, r).
Proof.
  intros (sg & i & f & e & HS & ((I1 & I2) & I3) & HF & HE & ->) HR. unfold lex_number.
  assert (E0 : match (sg ++ i ++ f ++ e) ++ r with String "-" x => ("-", x) | _ => ("", (sg ++ i ++ f ++ e) ++ r) end = (sg, i ++ f ++ e ++ r)).
  { rewrite !append_assoc. destruct HS as [<-|[<-|[]]]; [|reflexivity].
    destruct i as [|c i]; [congruence|]. destruct I2 as [I2 _]. simpl. unfold digit_char in I2.
    destruct c as [[] [] [] [] [] [] [] []]; try reflexivity. vm_compute in I2. lia. }
  rewrite E0. clear E0.
  assert (HN : no_digit (f ++ e ++ r)).
  { destruct HF as [->|(d & _ & ->)]; [|simpl; intros [HA HB]; vm_compute in HA, HB; lia].
    destruct HE as [->|(x & y & d & HX & _ & _ & ->)]; [apply stop_no_digit; auto|].
    destruct HX as [<-|[<-|[]]]; simpl; intros [HA HB]; vm_compute in HA, HB; lia. }
  rewrite (span_digits_app i _ I2 HN).
  assert (EI : match i with EmptyString => false | String "0" (String _ _) => false | _ => true end = true).
  { destruct i as [|c i]; [congruence|]. destruct I3 as [I3|I3]; [injection I3; intros -> ->; reflexivity|].
    destruct c as [[] [] [] [] [] [] [] []]; try reflexivity. exfalso. apply I3. eexists. reflexivity. }
  rewrite EI. cbn [negb]. clear EI HN.
  assert (HN2 : no_digit (e ++ r)).
  { destruct HE as [->|(x & y & d & HX & _ & _ & ->)]; [apply stop_no_digit; auto|].
    destruct HX as [<-|[<-|[]]]; simpl; intros [HA HB]; vm_compute in HA, HB; lia. }
  assert (HND : forall c x, e ++ r = String c x -> c <> "."%char).
  { intros c x EX ->. destruct HE as [->|(x1 & y & d & HX & _ & _ & ->)].
    - simpl in EX. subst r. simpl in HR. unfold space_char in HR. simpl in HR. intuition (try discriminate; try lia).
    - destruct HX as [<-|[<-|[]]]; discriminate. }
  assert (EF : match f ++ e ++ r with
               | String "." x => let (f0, r') := span_digits x in if nonempty f0 then Some ("." ++ f0, r') else None
               | _ => Some ("", f ++ e ++ r)
               end = Some (f, e ++ r)).
  { destruct HF as [->|(d & (D1 & D2) & ->)].
    - simpl append. destruct (e ++ r) as [|c x] eqn:EX; [auto|]. specialize (HND _ _ eq_refl).
      destruct c as [[] [] [] [] [] [] [] []]; try reflexivity. congruence.
    - simpl append. cbv iota beta. rewrite (span_digits_app d _ D2 HN2). destruct d; [congruence|]. reflexivity. }
  rewrite EF. clear EF.
  destruct HE as [->|(x & y & d & HX & HY & (D1 & D2) & ->)].
  - change ("" ++ r) with r. rewrite (stop_exp r HR). rewrite !append_nil_r. rewrite <- append_assoc. reflexivity.
  - destruct d as [|d0 d]; [congruence|]. pose proof (span_digits_app (String d0 d) r D2 (stop_no_digit r HR)) as HSP.
    assert (HD0 : Ascii.eqb d0 "+" || Ascii.eqb d0 "-" = false).
    { destruct D2 as [D2 _]. unfold digit_char in D2. destruct (Ascii.eqb d0 "+") eqn:E1; [apply Ascii.eqb_eq in E1; subst; vm_compute in D2; lia|].
      destruct (Ascii.eqb d0 "-") eqn:E2; [apply Ascii.eqb_eq in E2; subst; vm_compute in D2; lia|]. auto. }
    destruct HX as [<-|[<-|[]]]; destruct HY as [<-|[<-|[<-|[]]]]; rewrite !append_assoc; simpl append in *; cbn [Ascii.eqb orb Bool.eqb] in *;
      try rewrite HD0; cbn [Ascii.eqb orb Bool.eqb]; rewrite HSP; cbn [nonempty]; rewrite ?append_assoc; reflexivity.
Qed.

Lemma number_start t : number_text t -> exists c r, t = String c r /\ (c = "-"%char \/ digit_char c).
Proof.
  intros (sg & i & f & e & HS & ((I1 & I2) & I3) & HF & HE & ->). destruct HS as [<-|[<-|[]]].
  - destruct i as [|c i]; [congruence|]. destruct I2 as [I2 _]. exists c, (i ++ f ++ e). auto.
  - exists "-"%char, (i ++ f ++ e). auto.
Qed.

(** ** Values *)
Section WithLib.
Variable L : Lib.

Lemma text_start v s : text L v s -> exists c r, s = String c r /\ ~ space_char c /\ c <> "]"%char /\ c <> "}"%char.
Proof.
  unfold space_char. intro H. destruct H as [| | |x s H|s f H HP|w H|vs s H|w H|kvs s H];
    try (eexists; eexists; split; [reflexivity|]; simpl; intuition discriminate).
  apply number_start in H. destruct H as (c & r & -> & HC). exists c, r. split; auto. unfold digit_char in HC. simpl.
  destruct HC as [->|HC]; [simpl; intuition (try discriminate; try lia)|]. repeat split; try (intro; subst; vm_compute in HC; lia). intuition lia.
Qed.
Lemma text_solid v s : text L v s -> solid s.
Proof. intro H. apply text_start in H. destruct H as (c & r & E & H & _). exists c, r. auto. Qed.

(** one step of the decoder *)
Lemma parse_value_S f s : parse_value L (S f) s =
    match skip_ws s with
    | EmptyString => None
    | String c s' =>
      if Ascii.eqb c "{" then
        match starts_with "}" (skip_ws s') with Some r => Some (GMapS [], r) | None => parse_members L f [] s' end
      else if Ascii.eqb c "[" then
        match starts_with "]" (skip_ws s') with Some r => Some (GArr [], r) | None => parse_elems L f s' end
      else if Ascii.eqb c dq then match parse_str s' with Some (x, r) => Some (GStr x, r) | None => None end
      else if has_prefix (String c s') "true" then Some (GBool true, drop 4 (String c s'))
      else if has_prefix (String c s') "false" then Some (GBool false, drop 5 (String c s'))
      else if has_prefix (String c s') "null" then Some (GNil, drop 4 (String c s'))
      else match lex_number (String c s') with
           | Some (t, r) => match parse_float L t with Some x => Some (GFloat x, r) | None => None end
           | None => None
           end
    end.
Proof. reflexivity. Qed.
Lemma parse_elems_S f s : parse_elems L (S f) s =
    match parse_value L f s with
    | None => None
    | Some (v, r) =>
      match skip_ws r with
      | String c r' =>
        if Ascii.eqb c "]" then Some (GArr [v], r')
        else if Ascii.eqb c "," then match parse_elems L f r' with Some (GArr vs, r'') => Some (GArr (v :: vs), r'') | _ => None end
        else None
      | EmptyString => None
      end
    end.
Proof. reflexivity. Qed.
Lemma parse_members_S f acc s : parse_members L (S f) acc s =
    match starts_with dq (skip_ws s) with
    | None => None
    | Some s1 =>
      match parse_str s1 with
      | None => None
      | Some (k, s2) =>
        match starts_with ":" (skip_ws s2) with
        | None => None
        | Some s3 =>
          match parse_value L f s3 with
          | None => None
          | Some (v, r) =>
            match skip_ws r with
            | String c r' =>
              if Ascii.eqb c "}" then Some (GMapS (upsert k v acc), r')
              else if Ascii.eqb c "," then parse_members L f (upsert k v acc) r' else None
            | EmptyString => None
            end
          end
        end
      end
    end.
Proof. reflexivity. Qed.

Lemma parse_spaces f w s : spaces w -> parse_value L f (w ++ s) = parse_value L f s.
Proof. intro HW. destruct f; [auto|]. rewrite parse_value_S. rewrite (skip_spaces w s HW). auto. Qed.
Lemma stop_spaces w s : spaces w -> stop s -> stop (w ++ s).
Proof. destruct w as [|c w]; [auto|]. intros [H _] _. simpl. auto. Qed.
Lemma stop_sep c s : In c [","%char; "]"%char; "}"%char] -> stop (String c s).
Proof. simpl. auto. Qed.
Lemma skip_sep c s : In c [","%char; "]"%char; "}"%char; ":"%char; dq] -> skip_ws (String c s) = String c s.
Proof. intro H. simpl in H. repeat (destruct H as [<-|H]; [reflexivity|]). destruct H. Qed.

Lemma parse_number f s x r : number_text s -> parse_float L s = Some x -> stop r -> parse_value L (S f) (s ++ r) = Some (GFloat x, r).
Proof.
  intros HN HP HR. pose proof (number_start s HN) as (c & y & E & HC).
  assert (HS : solid s).
  { exists c, y. split; auto. unfold space_char. unfold digit_char in HC. destruct HC as [->|HC]; simpl; intuition (try discriminate; try lia). }
  rewrite parse_value_S. rewrite (skip_solid s r HS). rewrite E. simpl append. cbv iota.
  assert (H1 : Ascii.eqb c "{" = false) by (apply Ascii.eqb_neq; intros ->; destruct HC as [HC|HC]; [discriminate|vm_compute in HC; lia]).
  assert (H2 : Ascii.eqb c "[" = false) by (apply Ascii.eqb_neq; intros ->; destruct HC as [HC|HC]; [discriminate|vm_compute in HC; lia]).
  assert (H3 : Ascii.eqb c dq = false) by (apply Ascii.eqb_neq; intros ->; destruct HC as [HC|HC]; [discriminate|vm_compute in HC; lia]).
  rewrite H1, H2, H3.
  assert (HW : forall d w, d <> "-"%char -> ~ digit_char d -> has_prefix (String c (y ++ r)) (String d w) = false).
  { intros d w D1 D2. destruct (has_prefix _ _) eqn:EP; auto. apply has_prefix_iff in EP. destruct EP as [z EZ]. injection EZ; intros; subst.
    destruct HC; congruence. }
  rewrite !HW by (try discriminate; intros [HA HB]; vm_compute in HA, HB; lia).
  change (String c (y ++ r)) with (String c y ++ r). rewrite <- E. rewrite (lex_number_text s r HN HR), HP. auto.
Qed.

Lemma parse_all :
  (forall v s, text L v s -> forall f r, (2 * String.length s <= f)%nat -> stop r -> parse_value L f (s ++ r) = Some (v, r)) /\
  (forall vs s, elements L vs s -> forall f r, (2 * String.length s + 1 <= f)%nat -> parse_elems L f (s ++ String "]" r) = Some (GArr vs, r)) /\
  (forall kvs s, members L kvs s -> forall f acc r, (2 * String.length s + 1 <= f)%nat ->
     parse_members L f acc (s ++ String "}" r) = Some (GMapS (fold_left (fun acc kv => upsert (fst kv) (snd kv) acc) kvs acc), r)).
Proof.
  apply json_mind.
  - intros f r HL _. destruct f; [simpl in HL; lia|]. destruct r; reflexivity.
  - intros f r HL _. destruct f; [simpl in HL; lia|]. destruct r; reflexivity.
  - intros f r HL _. destruct f; [simpl in HL; lia|]. destruct r; reflexivity.
  - intros x s HC f r HL _. destruct f; [simpl in HL; lia|]. change (dqs ++ s ++ dqs) with (String dq (s ++ dqs)).
    simpl append. rewrite parse_value_S. change (skip_ws (String dq ((s ++ dqs) ++ r))) with (String dq ((s ++ dqs) ++ r)). cbv iota.
    change (Ascii.eqb dq "{") with false. change (Ascii.eqb dq "[") with false. rewrite Ascii.eqb_refl. cbv iota.
    rewrite append_assoc. change (dqs ++ r) with (String dq r). rewrite (parse_chars x s HC). auto.
  - intros s x HN HP f r HL HR. destruct f; [|apply parse_number; auto].
    apply number_start in HN. destruct HN as (c & y & -> & _). simpl in HL. lia.
  - intros w HW f r HL _. destruct f; [simpl in HL; lia|]. change (("[" ++ w ++ "]") ++ r) with (String "[" ((w ++ "]") ++ r)).
    rewrite parse_value_S. change (skip_ws (String "[" ((w ++ "]") ++ r))) with (String "[" ((w ++ "]") ++ r)). cbv iota.
    change (Ascii.eqb "[" "{") with false. change (Ascii.eqb "[" "[") with true. cbv iota.
    rewrite append_assoc, (skip_spaces w _ HW). reflexivity.
  - intros vs s HE IH f r HL _. destruct f; [simpl in HL; lia|]. change (("[" ++ s ++ "]") ++ r) with (String "[" ((s ++ "]") ++ r)).
    rewrite parse_value_S. change (skip_ws (String "[" ((s ++ "]") ++ r))) with (String "[" ((s ++ "]") ++ r)). cbv iota.
    change (Ascii.eqb "[" "{") with false. change (Ascii.eqb "[" "[") with true. cbv iota.
    rewrite append_assoc. change ("]" ++ r) with (String "]" r).
    assert (HN : starts_with "]" (skip_ws (s ++ String "]" r)) = None).
    { assert (HX : exists v t w z, spaces w /\ text L v t /\ s = w ++ t ++ z) by (destruct HE; repeat eexists; eauto).
      destruct HX as (v & t & w & z & HW & HT & ->). rewrite !append_assoc. rewrite (skip_spaces w _ HW), (skip_solid t _ (text_solid _ _ HT)).
      apply text_start in HT. destruct HT as (c & y & -> & _ & H1 & _). cbn [append starts_with]. apply not_eq_sym, Ascii.eqb_neq in H1. rewrite H1. auto. }
    rewrite HN. apply IH. simpl in HL. rewrite length_append in HL. simpl in HL. lia.
  - intros w HW f r HL _. destruct f; [simpl in HL; lia|]. change (("{" ++ w ++ "}") ++ r) with (String "{" ((w ++ "}") ++ r)).
    rewrite parse_value_S. change (skip_ws (String "{" ((w ++ "}") ++ r))) with (String "{" ((w ++ "}") ++ r)). cbv iota.
    change (Ascii.eqb "{" "{") with true. cbv iota.
    rewrite append_assoc, (skip_spaces w _ HW). reflexivity.
  - intros kvs s HM IH f r HL _. destruct f; [simpl in HL; lia|]. change (("{" ++ s ++ "}") ++ r) with (String "{" ((s ++ "}") ++ r)).
    rewrite parse_value_S. change (skip_ws (String "{" ((s ++ "}") ++ r))) with (String "{" ((s ++ "}") ++ r)). cbv iota.
    change (Ascii.eqb "{" "{") with true. cbv iota.
    rewrite append_assoc. change ("}" ++ r) with (String "}" r).
    assert (HN : starts_with "}" (skip_ws (s ++ String "}" r)) = None).
    { assert (HX : exists w z, spaces w /\ s = w ++ String dq z).
      { destruct HM as [k ks v s w1 w2 w3 w4 H1|k ks v s w1 w2 w3 w4 kvs s' H1]; exists w1; eexists; (split; [exact H1|reflexivity]). }
      destruct HX as (w & z & HW & ->). rewrite !append_assoc. rewrite (skip_spaces w _ HW). reflexivity. }
    rewrite HN. unfold object. apply IH. simpl in HL. rewrite length_append in HL. simpl in HL. lia.
  - intros v s w1 w2 HW1 HW2 HT IH f r HL. destruct f; [simpl in HL; lia|]. rewrite !length_append in HL.
    rewrite parse_elems_S. rewrite !append_assoc. rewrite (parse_spaces f w1 _ HW1).
    rewrite IH; [|lia|apply stop_spaces; auto; apply stop_sep; simpl; auto].
    rewrite (skip_spaces w2 _ HW2), skip_sep by (simpl; auto). reflexivity.
  - intros v s w1 w2 vs s' HW1 HW2 HT IH HE IHE f r HL. destruct f; [simpl in HL; lia|]. rewrite !length_append in HL. simpl in HL.
    rewrite parse_elems_S. rewrite !append_assoc. rewrite (parse_spaces f w1 _ HW1).
    change ("," ++ s' ++ String "]" r) with (String "," (s' ++ String "]" r)).
    rewrite IH; [|lia|apply stop_spaces; auto; apply stop_sep; simpl; auto].
    rewrite (skip_spaces w2 _ HW2), skip_sep by (simpl; auto).
    change (Ascii.eqb "," "]") with false. change (Ascii.eqb "," ",") with true. cbv iota. rewrite IHE; [auto|lia].
  - intros k ks v s w1 w2 w3 w4 HW1 HW2 HW3 HW4 HK HT IH f acc r HL. destruct f; [simpl in HL; lia|].
    rewrite !length_append in HL. simpl in HL. rewrite parse_members_S. rewrite !append_assoc.
    rewrite (skip_spaces w1 _ HW1). 
    match goal with |- context [dqs ++ ks ++ dqs ++ ?a] => change (dqs ++ ks ++ dqs ++ a) with (String dq (ks ++ String dq a)) end.
    rewrite skip_sep by (simpl; auto 10). cbn [starts_with]. rewrite Ascii.eqb_refl. rewrite (parse_chars k ks HK).
    rewrite (skip_spaces w2 _ HW2).
    match goal with |- context [":" ++ ?a] => change (":" ++ a) with (String ":" a) end.
    rewrite skip_sep by (simpl; auto 10). cbn [starts_with]. rewrite Ascii.eqb_refl. rewrite (parse_spaces f w3 _ HW3).
    rewrite IH; [|lia|apply stop_spaces; auto; apply stop_sep; simpl; auto].
    rewrite (skip_spaces w4 _ HW4), skip_sep by (simpl; auto). reflexivity.
  - intros k ks v s w1 w2 w3 w4 kvs s' HW1 HW2 HW3 HW4 HK HT IH HM IHM f acc r HL. destruct f; [simpl in HL; lia|].
    rewrite !length_append in HL. simpl in HL. rewrite parse_members_S. rewrite !append_assoc.
    rewrite (skip_spaces w1 _ HW1).
    match goal with |- context [dqs ++ ks ++ dqs ++ ?a] => change (dqs ++ ks ++ dqs ++ a) with (String dq (ks ++ String dq a)) end.
    rewrite skip_sep by (simpl; auto 10). cbn [starts_with]. rewrite Ascii.eqb_refl. rewrite (parse_chars k ks HK).
    rewrite (skip_spaces w2 _ HW2).
    match goal with |- context [":" ++ ?a] => change (":" ++ a) with (String ":" a) end.
    rewrite skip_sep by (simpl; auto 10). cbn [starts_with]. rewrite Ascii.eqb_refl. rewrite (parse_spaces f w3 _ HW3).
    change ("," ++ s' ++ String "}" r) with (String "," (s' ++ String "}" r)).
    rewrite IH; [|lia|apply stop_spaces; auto; apply stop_sep; simpl; auto].
    rewrite (skip_spaces w4 _ HW4), skip_sep by (simpl; auto).
    change (Ascii.eqb "," "}") with false. change (Ascii.eqb "," ",") with true. cbv iota. rewrite IHM; [auto|lia].
Qed.

Lemma document_parses v s : document L v s -> json_parse L s = Some v.
Proof.
  intros (w1 & t & w2 & H1 & H2 & HT & ->). unfold json_parse. rewrite (parse_spaces _ w1 _ H1).
  rewrite (proj1 parse_all v t HT); [|rewrite !length_append; lia|].
  - replace w2 with (w2 ++ "") by apply append_nil_r. rewrite (skip_spaces w2 "" H2). auto.
  - replace w2 with (w2 ++ "") by apply append_nil_r. apply stop_spaces; simpl; auto.
Qed.

(** ** Only such texts are accepted *)
Lemma skip_split s : exists w, spaces w /\ s = w ++ skip_ws s.
Proof.
  induction s as [|c s IH]; [exists ""; split; [exact I|reflexivity]|]. destruct IH as (w & HW & E). simpl. destruct (is_json_ws c) eqn:EC.
  - exists (String c w). split; [split; [apply is_ws_iff|]; auto|]. simpl. f_equal. exact E.
  - exists "". split; [exact I|reflexivity].
Qed.

Lemma chars_parse n : forall s x r, (String.length s <= n)%nat -> parse_str s = Some (x, r) -> exists t, chars x t /\ s = t ++ String dq r.
Proof.
  induction n as [|n IH]; intros s x r HL HP; [destruct s; [discriminate|simpl in HL; lia]|].
  destruct s as [|c s1]; [discriminate|]. cbn [parse_str] in HP. simpl in HL.
  destruct (Ascii.eqb c dq) eqn:E1.
  - apply Ascii.eqb_eq in E1. injection HP; intros; subst. exists "". split; [constructor|reflexivity].
  - destruct (Ascii.eqb c bslash) eqn:E2.
    + apply Ascii.eqb_eq in E2. subst c. destruct s1 as [|e s2]; [discriminate|]. simpl in HL.
      assert (HK : forall c, In (e, c) escapes -> match parse_str s2 with Some (x, rest) => Some (String c x, rest) | None => None end = Some (x, r) ->
        exists t, chars x t /\ String bslash (String e s2) = t ++ String dq r).
      { intros c HI HX. destruct (parse_str s2) as [[y rest]|] eqn:EP; [|discriminate]. injection HX; intros; subst.
        destruct (IH s2 y r ltac:(lia) EP) as (t & HT & ->). exists (String bslash (String e t)). split; [constructor; auto|reflexivity]. }
      cbv zeta in HP.
      repeat match type of HP with
      | (if Ascii.eqb e ?k then match parse_str s2 with _ => _ end else _) = _ =>
        let E := fresh "E" in destruct (Ascii.eqb e k) eqn:E;
        [apply Ascii.eqb_eq in E; subst e; eapply HK; [|exact HP]; simpl; tauto|]
      end.
      destruct (Ascii.eqb e "u") eqn:EU; [|discriminate]. apply Ascii.eqb_eq in EU. subst e.
      destruct s2 as [|h1 [|h2 [|h3 [|h4 s3]]]]; try discriminate. simpl in HL.
      destruct (hex_val h1) as [a|] eqn:H1; [|discriminate]. destruct (hex_val h2) as [b|] eqn:H2; [|discriminate].
      destruct (hex_val h3) as [c|] eqn:H3; [|discriminate]. destruct (hex_val h4) as [d|] eqn:H4; [|discriminate].
      apply hex_iff in H1, H2, H3, H4.
      assert (HU : unit_text (code_point a b c d) (unit_chars h1 h2 h3 h4 "")) by (exists h1, h2, h3, h4, a, b, c, d; auto 10).
      pose proof (hex_bound _ _ H1). pose proof (hex_bound _ _ H2). pose proof (hex_bound _ _ H3). pose proof (hex_bound _ _ H4).
      assert (HB : forall u s' z, (String.length s' <= n)%nat -> read_before u (parse_str s') = Some (x, z) ->
        exists y t, x = u ++ y /\ chars y t /\ s' = t ++ String dq z).
      { intros u s' z HL' HX. destruct (parse_str s') as [[y rest]|] eqn:EP; [|discriminate]. injection HX as <- <-.
        destruct (IH s' y rest HL' EP) as (t & HT & ->). exists y, t. auto. }
      destruct (surrogate a b) eqn:ES.
      * apply surrogate_iff in ES. destruct ES as [-> ES].
        destruct (if (b <? 12)%nat then low_half s3 else None) as [[[b2 c2] d2]|] eqn:EL.
        -- destruct (Nat.ltb_spec b 12); [|discriminate]. apply low_half_iff in EL.
           destruct EL as (g1 & g2 & g3 & g4 & q & F1 & F2 & F3 & F4 & HB2 & ->). unfold unit_chars at 1 in HP.
           apply HB in HP; [|unfold unit_chars in HL; simpl in HL; lia]. destruct HP as (y & t & -> & HT & ->).
           exists (unit_chars h1 h2 h3 h4 "" ++ unit_chars g1 g2 g3 g4 "" ++ t). split; [|reflexivity].
           pose proof (hex_bound _ _ F2). pose proof (hex_bound _ _ F3). pose proof (hex_bound _ _ F4).
           rewrite pair_iff by lia. apply cs_pair; auto.
           ++ exists g1, g2, g3, g4, 13%nat, b2, c2, d2. auto 10.
           ++ apply high_digits; auto.
           ++ apply low_digits; auto.
        -- apply HB in HP; [|lia]. destruct HP as (y & t & -> & HT & ->).
           exists (unit_chars h1 h2 h3 h4 "" ++ t). split; [|reflexivity]. change replacement with (utf8_bytes 65533). apply (cs_lone (code_point 13 b c d)); auto.
           destruct (Nat.ltb_spec b 12); [right|left; apply low_digits; auto].
           split; [apply high_digits; auto|]. intro HF. apply no_low in EL. apply EL. apply low_follows_app. exact HF.
      * apply HB in HP; [|lia]. destruct HP as (y & t & -> & HT & ->).
        assert (ES' : ~ (a = 13 /\ 8 <= b)%nat) by (rewrite <- surrogate_iff, ES; discriminate).
        exists (unit_chars h1 h2 h3 h4 "" ++ t). split; [|reflexivity]. rewrite utf8_iff by auto. apply cs_unicode; auto.
        -- rewrite high_digits by auto. lia.
        -- rewrite low_digits by auto. lia.
    + destruct (Nat.ltb_spec (nat_of_ascii c) 32) as [HC|HC]; [discriminate|].
      destruct (parse_str s1) as [[y rest]|] eqn:EP; [|discriminate]. injection HP; intros; subst.
      destruct (IH s1 y r ltac:(lia) EP) as (t & HT & ->). apply Ascii.eqb_neq in E1, E2.
      exists (String c t). split; [constructor; auto|reflexivity].
Qed.

Lemma span_digits_split s : forall d r, span_digits s = (d, r) -> all_chars digit_char d /\ s = d ++ r.
Proof.
  induction s as [|c s IH]; intros d r H; simpl in H.
  - injection H; intros; subst. simpl. auto.
  - destruct (is_digit c) eqn:EC.
    + destruct (span_digits s) as [a b]. specialize (IH a b eq_refl). destruct IH as [H1 ->]. injection H; intros; subst.
      split; [split; [apply is_digit_iff|]; auto|reflexivity].
    + injection H; intros; subst. simpl. auto.
Qed.
Lemma nonempty_iff s : nonempty s = true <-> s <> "".
Proof. destruct s; simpl; intuition congruence. Qed.

Lemma lex_number_only s t r : lex_number s = Some (t, r) -> number_text t /\ s = t ++ r.
Proof.
  unfold lex_number. intro H.
  destruct (match s with String "-" x => ("-", x) | _ => ("", s) end) as [sg s1] eqn:ES.
  assert (HS : In sg [""; "-"] /\ s = sg ++ s1).
  { destruct s as [|c s]; [injection ES; intros; subst; simpl; auto|].
    destruct c as [[] [] [] [] [] [] [] []]; injection ES; intros; subst; simpl; auto. }
  destruct HS as [HS ->]. clear ES.
  destruct (span_digits s1) as [i s2] eqn:EI. apply span_digits_split in EI. destruct EI as [HI ->].
  destruct (match i with EmptyString => false | String "0" (String _ _) => false | _ => true end) eqn:EI; [|discriminate].
  assert (HI2 : int_text i).
  { split; [split; [destruct i; congruence|exact HI]|]. destruct i as [|c i]; [discriminate|].
    destruct (Ascii.eqb c "0") eqn:E0; [apply Ascii.eqb_eq in E0; subst c|].
    - destruct i; [auto|discriminate].
    - right. intros [x E]. injection E; intros; subst. discriminate. }
  cbn [negb] in H.
  destruct (match s2 with
              | String "." r => let (f, r') := span_digits r in if nonempty f then Some ("." ++ f, r') else None
              | _ => Some ("", s2)
              end) as [[f s3]|] eqn:EF; [|discriminate].
  assert (HF : frac_text f /\ s2 = f ++ s3).
  { destruct s2 as [|c s2]; [injection EF; intros; subst; simpl; unfold frac_text; auto|].
    assert (HX : Some ("", String c s2) = Some (f, s3) -> frac_text f /\ String c s2 = f ++ s3).
    { intro HX. injection HX; intros; subst. unfold frac_text. auto. }
    destruct c as [[] [] [] [] [] [] [] []]; try (apply HX; exact EF).
    destruct (span_digits s2) as [d r'] eqn:ED. apply span_digits_split in ED. destruct ED as [HD ->].
    destruct (nonempty d) eqn:EN; [|discriminate]. apply nonempty_iff in EN. injection EF; intros; subst.
    split; [right; exists d; repeat split; auto|reflexivity]. }
  destruct HF as [HF ->]. clear EF.
  destruct (match s3 with
              | String e r =>
                if Ascii.eqb e "e" || Ascii.eqb e "E" then
                  let (sg, r1) := match r with
                                  | String g r' => if Ascii.eqb g "+" || Ascii.eqb g "-"
                                                   then (String g "", r') else ("", r)
                                  | EmptyString => ("", r)
                                  end in
                  let (d, r2) := span_digits r1 in
                  if nonempty d then Some (String e (sg ++ d), r2) else None
                else Some ("", s3)
              | EmptyString => Some ("", s3)
              end) as [[e s4]|] eqn:EE; [|discriminate].
  assert (HE : exp_text e /\ s3 = e ++ s4).
  { destruct s3 as [|c s3]; [injection EE; intros; subst; simpl; unfold exp_text; auto|].
    destruct (Ascii.eqb c "e" || Ascii.eqb c "E") eqn:EC; [|injection EE; intros; subst; unfold exp_text; auto].
    destruct (match s3 with String g r' => if Ascii.eqb g "+" || Ascii.eqb g "-" then (String g "", r') else ("", s3) | EmptyString => ("", s3) end) as [sg2 r1] eqn:EG.
    assert (HG : In sg2 [""; "+"; "-"] /\ s3 = sg2 ++ r1).
    { destruct s3 as [|g s3]; [injection EG; intros; subst; simpl; auto|].
      destruct (Ascii.eqb g "+") eqn:E1; [apply Ascii.eqb_eq in E1; subst g; injection EG; intros; subst; simpl; auto|].
      destruct (Ascii.eqb g "-") eqn:E2; [apply Ascii.eqb_eq in E2; subst g; injection EG; intros; subst; simpl; auto|].
      injection EG; intros; subst; simpl; auto. }
    destruct HG as [HG ->]. destruct (span_digits r1) as [d r2] eqn:ED. apply span_digits_split in ED. destruct ED as [HD ->].
    destruct (nonempty d) eqn:EN; [|discriminate]. apply nonempty_iff in EN. injection EE; intros; subst.
    split; [|simpl; rewrite append_assoc; reflexivity]. right. exists (String c ""), sg2, d. repeat split; auto.
    apply orb_true_iff in EC. destruct EC as [EC|EC]; apply Ascii.eqb_eq in EC; subst; simpl; auto. }
  destruct HE as [HE ->]. injection H; intros; subst. split; [|rewrite !append_assoc; reflexivity].
  exists sg, i, f, e. repeat split; auto; try apply HI2.
Qed.

Lemma starts_with_iff c s r : starts_with c s = Some r <-> s = String c r.
Proof.
  destruct s as [|d s]; simpl; [split; discriminate|]. destruct (Ascii.eqb c d) eqn:E.
  - apply Ascii.eqb_eq in E. subst. split; congruence.
  - apply Ascii.eqb_neq in E. split; congruence.
Qed.

Lemma parse_only f :
  (forall s v r, parse_value L f s = Some (v, r) -> exists w t, spaces w /\ text L v t /\ s = w ++ t ++ r) /\
  (forall s x r, parse_elems L f s = Some (x, r) -> exists vs t, elements L vs t /\ x = GArr vs /\ s = t ++ String "]" r) /\
  (forall acc s x r, parse_members L f acc s = Some (x, r) ->
     exists kvs t, members L kvs t /\ x = GMapS (fold_left (fun acc kv => upsert (fst kv) (snd kv) acc) kvs acc) /\ s = t ++ String "}" r).
Proof.
  induction f as [|f (IHV & IHE & IHM)]; [repeat split; intros; discriminate|]. split; [|split].
  - intros s v r H. rewrite parse_value_S in H. destruct (skip_split s) as (w & HW & ES). exists w.
    destruct (skip_ws s) as [|c s'] eqn:EK; [discriminate|]. rewrite ES. clear ES EK s.
    cut (exists t, text L v t /\ String c s' = t ++ r).
    { intros (t & HT & E). exists t. rewrite E. auto. }
    destruct (Ascii.eqb c "{") eqn:E1; [apply Ascii.eqb_eq in E1; subst c|destruct (Ascii.eqb c "[") eqn:E2; [apply Ascii.eqb_eq in E2; subst c|
      destruct (Ascii.eqb c dq) eqn:E3; [apply Ascii.eqb_eq in E3; subst c|]]].
    + destruct (starts_with "}" (skip_ws s')) as [r'|] eqn:ES.
      * apply starts_with_iff in ES. injection H; intros; subst. destruct (skip_split s') as (w2 & HW2 & E). rewrite ES in E. subst s'.
        exists ("{" ++ w2 ++ "}"). split; [constructor; auto|]. rewrite !append_assoc. reflexivity.
      * apply IHM in H. destruct H as (kvs & t & HM & -> & ->). exists ("{" ++ t ++ "}"). split; [exact (tx_object L kvs t HM)|].
        rewrite !append_assoc. reflexivity.
    + destruct (starts_with "]" (skip_ws s')) as [r'|] eqn:ES.
      * apply starts_with_iff in ES. injection H; intros; subst. destruct (skip_split s') as (w2 & HW2 & E). rewrite ES in E. subst s'.
        exists ("[" ++ w2 ++ "]"). split; [constructor; auto|]. rewrite !append_assoc. reflexivity.
      * apply IHE in H. destruct H as (vs & t & HM & -> & ->). exists ("[" ++ t ++ "]"). split; [exact (tx_array L vs t HM)|].
        rewrite !append_assoc. reflexivity.
    + destruct (parse_str s') as [[x r']|] eqn:EP; [|discriminate]. injection H; intros; subst.
      destruct (chars_parse _ s' x r (le_n _) EP) as (t & HT & ->). exists (dqs ++ t ++ dqs). split; [constructor; auto|].
      rewrite !append_assoc. reflexivity.
    + destruct (has_prefix (String c s') "true") eqn:P1.
      { apply has_prefix_iff in P1. destruct P1 as [z E]. rewrite E in *. injection H; intros; subst. exists "true". split; [constructor|].
        reflexivity. }
      destruct (has_prefix (String c s') "false") eqn:P2.
      { apply has_prefix_iff in P2. destruct P2 as [z E]. rewrite E in *. injection H; intros; subst. exists "false". split; [constructor|].
        reflexivity. }
      destruct (has_prefix (String c s') "null") eqn:P3.
      { apply has_prefix_iff in P3. destruct P3 as [z E]. rewrite E in *. injection H; intros; subst. exists "null". split; [constructor|].
        reflexivity. }
      destruct (lex_number (String c s')) as [[t r']|] eqn:EN; [|discriminate]. destruct (parse_float L t) as [x|] eqn:EF; [|discriminate].
      injection H; intros; subst. apply lex_number_only in EN. destruct EN as [HN E]. exists t. split; [constructor; auto|exact E].
  - intros s x r H. rewrite parse_elems_S in H. destruct (parse_value L f s) as [[v r1]|] eqn:EV; [|discriminate].
    apply IHV in EV. destruct EV as (w & t & HW & HT & ->). destruct (skip_split r1) as (w2 & HW2 & E2).
    destruct (skip_ws r1) as [|c r2]; [discriminate|]. subst r1. destruct (Ascii.eqb c "]") eqn:E1.
    + apply Ascii.eqb_eq in E1. subst c. injection H; intros; subst. exists [v], (w ++ t ++ w2). split; [constructor; auto|].
      split; auto. rewrite !append_assoc. reflexivity.
    + destruct (Ascii.eqb c ",") eqn:E2; [|discriminate]. apply Ascii.eqb_eq in E2. subst c.
      destruct (parse_elems L f r2) as [[y r3]|] eqn:EE; [|discriminate]. apply IHE in EE. destruct EE as (vs & t2 & HE & -> & ->).
      injection H; intros; subst. exists (v :: vs), (w ++ t ++ w2 ++ "," ++ t2). split; [constructor; auto|]. split; auto.
      rewrite !append_assoc. reflexivity.
  - intros acc s x r H. rewrite parse_members_S in H. destruct (skip_split s) as (w1 & HW1 & E1).
    destruct (starts_with dq (skip_ws s)) as [s1|] eqn:ES; [|discriminate]. apply starts_with_iff in ES. rewrite ES in E1. clear ES. subst s.
    destruct (parse_str s1) as [[k s2]|] eqn:EP; [|discriminate]. destruct (chars_parse _ s1 k s2 (le_n _) EP) as (ks & HK & ->). clear EP.
    destruct (skip_split s2) as (w2 & HW2 & E2). destruct (starts_with ":" (skip_ws s2)) as [s3|] eqn:ES; [|discriminate].
    apply starts_with_iff in ES. rewrite ES in E2. clear ES. subst s2.
    destruct (parse_value L f s3) as [[v r1]|] eqn:EV; [|discriminate]. apply IHV in EV. destruct EV as (w3 & t & HW3 & HT & ->).
    destruct (skip_split r1) as (w4 & HW4 & E4). destruct (skip_ws r1) as [|c r2]; [discriminate|]. subst r1.
    destruct (Ascii.eqb c "}") eqn:E1.
    + apply Ascii.eqb_eq in E1. subst c. injection H; intros; subst.
      exists [(k, v)], (w1 ++ (dqs ++ ks ++ dqs) ++ w2 ++ ":" ++ w3 ++ t ++ w4). split; [constructor; auto|]. split; auto.
      rewrite !append_assoc. reflexivity.
    + destruct (Ascii.eqb c ",") eqn:E2; [|discriminate]. apply Ascii.eqb_eq in E2. subst c.
      apply IHM in H. destruct H as (kvs & t2 & HM & -> & ->).
      exists ((k, v) :: kvs), (w1 ++ (dqs ++ ks ++ dqs) ++ w2 ++ ":" ++ w3 ++ t ++ w4 ++ "," ++ t2). split; [constructor; auto|]. split; auto.
      rewrite !append_assoc. reflexivity.
Qed.

Lemma parse_iff s v : json_parse L s = Some v <-> document L v s.
Proof.
  split; [|apply document_parses]. unfold json_parse. intro H.
  destruct (parse_value L (2 * String.length s + 2) s) as [[v' r]|] eqn:EV; [|discriminate].
  destruct (skip_split r) as (w2 & HW2 & E2). destruct (skip_ws r); [|discriminate]. injection H; intros; subst v'.
  apply (proj1 (parse_only _)) in EV. destruct EV as (w & t & HW & HT & ->). rewrite append_nil_r in E2. subst r.
  exists w, t, w2. auto.
Qed.
End WithLib.
