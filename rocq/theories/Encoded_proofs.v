(** Proofs about the JSON texts of values (Spec_Encoded). *)
From Coq Require Import List String Ascii Bool Arith ZArith Permutation Sorted Lia.
From Verif Require Import Base GoStr GoStr_facts GoFloat Types Json StrUtils Validate Prepare Parse Eval Lifecycle Strings Spec_Tree Spec_Strings Strings_proofs
  Spec_Regex Spec_Glob Spec_Leaf Spec_Load Load_proofs Spec_Format Format_proofs Spec_Integer Integer_proofs Spec_Shown Shown_proofs
  Tree_laws Leaf_laws Spec_Cleaned Cleaned_proofs Spec_Encoded.
Import ListNotations.
Open Scope string_scope.

Lemma hex_iff c n : (n < 16)%nat -> hex_of c n <-> c = hex_digit n.
Proof.
  intro H. unfold hex_of. do 16 (destruct n as [|n]; [cbn; split; [intro E; injection E as <-; reflexivity|intros ->; reflexivity]|]). lia.
Qed.
Lemma hex_small c n : hex_of c n -> (n < 16)%nat.
Proof. unfold hex_of. intro H. do 16 (destruct n as [|n]; [lia|]). destruct n; discriminate H. Qed.

Lemma escape_one c : one_escaped c (json_escape_char c).
Proof.
  assert (HC : forall n, nat_of_ascii c = n -> (n / 16 < 16)%nat /\ n = (16 * (n / 16) + n mod 16)%nat /\ (n mod 16 < 16)%nat).
  { intros n <-. pose proof (nat_ascii_bounded c). split; [apply Nat.div_lt_upper_bound; lia|]. split; [apply Nat.div_mod; lia|apply Nat.mod_upper_bound; lia]. }
  destruct (HC _ eq_refl) as (H1 & H2 & H3). unfold json_escape_char.
  destruct (Ascii.eqb_spec c dq) as [->|N1]; [constructor; reflexivity|].
  destruct (Ascii.eqb_spec c bslash) as [->|N2]; [apply oe_back; reflexivity|].
  destruct (Nat.eqb_spec (nat_of_ascii c) 10) as [E|N3]; [apply oe_line; auto|].
  destruct (Nat.eqb_spec (nat_of_ascii c) 13) as [E|N4]; [apply oe_return; auto|].
  destruct (Nat.eqb_spec (nat_of_ascii c) 9) as [E|N5]; [apply oe_tab; auto|].
  destruct (_ || _ || _ || _) eqn:E.
  - apply (oe_code c _ _ (nat_of_ascii c / 16) (nat_of_ascii c mod 16)); [|apply hex_iff; auto|apply hex_iff; auto|auto].
    rewrite !orb_true_iff, !Ascii.eqb_eq, Nat.ltb_lt in E. cbn [In]. intuition (subst; auto).
  - rewrite !orb_false_iff, !Ascii.eqb_neq, Nat.ltb_ge in E. apply oe_same; [tauto|]. cbn [In]. intuition congruence.
Qed.
Lemma escape_unique c x : one_escaped c x -> x = json_escape_char c.
Proof.
  intro H. unfold json_escape_char.
  destruct H as [ -> | -> |E|E|E|a b i j HC HA HB E|H1 H2]; try reflexivity.
  - destruct (Ascii.eqb_spec c dq) as [->|_]; [discriminate E|]. destruct (Ascii.eqb_spec c bslash) as [->|_]; [discriminate E|]. rewrite E. reflexivity.
  - destruct (Ascii.eqb_spec c dq) as [->|_]; [discriminate E|]. destruct (Ascii.eqb_spec c bslash) as [->|_]; [discriminate E|]. rewrite E. reflexivity.
  - destruct (Ascii.eqb_spec c dq) as [->|_]; [discriminate E|]. destruct (Ascii.eqb_spec c bslash) as [->|_]; [discriminate E|]. rewrite E. reflexivity.
  - pose proof (hex_small _ _ HA) as SA. pose proof (hex_small _ _ HB) as SB. apply hex_iff in HA, HB; auto.
    assert (EI : (nat_of_ascii c / 16)%nat = i) by (rewrite E, Nat.mul_comm, Nat.div_add_l, Nat.div_small by lia; lia).
    assert (EJ : (nat_of_ascii c mod 16)%nat = j) by (rewrite E, Nat.add_comm, Nat.mul_comm, Nat.mod_add, Nat.mod_small by lia; lia).
    rewrite EI, EJ, <- HA, <- HB.
    destruct HC as [[HL HN]|HC].
    + cbn [In] in HN.
      destruct (Ascii.eqb_spec c dq) as [->|_]; [cbv in HL; lia|]. destruct (Ascii.eqb_spec c bslash) as [->|_]; [cbv in HL; lia|].
      destruct (Nat.eqb_spec (nat_of_ascii c) 10) as [?|_]; [exfalso; intuition lia|].
      destruct (Nat.eqb_spec (nat_of_ascii c) 13) as [?|_]; [exfalso; intuition lia|].
      destruct (Nat.eqb_spec (nat_of_ascii c) 9) as [?|_]; [exfalso; intuition lia|].
      apply Nat.ltb_lt in HL. rewrite HL. reflexivity.
    + destruct HC as [<-|[<-|[<-|[]]]]; reflexivity.
  - cbn [In] in H2.
    destruct (Ascii.eqb_spec c dq) as [->|_]; [exfalso; tauto|]. destruct (Ascii.eqb_spec c bslash) as [->|_]; [exfalso; tauto|].
    destruct (Nat.eqb_spec (nat_of_ascii c) 10) as [?|_]; [lia|]. destruct (Nat.eqb_spec (nat_of_ascii c) 13) as [?|_]; [lia|].
    destruct (Nat.eqb_spec (nat_of_ascii c) 9) as [?|_]; [lia|]. apply Nat.ltb_ge in H1. rewrite H1. cbn [orb].
    destruct (Ascii.eqb_spec c "<") as [->|_]; [exfalso; tauto|]. destruct (Ascii.eqb_spec c ">") as [->|_]; [exfalso; tauto|].
    destruct (Ascii.eqb_spec c "&") as [->|_]; [exfalso; tauto|]. reflexivity.
Qed.
Lemma escaped_iff s : forall t, escaped s t <-> t = json_escape s.
Proof.
  induction s as [|c s IH]; intro t.
  - split; [inversion 1; reflexivity|intros ->; constructor].
  - split.
    + inversion 1 as [|? ? x u H1 H2]; subst. apply IH in H2. apply escape_unique in H1. subst. reflexivity.
    + intros ->. cbn [json_escape]. constructor; [apply escape_one|apply IH; reflexivity].
Qed.
Lemma quoted_iff s t : quoted s t <-> json_string s = t.
Proof.
  unfold quoted, json_string. split.
  - intros (x & HX & ->). apply escaped_iff in HX. subst. reflexivity.
  - intros <-. exists (json_escape s). split; [apply escaped_iff|]; reflexivity.
Qed.

Lemma fields_iff (ts : list (string * string)) : forall ss,
  Forall2 (fun t s => exists k, quoted (fst t) k /\ s = k ++ ":" ++ snd t) ts ss <-> map (fun t => json_string (fst t) ++ ":" ++ snd t) ts = ss.
Proof.
  induction ts as [|t ts IH]; intro ss.
  - split; [inversion 1; reflexivity|intros <-; constructor].
  - split.
    + inversion 1 as [|? s ? ss' (k & HK & ->) HF]; subst. apply quoted_iff in HK. apply IH in HF. cbn [map]. rewrite HK, HF. reflexivity.
    + intros <-. constructor; [|apply IH; reflexivity]. exists (json_string (fst t)). split; [apply quoted_iff|]; reflexivity.
Qed.

Section WithLib.
Variable L : Lib.

Lemma values_encoded l : Forall (fun v => go_value v -> forall s, json_marshal L v = Some s <-> encoded L v s) l -> Forall go_value l ->
  forall ss, all_some (map (json_marshal L) l) = Some ss <-> Forall2 (encoded L) l ss.
Proof.
  intros IH HG. induction l as [|v l IHl]; intro ss.
  - cbn. split; [intro E; injection E as <-; constructor|]. inversion 1. reflexivity.
  - inversion IH as [|? ? H1 H2]; subst. inversion HG as [|? ? G1 G2]; subst. specialize (IHl H2 G2). specialize (H1 G1). cbn [map all_some]. split.
    + destruct (json_marshal L v) as [s|] eqn:E; [|discriminate]. destruct (all_some (map (json_marshal L) l)) as [xs|] eqn:EX; [|discriminate].
      intro HE. injection HE as <-. constructor; [apply H1; reflexivity|apply IHl; reflexivity].
    + inversion 1 as [|? s ? ss' HS HF]; subst. apply H1 in HS. apply IHl in HF. rewrite HS, HF. reflexivity.
Qed.
Lemma entries_encoded m : Forall (fun e : string * iface => go_value (snd e) -> forall s, json_marshal L (snd e) = Some s <-> encoded L (snd e) s) m ->
  Forall (fun e => go_value (snd e)) m ->
  forall ts, all_some (map (fun e => option_map (pair (fst e)) (json_marshal L (snd e))) m) = Some ts <->
    Forall2 (fun e t => fst t = fst e /\ encoded L (snd e) (snd t)) m ts.
Proof.
  intros IH HG. induction m as [|v l IHl]; intro ss.
  - cbn. split; [intro E; injection E as <-; constructor|]. inversion 1. reflexivity.
  - inversion IH as [|? ? H1 H2]; subst. inversion HG as [|? ? G1 G2]; subst. specialize (IHl H2 G2). specialize (H1 G1). cbn [map all_some]. split.
    + destruct (json_marshal L (snd v)) as [s|] eqn:E; [|discriminate]. cbn [option_map].
      destruct (all_some (map _ l)) as [xs|] eqn:EX; [|discriminate].
      intro HE. injection HE as <-. constructor; [split; [reflexivity|apply H1; reflexivity]|apply IHl; reflexivity].
    + inversion 1 as [|? s ? ss' [HK HS] HF]; subst. apply H1 in HS. apply IHl in HF. rewrite HS. cbn [option_map]. rewrite HF. cbn [option_map].
      rewrite <- HK. destruct s; reflexivity.
Qed.
Lemma same_keys m ts : Forall2 (fun (e : string * iface) (t : string * string) => fst t = fst e /\ encoded L (snd e) (snd t)) m ts -> keys ts = keys m.
Proof. induction 1 as [|e t m ts [HK _] HF IH]; [reflexivity|]. unfold keys in *. cbn [map]. rewrite HK, IH. reflexivity. Qed.

Theorem marshal_encoded v : go_value v -> forall s, json_marshal L v = Some s <-> encoded L v s.
Proof.
  induction v as [|b|z|f|x|l IH|m IH|m IH] using iface_ind'; intros HG s.
  - split; [intro E; injection E as <-; constructor|inversion 1; reflexivity].
  - destruct b; (split; [intro E; injection E as <-; constructor|inversion 1; reflexivity]).
  - cbn [json_marshal]. split.
    + intro E. injection E as E. constructor. apply fmt_int_iff. exact E.
    + inversion 1; subst. f_equal. apply fmt_int_iff. assumption.
  - cbn [json_marshal]. split; [intro E; constructor; exact E|inversion 1; assumption].
  - cbn [json_marshal]. split.
    + intro E. injection E as E. constructor. apply quoted_iff. exact E.
    + inversion 1; subst. f_equal. apply quoted_iff. assumption.
  - inversion HG as [| | | | |? HL| |]; subst. pose proof (values_encoded l IH HL) as HV. cbn [json_marshal]. split.
    + destruct (all_some _) as [ss|] eqn:E; [|discriminate]. cbn [option_map]. intro HE. injection HE as <-. rewrite join_concat. constructor. apply HV. reflexivity.
    + inversion 1 as [| | | | | |? ss HS|]; subst. apply HV in HS. rewrite HS. cbn [option_map]. rewrite join_concat. reflexivity.
  - inversion HG as [| | | | | |? HN HL|]; subst. pose proof (entries_encoded m IH HL) as HV. cbn [json_marshal]. split.
    + destruct (all_some _) as [ts|] eqn:E; [|discriminate]. cbn [option_map]. intro HE. injection HE as <-. rewrite join_concat.
      eapply en_object; [apply HV; reflexivity|apply Permutation_sym, sort_keys_same|apply (Format_proofs.sort_sorted fst insert_key sort_keys); auto|].
      apply fields_iff. reflexivity.
    + inversion 1 as [| | | | | | |? ts ts' ss HF HP HS HX]; subst. pose proof (same_keys _ _ HF) as HK. apply HV in HF. rewrite HF. cbn [option_map].
      apply fields_iff in HX. rewrite join_concat. rewrite (sort_keys_perm _ _ HP) by (rewrite HK; exact HN).
      rewrite (Format_proofs.sorted_fixed fst insert_key sort_keys) by auto. rewrite HX. reflexivity.
  - split; [discriminate|inversion 1].
Qed.

Theorem text_found v : go_value v -> forall s, text_of L v = s <-> found L v s.
Proof.
  intros HG s.
  assert (HO : (forall l, v <> GArr l) -> (forall m, v <> GMapS m) -> text_of L v = go_fmt L v).
  { destruct v; intros H1 H2; try reflexivity; [destruct (H1 _ eq_refl)|destruct (H2 _ eq_refl)]. }
  pose proof (marshal_encoded v HG) as HE. split.
  - intros <-. destruct v as [| | | | |l|m|];
      try (apply fo_other; [discriminate|discriminate|apply fmt_shown; [exact HG|reflexivity]]).
    + unfold text_of. destruct (json_marshal L (GArr l)) as [x|] eqn:E; [apply fo_array; apply HE; reflexivity|].
      apply fo_no_array. intros x HX. apply HE in HX. discriminate.
    + unfold text_of. destruct (json_marshal L (GMapS m)) as [x|] eqn:E; [apply fo_object; apply HE; reflexivity|].
      apply fo_no_object. intros x HX. apply HE in HX. discriminate.
  - inversion 1 as [? ? HX|? ? HX|? HX|? HX|? ? H1 H2 HX]; subst.
    + apply HE in HX. unfold text_of. rewrite HX. reflexivity.
    + apply HE in HX. unfold text_of. rewrite HX. reflexivity.
    + unfold text_of. destruct (json_marshal L (GArr l)) as [x|] eqn:E; [|reflexivity]. destruct (HX x). apply HE. reflexivity.
    + unfold text_of. destruct (json_marshal L (GMapS m)) as [x|] eqn:E; [|reflexivity]. destruct (HX x). apply HE. reflexivity.
    + rewrite HO by auto. apply fmt_shown; auto.
Qed.

Theorem found_condition : forall p att method value ret c v k rel query q d u t s m b, NumberSpec L ->
  prepares L p att method value ret c -> replaced p method value v -> plain_value v -> method_is method k ->
  path_of att rel query -> ~ In query ["$KEY"; "$VALUE"] -> m_raw m <> None -> jp_prepare L query = Some q ->
  (if rel then m_raw_rel m else m_raw m) = Some d -> asks L q d = Some u -> go_value u -> found L u t -> t <> "<nil>" ->
  compared t s -> may_return L (NCond c) m b -> (b = true <-> satisfied L k v s).
Proof.
  intros p att method value ret c v k rel query q d u t s m b HN HP HR HV HK HPO HQ HM HJ HD HA HG HF HT HC HB.
  apply text_found in HF; [|exact HG]. subst t. eapply parsed_condition; eauto.
Qed.
End WithLib.
