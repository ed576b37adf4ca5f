(** Single conditions: preparation and comparison against the specification. *)
From Coq Require Import List String Ascii Bool Arith ZArith Lia Permutation.
From Verif Require Import Base GoStr GoStr_facts GoFloat Types Json StrUtils Validate Prepare Eval
  Spec_Tree Tree_proofs Match_proofs Spec_Regex Spec_Glob Glob_proofs Spec_Leaf Number_proofs.
Import ListNotations.
Open Scope string_scope.
Local Arguments String.prefix : simpl never.

Lemma join_concat sep l : join sep l = String.concat sep l.
Proof. induction l as [|a [|b l] IH]; simpl in *; auto. Qed.

Lemma starts_iff p s : has_prefix s p = true <-> starts p s.
Proof. unfold starts. apply has_prefix_iff. Qed.
Lemma starts_false p s : has_prefix s p = false <-> ~ starts p s.
Proof. rewrite <- starts_iff. destruct (has_prefix s p); split; intro H; try congruence; try (exfalso; apply H; auto). Qed.

Lemma replace_first_head c s new : replace_first (String c s) (String c "") new = new ++ s.
Proof. cbn [replace_first]. rewrite prefix_one, Ascii.eqb_refl. auto. Qed.

Lemma replaced_fun p method value v w : replaced p method value v -> replaced p method value w -> v = w.
Proof.
  intros H1 H2. destruct H1 as [N|name l E A|name x E A B]; destruct H2 as [N'|name' l' E' A'|name' x' E' A' B'];
    auto; try (exfalso; match goal with N : ~ starts _ _ |- _ => apply N; eexists; eauto end); rewrite E in E';
    apply append_inj_l in E'; subst; congruence.
Qed.

(** all the words of a method *)
Ltac method_cases H := unfold method_is, method_words in H; simpl in H;
  repeat (destruct H as [H|H]; [first [discriminate H | injection H; intros; subst; clear H]|]); try destruct H.

Section WithLib.
Variable L : Lib.

Lemma replaced_ok p c c' : replace_in_condition L p c = Ok c' ->
  exists v, replaced p (c_method c) (c_value c) v /\ c' = set_value L c v.
Proof.
  unfold replace_in_condition, replaceable_list, replaceable_string.
  destruct (has_prefix (c_value c) "#") eqn:EP.
  - apply has_prefix_iff in EP. destruct EP as [name E]. rewrite E.
    change ("#" ++ name) with (String "#" name). rewrite replace_first_head. cbn [append].
    destruct (assoc name (p_resolved p)) as [l|] eqn:EA.
    + destruct (is_any (c_method c) ["RE"; "NRE"]) eqn:EM.
      * destruct (is_some _); intro H; [|discriminate]. injection H; intros; subst. exists (join "|" l). split; auto.
        rewrite join_concat. pose proof (rp_list p (c_method c) (String "#" name) name l eq_refl EA) as R. rewrite EM in R. auto.
      * intro H. injection H; intros; subst. exists (join "," l). split; auto.
        rewrite join_concat. pose proof (rp_list p (c_method c) (String "#" name) name l eq_refl EA) as R. rewrite EM in R. auto.
    + destruct (assoc name (p_strings p)) as [v|] eqn:EB; intro H; [|discriminate].
      injection H; intros; subst. exists v. split; auto. eapply rp_string; eauto. reflexivity.
  - intro H. injection H; intros; subst. exists (c_value c'). split.
    + apply rp_plain. apply starts_false. auto.
    + destruct c'; auto.
Qed.

Lemma validate_ok c c' : validate_condition L c = Ok c' ->
  c' = mkCond (c_attr c) (c_method c) (c_value c)
         (mkNum (or_else (parse_int (c_value c)) (n_int (c_num c)))
                (or_else (float_with_units L (c_value c)) (n_float (c_num c)))
                (n_regex (c_num c)) (n_string_regex (c_num c)))
         (c_lab c) (c_obj c) (c_jp c) (c_ret c) (c_orig c) /\
  validate_attribute (c_attr c) (c_method c) (c_value c) = Ok tt /\
  validate_method L (c_method c) (c_value c) = Ok tt /\
  (In (c_method c) number_methods -> float_with_units L (c_value c) <> None \/ parse_int (c_value c) <> None) /\
  (In (c_method c) regex_methods -> re_compile L (c_value c) <> None).
Proof.
  unfold validate_condition. intro H. apply rbind_ok in H. destruct H as ([] & HA & H).
  apply rbind_ok in H. destruct H as ([] & HM & H). unfold validate_numerical in H.
  destruct (negb (is_some (float_with_units L (c_value c)) || is_some (parse_int (c_value c))) &&
    contains_string number_methods (c_method c)) eqn:E1; [discriminate|].
  destruct (negb (is_some (re_compile L (c_value c))) && contains_string regex_methods (c_method c)) eqn:E2; [discriminate|].
  injection H; intros; subst. repeat split; auto.
  - intro HI. apply is_any_iff in HI. unfold contains_string in E1. unfold is_any in HI. rewrite HI, andb_true_r in E1.
    apply negb_false_iff, orb_true_iff in E1. destruct E1 as [E1|E1].
    + left. destruct (float_with_units L (c_value c)); discriminate.
    + right. destruct (parse_int (c_value c)); discriminate.
  - intro HI. apply is_any_iff in HI. unfold contains_string in E2. unfold is_any in HI. rewrite HI, andb_true_r in E2.
    destruct (re_compile L (c_value c)); discriminate.
Qed.

(** ** Conversion *)
Definition final_method (method : string) : string :=
  if is_any method ["IN"; "IS"] then "RE" else if is_any method ["NIN"] then "NRE" else method.
Definition final_value (method value : string) : string :=
  if is_any method ["IN"; "NIN"; "IS"] then list_to_alternatives value else value.

(** the condition before labels, attributes and JSON path are handled *)
Definition converted (c : cond L) : cond L :=
  mkCond (c_attr c) (final_method (c_method c)) (final_value (c_method c) (c_value c))
    (mkNum (or_else (parse_int (final_value (c_method c) (c_value c))) (n_int (c_num c)))
           (or_else (float_with_units L (final_value (c_method c) (c_value c))) (n_float (c_num c)))
           (or_else (re_compile L (final_value (c_method c) (c_value c))) (n_regex (c_num c)))
           (re_compile L (convert_string_to_regex (final_value (c_method c) (c_value c)) (c_method c))))
    (c_lab c) (c_obj c) (c_jp c) (c_ret c) (mkOrig (c_attr c) (c_method c) (c_value c)).

Lemma convert_ok c c' : convert_condition L c = Ok c' ->
  exists c2 c3, handle_labels L (converted c) = Ok c2 /\ handle_objects L c2 = Ok c3 /\ handle_jsonpath L c3 = Ok c' /\
  (In (final_method (c_method c)) regex_methods -> re_compile L (final_value (c_method c) (c_value c)) <> None) /\
  (j_is (c_jp c') = false -> j_rel (c_jp c') = false ->
     re_compile L (convert_string_to_regex (final_value (c_method c) (c_value c)) (c_method c)) <> None).
Proof.
  unfold convert_condition.
  assert (EM : (if is_any (c_method c) ["IN"; "NIN"; "IS"]
          then (if is_any (c_method c) ["IN"; "IS"] then "RE" else "NRE", list_to_alternatives (c_value c))
          else (c_method c, c_value c)) = (final_method (c_method c), final_value (c_method c) (c_value c))).
  { unfold final_method, final_value. destruct (is_any (c_method c) ["IN"; "NIN"; "IS"]) eqn:E1.
    - destruct (is_any (c_method c) ["IN"; "IS"]) eqn:E2; auto.
      assert (is_any (c_method c) ["NIN"] = true) as ->; auto.
      apply is_any_iff in E1. apply is_any_false in E2. apply is_any_iff. simpl in *. tauto.
    - apply is_any_false in E1. assert (is_any (c_method c) ["IN"; "IS"] = false) as ->.
      { apply is_any_false. simpl in *. tauto. }
      assert (is_any (c_method c) ["NIN"] = false) as ->; auto.
      apply is_any_false. simpl in *. tauto. }
  rewrite EM. clear EM. cbn zeta. cbn [og_method].
  destruct (negb _ && contains_string regex_methods (final_method (c_method c))) eqn:E1; [discriminate|].
  intro H. fold (converted c) in H.
  apply rbind_ok in H. destruct H as (c2 & H2 & H). apply rbind_ok in H. destruct H as (c3 & H3 & H).
  apply rbind_ok in H. destruct H as (c4 & H4 & H).
  exists c2, c3. split; auto. split; auto.
  assert (c4 = c' /\ (j_is (c_jp c') = false -> j_rel (c_jp c') = false ->
     re_compile L (convert_string_to_regex (final_value (c_method c) (c_value c)) (c_method c)) <> None)).
  { destruct (j_is (c_jp c4) || j_rel (c_jp c4)) eqn:EJ.
    - injection H; intros; subst. split; auto. intros A B. rewrite A, B in EJ. discriminate.
    - destruct (re_compile L (convert_string_to_regex _ _)) eqn:EC; simpl in H; [|discriminate].
      injection H; intros; subst. split; auto. discriminate. }
  destruct H0 as [-> HR]. repeat split; auto.
  intro HI. apply is_any_iff in HI. unfold contains_string in E1. unfold is_any in HI. rewrite HI, andb_true_r in E1.
  destruct (re_compile L (final_value (c_method c) (c_value c))); discriminate.
Qed.

Lemma eta_cond (c : cond L) : mkCond (c_attr c) (c_method c) (c_value c) (c_num c) (c_lab c) (c_obj c) (c_jp c) (c_ret c) (c_orig c) = c.
Proof. destruct c; auto. Qed.

Lemma handle_labels_none c : has_prefix (c_attr c) "senderLabel[" = false -> has_prefix (c_attr c) "receiverLabel[" = false ->
  has_prefix (c_value c) "receiverLabel[" = false -> handle_labels L c = Ok c.
Proof. intros H1 H2 H3. unfold handle_labels. rewrite H1. simpl. rewrite H2. simpl. rewrite H3. simpl. rewrite eta_cond. auto. Qed.

Lemma handle_objects_none c : has_prefix (c_attr c) "$sender." = false -> has_prefix (c_attr c) "$receiver." = false ->
  has_prefix (c_value c) "$receiver." = false -> handle_objects L c = Ok c.
Proof. intros H1 H2 H3. unfold handle_objects. rewrite H1. simpl. rewrite H2. simpl. rewrite H3. simpl. rewrite eta_cond. auto. Qed.

Lemma handle_jsonpath_none c : has_prefix (c_attr c) "jsonpath:" = false -> handle_jsonpath L c = Ok c.
Proof. intros H. unfold handle_jsonpath. rewrite H. auto. Qed.

(** two words with different beginnings *)
Lemma prefix_clash p q s : has_prefix s p = true -> String.prefix p q = false -> String.prefix q p = false ->
  has_prefix s q = false.
Proof.
  intros H1 H2 H3. apply starts_false. intros [r ->]. unfold has_prefix in H1.
  revert p H1 H2 H3. induction q as [|c q IH]; intros p H1 H2 H3.
  - destruct p; discriminate.
  - destruct p as [|d p]; [discriminate|].
    change (String d p) with (String d "" ++ p) in *.
    assert (EX : forall x y c d, String.prefix (String c x) (String d y) = if ascii_dec c d then String.prefix x y else false) by reflexivity.
    simpl in H1, H2, H3. rewrite EX in H1, H2, H3.
    destruct (ascii_dec d c) as [->|N]; [|discriminate].
    destruct (ascii_dec c c); [|congruence]. eapply IH; eauto.
Qed.

Lemma final_plain method v : plain_value v ->
  has_prefix (final_value method v) "receiverLabel[" = false /\ has_prefix (final_value method v) "$receiver." = false.
Proof.
  intros [H1 H2]. unfold final_value. destruct (is_any method ["IN"; "NIN"; "IS"]).
  - unfold list_to_alternatives. split; reflexivity.
  - split; apply starts_false; auto.
Qed.

Lemma or_else_none {A} (x : option A) : or_else x None = x.
Proof. destruct x; auto. Qed.
Lemma or_else_idem {A} (x : option A) : or_else x x = x.
Proof. destruct x; auto. Qed.
Lemma or_else_idem2 {A} (x y : option A) : or_else x (or_else x y) = or_else x y.
Proof. destruct x; auto. Qed.

Lemma kept_float p method value v : NumberSpec L -> replaced p method value v ->
  or_else (float_with_units L v) (or_else (float_with_units L value) None) = float_with_units L v /\
  or_else (parse_int v) (or_else (parse_int value) None) = parse_int v.
Proof.
  intros HN R. rewrite !or_else_none.
  destruct R as [N|name l E _|name x E _ _].
  - rewrite !or_else_idem. auto.
  - subst value. simpl append. rewrite (reference_not_number L name HN), reference_not_int, !or_else_none. auto.
  - subst value. simpl append. rewrite (reference_not_number L name HN), reference_not_int, !or_else_none. auto.
Qed.

(** everything preparation does before the attribute is interpreted *)
Lemma prepares_inv p att method value ret c : prepares L p att method value ret c ->
  exists v c1 c4, replaced p method value v /\
    c_attr c1 = att /\ c_method c1 = method /\ c_value c1 = v /\ c_lab c1 = no_lab /\ c_obj c1 = no_obj /\
    c_jp c1 = no_jp /\ c_ret c1 = ret /\ n_regex (c_num c1) = None /\
    (NumberSpec L -> n_float (c_num c1) = float_with_units L v /\ n_int (c_num c1) = parse_int v) /\
    validate_attribute att method value = Ok tt /\
    validate_attribute att method v = Ok tt /\ validate_method L method v = Ok tt /\
    (In method number_methods -> float_with_units L v <> None \/ parse_int v <> None) /\
    (In method regex_methods -> re_compile L v <> None) /\
    convert_condition L c1 = Ok c4 /\
    (if j_is (c_jp c4)
     then exists q, prepare_query L (j_query (c_jp c4)) = Ok q /\
            c = mkCond (c_attr c4) (c_method c4) (c_value c4) (c_num c4) (c_lab c4) (c_obj c4)
                  (mkJp true (j_rel (c_jp c4)) (j_query (c_jp c4)) q) (c_ret c4) (c_orig c4)
     else c = c4).
Proof.
  intros (c0 & H0 & H). apply validate_ok in H0. destruct H0 as (E0 & HA0 & _). simpl in HA0.
  unfold prepare_condition in H. apply rbind_ok in H. destruct H as (cr & HR & H).
  apply rbind_ok in H. destruct H as (c1 & HV & H). apply rbind_ok in H. destruct H as (c4 & HC & H).
  apply replaced_ok in HR. destruct HR as (v & HR & ER). subst c0. simpl in HR. subst cr.
  apply validate_ok in HV. destruct HV as (E1 & HA & HM & HNM & HRM). simpl in *.
  exists v, c1, c4. subst c1. simpl. repeat (split; [solve [auto]|]). split.
  { intro HN. destruct (kept_float p method value v HN HR) as [K1 K2]. auto. }
  repeat (split; [solve [auto]|]).
  destruct (j_is (c_jp c4)) eqn:EJ.
  - apply rbind_ok in H. destruct H as (q & HQ & H). injection H; intros; subst. exists q. auto.
  - injection H; auto.
Qed.

Lemma handle_jsonpath_ok c c' : has_prefix (c_attr c) "jsonpath:" = true -> handle_jsonpath L c = Ok c' ->
  exists rel net, c' = mkCond "jsonpath" (c_method c) (c_value c) (c_num c) (c_lab c) (c_obj c)
     (mkJp true rel net (j_prep (c_jp c))) (c_ret c) (c_orig c) /\
  forall d d', c_attr d = c_attr c -> handle_jsonpath L d = Ok d' ->
     j_rel (c_jp d') = rel /\ j_query (c_jp d') = net /\ j_is (c_jp d') = true.
Proof.
  intros HP H. unfold handle_jsonpath in *. rewrite HP in H.
  apply rbind_ok in H. destruct H as (net0 & H1 & H).
  destruct (if slice_has_prefix _ _ then _ else _) as [net1 rel] eqn:E1.
  apply rbind_ok in H. destruct H as (net2 & H2 & H). injection H; intros; subst. clear H.
  exists rel, (replace_all (replace_all (remove_dot_quotes net2) sqs dqs) ".[" "["). split; auto.
  intros d d' ED HD. rewrite ED, HP in HD. rewrite H1 in HD. cbn [rbind] in HD.
  rewrite E1 in HD. rewrite H2 in HD. cbn [rbind] in HD. injection HD; intros; subst. auto.
Qed.

Lemma jsonpath_clash att : has_prefix att "jsonpath:" = true ->
  has_prefix att "senderLabel[" = false /\ has_prefix att "receiverLabel[" = false /\
  has_prefix att "$sender." = false /\ has_prefix att "$receiver." = false.
Proof. intro H. repeat split; apply (prefix_clash _ _ _ H); reflexivity. Qed.

(** a prepared JSON-path condition *)
Definition ready (k : kind) (v : string) (c : cond L) : Prop :=
  c_attr c = "jsonpath" /\ j_is (c_jp c) = true /\
  exists method, method_is method k /\ c_method c = final_method method /\ c_value c = final_value method v /\
    (k <> KIn -> k <> KNin -> NumberSpec L -> n_float (c_num c) = float_with_units L v /\ n_int (c_num c) = parse_int v) /\
    n_regex (c_num c) = re_compile L (final_value method v) /\
    (In k [KRe; KNre; KIn; KNin] -> re_compile L (final_value method v) <> None) /\
    (In k [KLt; KLe; KGt; KGe] -> float_with_units L v <> None \/ parse_int v <> None).

Lemma method_number_kind method k : method_is method k -> In k [KLt; KLe; KGt; KGe] -> In method number_methods.
Proof.
  intros H HK. apply is_any_iff. unfold method_is, method_words in H. simpl in H, HK.
  repeat (destruct H as [H|H]; [injection H; intros; subst; clear H;
    try reflexivity; exfalso; repeat (destruct HK as [HK|HK]; [discriminate|]); destruct HK|]). destruct H.
Qed.
Lemma method_regex_kind method k : method_is method k -> In k [KRe; KNre; KIn; KNin] -> In (final_method method) regex_methods.
Proof.
  intros H HK. apply is_any_iff. unfold method_is, method_words in H. simpl in H, HK.
  repeat (destruct H as [H|H]; [injection H; intros; subst; clear H;
    try reflexivity; exfalso; repeat (destruct HK as [HK|HK]; [discriminate|]); destruct HK|]). destruct H.
Qed.
Lemma method_list_kind method k : method_is method k -> k <> KIn -> k <> KNin -> forall v, final_value method v = v.
Proof.
  intros H N1 N2 v. unfold method_is, method_words in H. simpl in H.
  repeat (destruct H as [H|H]; [injection H; intros; subst; clear H; try reflexivity; congruence|]). destruct H.
Qed.

Theorem prepared_jsonpath p att method value ret c v k : prepares L p att method value ret c ->
  starts "jsonpath:" att -> replaced p method value v -> plain_value v -> method_is method k ->
  ready k v c /\ c_ret c = ret /\
  (exists q, prepare_query L (j_query (c_jp c)) = Ok q /\ j_prep (c_jp c) = q).
Proof.
  intros HP HS HR HV HM. apply prepares_inv in HP.
  destruct HP as (v' & c1 & c4 & R & EA & EM & EV & EL & EO & EJ & ER & EX & EN & VA & VA2 & VM & NM & RM & HC & HF).
  assert (EVV : v' = v) by (eapply replaced_fun; eauto). clear R. rewrite EVV in EV, EN, VA2, VM, NM, RM. clear EVV.
  apply convert_ok in HC. destruct HC as (c2 & c3 & H2 & H3 & H4 & HRE & _).
  rewrite EM, EV in HRE. apply starts_iff in HS.
  destruct (jsonpath_clash _ HS) as (C1 & C2 & C3 & C4). destruct (final_plain method v HV) as [P1 P2].
  assert (E2 : c2 = converted c1).
  { rewrite handle_labels_none in H2; [injection H2; auto| | |]; unfold converted; simpl; rewrite ?EA, ?EM, ?EV; auto. }
  subst c2.
  assert (E3 : c3 = converted c1).
  { rewrite handle_objects_none in H3; [injection H3; auto| | |]; unfold converted; simpl; rewrite ?EA, ?EM, ?EV; auto. }
  subst c3.
  apply handle_jsonpath_ok in H4; [|unfold converted; simpl; rewrite EA; auto].
  destruct H4 as (rel & net & E4 & _). subst c4. simpl in HF. destruct HF as (q & HQ & ->).
  unfold ready. simpl. repeat split; auto; [|exists q; auto].
  exists method. unfold converted; simpl. rewrite EM, EV, EX, or_else_none.
  do 3 (split; [solve [auto]|]). split; [|split; [auto|split]].
  - intros N1 N2 HN. destruct (EN HN) as [F I]. rewrite F, I, (method_list_kind _ _ HM N1 N2 v). split; apply or_else_idem.
  - intro HK. apply HRE. eapply method_regex_kind; eauto.
  - intro HK. apply NM. eapply method_number_kind; eauto.
Qed.

(** conditions on the same attribute read the same thing *)
Theorem same_path p p' att method value ret c method' value' ret' c' :
  prepares L p att method value ret c -> prepares L p' att method' value' ret' c' -> starts "jsonpath:" att ->
  c_jp c = c_jp c'.
Proof.
  intros H H' HS. apply starts_iff in HS.
  apply prepares_inv in H. destruct H as (v & c1 & c4 & R & EA & EM & EV & EL & EO & EJ & ER & EX & EN & VA & VA2 & VM & NM & RM & HC & HF).
  apply prepares_inv in H'. destruct H' as (v' & c1' & c4' & R' & EA' & EM' & EV' & EL' & EO' & EJ' & ER' & EX' & EN' & VA' & VA2' & VM' & NM' & RM' & HC' & HF').
  apply convert_ok in HC. destruct HC as (c2 & c3 & H2 & H3 & H4 & _).
  apply convert_ok in HC'. destruct HC' as (c2' & c3' & H2' & H3' & H4' & _).
  assert (HA : forall c1 c2 c3, c_attr c1 = att -> handle_labels L (converted c1) = Ok c2 -> handle_objects L c2 = Ok c3 ->
     c_attr c3 = att).
  { clear - HS. destruct (jsonpath_clash _ HS) as (C1 & C2 & C3 & C4). intros c1 c2 c3 E H2 H3.
    unfold handle_labels in H2. simpl in H2. rewrite E, C1 in H2. simpl in H2. rewrite C2 in H2. simpl in H2.
    apply rbind_ok in H2. destruct H2 as ((val & lab) & _ & H2). injection H2; intros; subst. clear H2.
    unfold handle_objects in H3. simpl in H3. rewrite C3 in H3. simpl in H3. rewrite C4 in H3. simpl in H3.
    apply rbind_ok in H3. destruct H3 as ((val' & obj) & _ & H3). injection H3; intros; subst. auto. }
  pose proof (HA _ _ _ EA H2 H3) as A3. pose proof (HA _ _ _ EA' H2' H3') as A3'.
  apply handle_jsonpath_ok in H4; [|rewrite A3; auto]. destruct H4 as (rel & net & E4 & HU).
  destruct (HU c3' c4') as (U1 & U2 & U3); [congruence|auto|].
  rewrite E4 in HF. simpl in HF. destruct HF as (q & HQ & ->). rewrite U3 in HF'. destruct HF' as (q' & HQ' & ->).
  rewrite U2 in HQ'. rewrite HQ in HQ'. injection HQ'; intro EQ. simpl. rewrite U1, U2, EQ. auto.
Qed.

(** ** Comparison *)
Definition numeric_kind (k : kind) : Prop := In k [KEq; KNeq; KNe; KLt; KLe; KGt; KGe].
Definition num_op (k : kind) (y x : f64) : bool :=
  match k with
  | KEq => feqb y x | KNeq | KNe => negb (feqb y x)
  | KLt => fltb y x | KLe => fleb y x | KGt => fltb x y | KGe => fleb x y
  | _ => false
  end.

Lemma holds_both k v t x y : numeric_kind k -> quantity L v x -> quantity L t y ->
  (holds L k v t <-> num_op k y x = true).
Proof.
  intros HK QV QT.
  assert (FV : forall z, quantity L v z -> z = x) by (intros; eapply quantity_fun; eauto).
  assert (FT : forall z, quantity L t z -> z = y) by (intros; eapply quantity_fun; eauto).
  assert (EX : forall P : f64 -> f64 -> Prop, (exists x0 y0, quantity L v x0 /\ quantity L t y0 /\ P x0 y0) <-> P x y).
  { intro P. split; [|intro H; exists x, y; auto]. intros (a & b & QA & QB & H).
    apply FV in QA. apply FT in QB. subst; auto. }
  unfold numeric_kind in HK. simpl in HK.
  repeat (destruct HK as [<-|HK]; [simpl|]); [| | | | | | |destruct HK]; rewrite ?negb_true_iff.
  - rewrite EX. split; [intros [H|[H _]]; auto; exfalso; eapply H; eauto|auto].
  - split.
    + intros [(a & QA & H)|[H _]]; [|exfalso; eapply H; eauto]. apply FV in QA. subst. auto.
    + intro H. left. exists x. split; auto. intros z Q. apply FT in Q. subst; auto.
  - apply EX. - apply EX. - apply EX. - apply EX. - apply EX.
Qed.

Lemma holds_rule_only k v t x : numeric_kind k -> quantity L v x -> not_number L t -> (holds L k v t <-> k = KNeq).
Proof.
  intros HK QV NT.
  assert (EX : forall P : f64 -> f64 -> Prop, ~ (exists x0 y0, quantity L v x0 /\ quantity L t y0 /\ P x0 y0)).
  { intros P (a & b & QA & QB & H). eapply NT; eauto. }
  unfold numeric_kind in HK. simpl in HK.
  repeat (destruct HK as [<-|HK]; [simpl|]); [| | | | | | |destruct HK];
    try (split; [intro H; exfalso; eapply EX; exact H|discriminate]).
  - split; [|discriminate]. intros [H|[H _]]; exfalso; [eapply EX; exact H|eapply H; eauto].
  - split; auto. intros _. left. exists x. split; auto. intros y Q. exfalso. eapply NT; eauto.
Qed.

Lemma holds_text k v t : numeric_kind k -> not_number L v ->
  (holds L k v t <-> (k = KEq /\ t = v) \/ (k = KNeq /\ t <> v)).
Proof.
  intros HK NV.
  assert (EX : forall P : f64 -> f64 -> Prop, ~ (exists x0 y0, quantity L v x0 /\ quantity L t y0 /\ P x0 y0)).
  { intros P (a & b & QA & QB & H). eapply NV; eauto. }
  unfold numeric_kind in HK. simpl in HK.
  repeat (destruct HK as [<-|HK]; [simpl|]); [| | | | | | |destruct HK];
    try (split; [intro H; exfalso; eapply EX; exact H|intros [[H _]|[H _]]; discriminate]).
  - split.
    + intros [H|[_ H]]; [exfalso; eapply EX; exact H|auto].
    + intros [[_ H]|[H _]]; [auto|discriminate].
  - split.
    + intros [(a & Q & _)|[_ H]]; [exfalso; eapply NV; eauto|auto].
    + intros [[H _]|[_ H]]; [discriminate|auto].
Qed.


Lemma compare_float_op method k y x : method_is method k -> numeric_kind k ->
  compare_float y method (Some x) = Some (num_op k y x).
Proof.
  intros H HK. unfold numeric_kind in HK. simpl in HK. method_cases H; try reflexivity;
    exfalso; repeat (destruct HK as [HK|HK]; [discriminate|]); destruct HK.
Qed.

Lemma compare_float_none method k y : method_is method k -> numeric_kind k -> compare_float y method None = None.
Proof.
  intros H HK. unfold numeric_kind in HK. simpl in HK. method_cases H; try reflexivity;
    exfalso; repeat (destruct HK as [HK|HK]; [discriminate|]); destruct HK.
Qed.

(** the tests the engine makes on the upper-case method word *)
Lemma numeric_word method k : method_is method k ->
  (is_any (to_upper (final_method method)) numeric_methods = true <-> numeric_kind k).
Proof.
  intro H. unfold numeric_kind. method_cases H; split; intro HH; try reflexivity; try discriminate; simpl; auto 10;
    exfalso; simpl in HH; repeat (destruct HH as [HH|HH]; [discriminate|]); destruct HH.
Qed.
Lemma equality_word method k : method_is method k ->
  (is_any (to_upper (final_method method)) ["EQ"; "NEQ"] = true <-> k = KEq \/ k = KNeq).
Proof.
  intro H. method_cases H; split; intro HH; try reflexivity; try discriminate; auto; destruct HH; discriminate.
Qed.
Lemma neq_word method k : method_is method k -> (String.eqb (to_upper (final_method method)) "NEQ" = true <-> k = KNeq).
Proof. intro H. method_cases H; split; intro HH; try reflexivity; try discriminate. Qed.
Lemma nex_word method k : method_is method k -> (is_any (final_method method) ["NEX"; "nex"] = true <-> k = KNex).
Proof. intro H. method_cases H; split; intro HH; try reflexivity; try discriminate. Qed.

Lemma compare_string_eq method k t v : method_is method k -> k = KEq -> compare_string t method v = String.eqb t v.
Proof. intros H E. method_cases H; try discriminate; reflexivity. Qed.
Lemma compare_string_neq method k t v : method_is method k -> k = KNeq -> compare_string t method v = negb (String.eqb t v).
Proof. intros H E. method_cases H; try discriminate; reflexivity. Qed.

Lemma final_numeric method k : method_is method k -> numeric_kind k -> final_method method = method.
Proof.
  intros H HK. unfold numeric_kind in HK. simpl in HK. method_cases H; try reflexivity;
    exfalso; repeat (destruct HK as [HK|HK]; [discriminate|]); destruct HK.
Qed.
Lemma numeric_not_list k : numeric_kind k -> k <> KIn /\ k <> KNin.
Proof. unfold numeric_kind. simpl. intro H. split; intros ->; repeat (destruct H as [H|H]; [discriminate|]); destruct H. Qed.

(** the methods that do not compare numbers *)
Definition other_result (c : cond L) (t : string) : bool :=
  let method := to_upper (c_method c) in
  if is_any method ["RE"; "NRE"] then compare_regex L t (c_method c) (n_regex (c_num c))
  else if is_any method ["EX"; "NEX"] then exists_result method t
  else false.

Lemma regex_word method k : method_is method k ->
  (is_any (to_upper (final_method method)) ["RE"; "NRE"] = true <-> In k [KRe; KNre; KIn; KNin]).
Proof.
  intro H. method_cases H; split; intro HH; try reflexivity; try discriminate; simpl; auto 10;
    exfalso; simpl in HH; repeat (destruct HH as [HH|HH]; [discriminate|]); destruct HH.
Qed.
Lemma exists_word method k : method_is method k ->
  (is_any (to_upper (final_method method)) ["EX"; "NEX"] = true <-> k = KEx \/ k = KNex).
Proof. intro H. method_cases H; split; intro HH; try reflexivity; try discriminate; auto; destruct HH; discriminate. Qed.
Lemma positive_regex method k re t : method_is method k -> k = KRe \/ k = KIn ->
  compare_regex L t (final_method method) (Some re) = re_match L re t.
Proof. intros H HK. method_cases H; try reflexivity; destruct HK; discriminate. Qed.
Lemma negative_regex method k re t : method_is method k -> k = KNre \/ k = KNin ->
  compare_regex L t (final_method method) (Some re) = negb (re_match L re t).
Proof. intros H HK. method_cases H; try reflexivity; destruct HK; discriminate. Qed.
Lemma exists_ex method t : method_is method KEx -> exists_result (to_upper (final_method method)) t = negb (String.eqb t "").
Proof. intro H. unfold exists_result. method_cases H; try discriminate; destruct (String.eqb t ""); reflexivity. Qed.
Lemma exists_nex method t : method_is method KNex -> exists_result (to_upper (final_method method)) t = String.eqb t "".
Proof. intro H. unfold exists_result. method_cases H; try discriminate; destruct (String.eqb t ""); reflexivity. Qed.
Lemma list_word method k v : method_is method k -> k = KIn \/ k = KNin -> final_value method v = list_to_alternatives v.
Proof. intros H HK. method_cases H; try reflexivity; destruct HK; discriminate. Qed.

Lemma bool_iff_true a b : (a = true <-> b = true) -> a = b.
Proof. destruct a, b; intros [H1 H2]; auto. symmetry; auto. Qed.

Lemma other_holds k v c t : ready k v c -> ~ numeric_kind k -> (other_result c t = true <-> holds L k v t).
Proof.
  intros (_ & _ & method & HM & E1 & E2 & _ & E3 & E4 & _) HK. unfold other_result. rewrite E1, E3.
  pose proof (regex_word _ _ HM) as W1. pose proof (exists_word _ _ HM) as W2.
  assert (HRE : In k [KRe; KNre; KIn; KNin] -> exists re, re_compile L (final_value method v) = Some re).
  { intro HI. specialize (E4 HI). destruct (re_compile L (final_value method v)); [eauto|congruence]. }
  destruct (is_any (to_upper (final_method method)) ["RE"; "NRE"]).
  - pose proof (proj1 W1 eq_refl) as HI. destruct (HRE HI) as [re HR]. rewrite HR. clear W1 W2 HRE.
    destruct HI as [<-|[<-|[<-|[<-|[]]]]]; cbn [holds].
    + rewrite (positive_regex _ _ _ _ HM) by auto. rewrite (method_list_kind _ _ HM) in HR by discriminate.
      split; [eauto|]. intros (re' & H1 & H2). congruence.
    + rewrite (negative_regex _ _ _ _ HM) by auto. rewrite (method_list_kind _ _ HM) in HR by discriminate.
      rewrite negb_true_iff. split; [eauto|]. intros (re' & H1 & H2). congruence.
    + rewrite (positive_regex _ _ _ _ HM) by auto. rewrite (list_word _ _ _ HM) in HR by auto.
      split; [eauto|]. intros (re' & H1 & H2). congruence.
    + rewrite (negative_regex _ _ _ _ HM) by auto. rewrite (list_word _ _ _ HM) in HR by auto.
      rewrite negb_true_iff. split; [eauto|]. intros (re' & H1 & H2). congruence.
  - destruct (is_any (to_upper (final_method method)) ["EX"; "NEX"]).
    + pose proof (proj1 W2 eq_refl) as HI. destruct HI as [->| ->]; cbn [holds].
      * rewrite (exists_ex _ _ HM), negb_true_iff, String.eqb_neq. tauto.
      * rewrite (exists_nex _ _ HM), String.eqb_eq. tauto.
    + split; [discriminate|]. intro H. exfalso. unfold numeric_kind in HK.
      destruct k; simpl in *; try tauto; try (apply HK; auto 10; fail);
      try (assert (false = true) by (apply W1; auto 10); discriminate);
      assert (false = true) by (apply W2; auto); discriminate.
Qed.

(** *** Parsed documents *)
Definition iface_core (c : cond L) (t : string) : option bool :=
  if is_any (to_upper (c_method c)) numeric_methods then
    match n_int (c_num c), n_float (c_num c) with
    | None, None =>
      if is_any (to_upper (c_method c)) ["EQ"; "NEQ"] then Some (compare_string t (c_method c) (c_value c))
      else Some false
    | _, _ =>
      match float_with_units L t with
      | None => Some (String.eqb (to_upper (c_method c)) "NEQ")
      | Some f => compare_float f (c_method c) (n_float (c_num c))
      end
    end
  else Some (other_result c t).

Lemma some_if (b : bool) {A} (x y : A) : (if b then Some x else Some y) = Some (if b then x else y).
Proof. destruct b; auto. Qed.

Lemma text_holds_word k v t method : method_is method k -> numeric_kind k -> not_number L v ->
  ((if is_any (to_upper method) ["EQ"; "NEQ"] then compare_string t method v else false) = true <-> holds L k v t).
Proof.
  intros HM HK NV. rewrite (holds_text _ _ _ HK NV).
  pose proof (equality_word _ _ HM) as W. rewrite (final_numeric _ _ HM HK) in W.
  destruct (is_any (to_upper method) ["EQ"; "NEQ"]).
  - destruct (proj1 W eq_refl) as [->| ->].
    + rewrite (compare_string_eq _ _ _ _ HM) by auto. rewrite String.eqb_eq. split; [auto|intros [[_ H]|[H _]]; [auto|discriminate]].
    + rewrite (compare_string_neq _ _ _ _ HM) by auto. rewrite negb_true_iff, String.eqb_neq.
      split; [auto|intros [[H _]|[_ H]]; [discriminate|auto]].
  - split; [discriminate|]. intros [[-> _]|[-> _]]; assert (false = true) by (apply W; auto); discriminate.
Qed.

Lemma iface_core_holds k v c t : NumberSpec L -> ready k v c ->
  exists b, iface_core c t = Some b /\ (b = true <-> holds L k v t).
Proof.
  intros HN R. pose proof R as R0. destruct R0 as (_ & _ & method & HM & E1 & E2 & EF & _).
  unfold iface_core. pose proof (numeric_word _ _ HM) as W. rewrite <- E1 in W.
  destruct (is_any (to_upper (c_method c)) numeric_methods) eqn:EW.
  - pose proof (proj1 W eq_refl) as HK. destruct (numeric_not_list _ HK) as [K1 K2].
    destruct (EF K1 K2 HN) as [F I]. rewrite F, I.
    rewrite (final_numeric _ _ HM HK) in E1. rewrite (method_list_kind _ _ HM K1 K2) in E2.
    rewrite E1, E2.
    destruct (float_with_units L v) as [x|] eqn:FV.
    + assert (EQ : (match parse_int v with
                | Some _ => match float_with_units L t with
                           | Some f => compare_float f method (Some x)
                           | None => Some (String.eqb (to_upper method) "NEQ") end
                | None => match float_with_units L t with
                           | Some f => compare_float f method (Some x)
                           | None => Some (String.eqb (to_upper method) "NEQ") end
                end) = match float_with_units L t with
                           | Some f => compare_float f method (Some x)
                           | None => Some (String.eqb (to_upper method) "NEQ") end) by (destruct (parse_int v); auto).
      rewrite EQ. apply number_iff in FV.
      destruct (float_with_units L t) as [y|] eqn:FT.
      * apply number_iff in FT. rewrite (compare_float_op _ _ _ _ HM HK). eexists. split; eauto.
        symmetry. apply holds_both; auto.
      * apply not_number_iff in FT. eexists. split; eauto.
        rewrite (holds_rule_only _ _ _ _ HK FV FT). pose proof (neq_word _ _ HM) as WN.
        rewrite (final_numeric _ _ HM HK) in WN. auto.
    + assert (PI : parse_int v = None).
      { destruct (parse_int v) eqn:EP; auto. exfalso. eapply int_is_number; eauto. }
      rewrite PI, some_if. eexists. split; eauto. apply not_number_iff in FV. apply text_holds_word; auto.
  - eexists. split; eauto. apply other_holds; auto. intro HK. apply W in HK. discriminate.
Qed.

Lemma iface_text_of v : iface_text L v = text_of L v.
Proof. destruct v; reflexivity. Qed.

Lemma nil_status raw : (if String.eqb raw "<nil>" then Missing else status_of raw) =
  (if String.eqb raw "" || String.eqb raw "<nil>" then Missing else
   let u := remove_quotes_and_brackets raw in
   if String.eqb u "" then Missing else
   match remove_quotes_from_result u with None => Misaligned | Some t => Present t end).
Proof. unfold status_of. destruct (String.eqb raw "<nil>"), (String.eqb raw ""); auto. Qed.

Lemma compare_iface_eq c raw : compare_iface L c raw =
  match (if String.eqb raw "<nil>" then Missing else status_of raw) with
  | Missing => Some (empty_result L c)
  | Misaligned => Some false
  | Present t => iface_core c t
  end.
Proof.
  rewrite nil_status. unfold compare_iface, iface_core, other_result.
  destruct (String.eqb raw "" || String.eqb raw "<nil>"); auto. cbn zeta.
  destruct (String.eqb (remove_quotes_and_brackets raw) ""); auto.
  destruct (remove_quotes_from_result _); auto.
  destruct (is_any _ numeric_methods); auto. destruct (is_any _ ["RE"; "NRE"]); auto.
  destruct (is_any _ ["EX"; "NEX"]); auto.
Qed.

Lemma empty_iff k v c : ready k v c -> (empty_result L c = true <-> k = KNex).
Proof. intros (_ & _ & method & HM & E1 & _). unfold empty_result. rewrite E1. apply nex_word. auto. Qed.

Lemma compare_iface_status k v c x : NumberSpec L -> ready k v c ->
  exists b, compare_iface L c (iface_text L x) = Some b /\ (b = true <-> satisfied L k v (value_status L x)).
Proof.
  intros HN R. rewrite iface_text_of, compare_iface_eq. fold (value_status L x).
  destruct (value_status L x) as [| |t]; simpl.
  - eexists. split; eauto. eapply empty_iff; eauto.
  - exists false. split; auto. split; [discriminate|intros []].
  - apply iface_core_holds; auto.
Qed.

(** *** Raw documents *)
Definition bytes_core (c : cond L) (t : string) : option bool :=
  if is_any (to_upper (c_method c)) numeric_methods then
    match float_with_units L t with
    | None => if is_any (to_upper (c_method c)) ["EQ"; "NEQ"] then Some (compare_string t (c_method c) (c_value c))
              else Some false
    | Some f => compare_float f (c_method c) (n_float (c_num c))
    end
  else Some (other_result c t).

Lemma compare_bytes_eq c raw : compare_bytes L c raw =
  match status_of raw with
  | Missing => Some (empty_result L c)
  | Misaligned => Some false
  | Present t => bytes_core c t
  end.
Proof.
  unfold compare_bytes, bytes_core, other_result, status_of.
  destruct (String.eqb raw ""); auto. cbn zeta.
  destruct (String.eqb (remove_quotes_and_brackets raw) ""); auto.
  destruct (remove_quotes_from_result _); auto.
  destruct (is_any _ numeric_methods); auto. destruct (is_any _ ["RE"; "NRE"]); auto.
  destruct (is_any _ ["EX"; "NEX"]); auto.
Qed.

(** the comparison crashes: the document has a number, the rule has none *)
Definition crashes (k : kind) (v t : string) : Prop :=
  In k [KEq; KNeq; KNe] /\ not_number L v /\ exists y, quantity L t y.

Lemma bytes_core_holds k v c t : NumberSpec L -> ready k v c ->
  match bytes_core c t with
  | Some b => (b = true <-> holds L k v t) /\ ~ crashes k v t
  | None => crashes k v t
  end.
Proof.
  intros HN R. pose proof R as R0. destruct R0 as (_ & _ & method & HM & E1 & E2 & EF & _ & _ & ENK).
  unfold bytes_core. pose proof (numeric_word _ _ HM) as W. rewrite <- E1 in W.
  destruct (is_any (to_upper (c_method c)) numeric_methods) eqn:EW.
  - pose proof (proj1 W eq_refl) as HK. destruct (numeric_not_list _ HK) as [K1 K2].
    destruct (EF K1 K2 HN) as [F _]. rewrite F.
    rewrite (final_numeric _ _ HM HK) in E1. rewrite (method_list_kind _ _ HM K1 K2) in E2.
    rewrite E1, E2. clear W EW.
    destruct (float_with_units L t) as [y|] eqn:FT.
    + apply number_iff in FT. destruct (float_with_units L v) as [x|] eqn:FV.
      * apply number_iff in FV. rewrite (compare_float_op _ _ _ _ HM HK). split.
        -- symmetry. apply holds_both; auto.
        -- intros (_ & NV & _). eapply NV; eauto.
      * rewrite (compare_float_none _ _ _ HM HK). apply not_number_iff in FV as NV. repeat split; auto; [|exists y; auto].
        assert (HI : In k [KLt; KLe; KGt; KGe] -> False).
        { intro HI. destruct (ENK HI) as [X|X]; [congruence|]. destruct (parse_int v) eqn:EP; [|congruence].
          eapply int_is_number; eauto. }
        unfold numeric_kind in HK. simpl in HK, HI. simpl. tauto.
    + apply not_number_iff in FT. rewrite some_if. split.
      * destruct (float_with_units L v) as [x|] eqn:FV.
        -- apply number_iff in FV. rewrite (holds_rule_only _ _ _ _ HK FV FT).
           assert (NE : t <> v). { intros ->. eapply FT; eauto. }
           pose proof (equality_word _ _ HM) as WE. rewrite (final_numeric _ _ HM HK) in WE.
           destruct (is_any (to_upper method) ["EQ"; "NEQ"]).
           ++ destruct (proj1 WE eq_refl) as [->| ->].
              ** rewrite (compare_string_eq _ _ _ _ HM) by auto. rewrite String.eqb_eq. split; [congruence|discriminate].
              ** rewrite (compare_string_neq _ _ _ _ HM) by auto. rewrite negb_true_iff, String.eqb_neq. tauto.
           ++ split; [discriminate|]. intros ->. assert (false = true) by (apply WE; auto). discriminate.
        -- apply not_number_iff in FV. apply text_holds_word; auto.
      * intros (_ & _ & y & Q). eapply FT; eauto.
  - split; [apply other_holds; auto; intro HK; apply W in HK; discriminate|].
    intros (HK & _). assert (numeric_kind k) by (unfold numeric_kind; simpl in *; tauto). apply W in H. discriminate.
Qed.

Lemma compare_bytes_status k v c raw : NumberSpec L -> ready k v c ->
  match compare_bytes L c raw with
  | Some b => (b = true <-> satisfied L k v (status_of raw)) /\ (forall t, status_of raw = Present t -> ~ crashes k v t)
  | None => exists t, status_of raw = Present t /\ crashes k v t
  end.
Proof.
  intros HN R. rewrite compare_bytes_eq. destruct (status_of raw) as [| |t]; simpl.
  - split; [eapply empty_iff; eauto|discriminate].
  - split; [split; [discriminate|intros []]|discriminate].
  - pose proof (bytes_core_holds k v c t HN R) as H. destruct (bytes_core c t).
    + destruct H as [H1 H2]. split; auto. intros t' E. injection E; intros; subst; auto.
    + exists t. auto.
Qed.

(** ** Reading the document *)
Variable ord : order.

Lemma fair_head o t k ks : fair ord -> ord t (keys o) = k :: ks -> exists x, In (k, x) o /\ exists y, @assoc iface k o = Some y.
Proof.
  intros HF E. assert (HI : In k (keys o)).
  { eapply Permutation_in; [apply HF|]. rewrite E. left; auto. }
  unfold keys in HI. apply in_map_iff in HI. destruct HI as ([k' x] & EK & HI). simpl in EK. subst k'.
  exists x. split; auto. clear - HI. induction o as [|[k' y] o IH]; [destruct HI|].
  simpl. destruct (String.eqb k k') eqn:EQ; [eauto|]. destruct HI as [HI|HI]; auto.
  injection HI; intros; subst. rewrite String.eqb_refl in EQ. discriminate.
Qed.

Definition answer (k : kind) (v : string) (r : option iface) : Prop :=
  match r with
  | None => k = KNex
  | Some u => satisfied L k v (value_status L u)
  end.

Lemma query_interface_asks q d :
  asks L q d = if snd (query_interface L q d) then None else Some (fst (query_interface L q d)).
Proof.
  unfold asks, query_interface. destruct (jp_query L q d) as [w [e|]]; simpl; auto.
  destruct (contains e _); auto.
Qed.

Lemma fair_empty t : fair ord -> ord t [] = [].
Proof. intro HF. apply Permutation_nil. symmetry. apply HF. Qed.

Lemma json_iface_reads c q m e b e' : fair ord -> j_is (c_jp c) = true ->
  test_json_iface L ord c q m e = (Some b, e') ->
  (exists r, looked_up L m (c_jp c) q r /\
     match r with
     | None => b = empty_result L c
     | Some u => compare_iface L c (iface_text L u) = Some b
     end)
  \/ (b = false /\ if j_rel (c_jp c) then m_raw_rel m = None else m_raw m = None).
Proof.
  intros HF EJ H. unfold test_json_iface in H. rewrite EJ in H. cbn [negb] in H.
  assert (FIN : forall (w : iface * bool) e1 e2 b,
     (if snd w then mret (empty_result L c) else mopt (compare_iface L c (iface_text L (fst w)))) e1 = (Some b, e2) ->
     match (if snd w then None else Some (fst w)) with
     | None => b = empty_result L c
     | Some u => compare_iface L c (iface_text L u) = Some b
     end).
  { intros [w err] e1 e2 b0 H0. simpl in *. destruct err.
    - injection H0; intros; subst. auto.
    - unfold mopt in H0. injection H0; auto. }
  destruct (j_rel (c_jp c)) eqn:ER.
  - destruct (m_raw_rel m) as [d|] eqn:EM; [|right; injection H; auto].
    left. destruct (String.eqb (j_query (c_jp c)) "$KEY" || has_prefix (j_query (c_jp c)) "$VALUE") eqn:EQ.
    + unfold mbind in H. destruct (get_key_value_iface L ord c q d e) as [[r|] e1] eqn:EG; [|discriminate].
      apply FIN in H. exists (if snd r then None else Some (fst r)). split; auto. clear H.
      unfold get_key_value_iface in EG. destruct d as [| | | | | |o|]; try discriminate.
      unfold mrange, mbind in EG. destruct (ord (e_tick e) (keys o)) as [|key ks] eqn:EO.
      * injection EG; intros; subst. simpl. apply lu_no_entry; auto.
        -- unfold key_query. apply orb_true_iff in EQ. destruct EQ as [EQ|EQ].
           ++ left. apply String.eqb_eq. auto.
           ++ right. apply starts_iff. auto.
        -- rewrite EM. destruct o as [|[a x] o]; auto. exfalso.
           assert (PL : List.length (ord (e_tick e) (keys ((a, x) :: o))) = List.length (keys ((a, x) :: o))).
           { apply Permutation_length, HF. }
           rewrite EO in PL. discriminate.
      * destruct (fair_head o _ _ _ HF EO) as (x & HI & y & HA).
        destruct (String.eqb (j_query (c_jp c)) "$KEY") eqn:EK.
        -- injection EG; intros; subst. simpl. eapply lu_key; eauto. apply String.eqb_eq; auto.
        -- simpl in EQ. rewrite HA in EG.
           destruct (String.eqb (j_query (c_jp c)) "$VALUE") eqn:EV.
           ++ injection EG; intros; subst. simpl. eapply lu_value; eauto. apply String.eqb_eq; auto.
           ++ injection EG; intros; subst. rewrite <- query_interface_asks. eapply lu_value_sub; eauto.
              ** apply starts_iff; auto.
              ** apply String.eqb_neq; auto.
    + apply FIN in H. rewrite <- query_interface_asks in H. exists (asks L q d). split; auto.
      apply lu_relative; auto. intros [HQ|HQ].
      * rewrite HQ in EQ. discriminate.
      * apply starts_iff in HQ. rewrite HQ, orb_true_r in EQ. discriminate.
  - destruct (m_raw m) as [d|] eqn:EM; [|right; injection H; auto].
    left. apply FIN in H. rewrite <- query_interface_asks in H. exists (asks L q d). split; auto.
    apply lu_absolute; auto.
Qed.

Lemma leaf_flag c m t b x e : c_attr c = "jsonpath" ->
  test_condition L ord c (mkEst m t) = (Some (b, x), e) ->
  exists e1, match m_raw m, j_prep (c_jp c) with
             | Some _, Some q => test_json_iface L ord c q m (mkEst m t)
             | _, _ => mopt (test_json_bytes L c m) (mkEst m t)
             end = (Some b, e1).
Proof.
  intros EA H. unfold test_condition, mbind, mmsg in H. cbn [e_msg] in H. rewrite EA in H.
  change (is_any "jsonpath" ["true"; "TRUE"]) with false in H.
  change (is_any "jsonpath" ["false"; "FALSE"]) with false in H. cbn [String.eqb Ascii.eqb Bool.eqb] in H.
  assert (HX : match m_raw m, j_prep (c_jp c) with
             | Some _, Some q => test_json_iface L ord c q m (mkEst m t)
             | _, _ => mopt (test_json_bytes L c m) (mkEst m t)
             end = (match m_raw m, j_prep (c_jp c) with
             | Some _, Some q => test_json_iface L ord c q m
             | _, _ => mopt (test_json_bytes L c m)
             end) (mkEst m t)).
  { destruct (m_raw m), (j_prep (c_jp c)); auto. }
  rewrite HX. clear HX.
  destruct ((match m_raw m, j_prep (c_jp c) with
             | Some _, Some q => test_json_iface L ord c q m
             | _, _ => mopt (test_json_bytes L c m)
             end) (mkEst m t)) as [[fl|] e1]; [|discriminate].
  exists e1. destruct (r_paths (c_ret c)).
  - destruct fl.
    + unfold mopt in H. destruct (get_extra L c m); [|discriminate]. injection H; intros; subst; auto.
    + injection H; intros; subst; auto.
  - injection H; intros; subst; auto.
Qed.

(** a condition evaluated on a message gives this truth value *)
Definition evaluates (c : cond L) (m : message) (b : bool) : Prop :=
  exists t x e, test_condition L ord c (mkEst m t) = (Some (b, x), e).

Lemma looked_up_doc m j q r : looked_up L m j q r -> if j_rel j then m_raw_rel m <> None else m_raw m <> None.
Proof. destruct 1 as [d E1|d E1|o k x E1|o k x E1|o k x E1|E1]; rewrite E1; congruence. Qed.

(** what the engine compares *)
Lemma sees_compare c m b s : fair ord -> c_attr c = "jsonpath" -> j_is (c_jp c) = true -> sees L (c_jp c) m s ->
  evaluates c m b ->
  match s with
  | Missing => b = empty_result L c
  | Misaligned => b = false
  | Present t => iface_core c t = Some b
  end.
Proof.
  intros HF EA EJ (HM & q & EQ & (r0 & HR0) & HS) (t & x & e & H).
  apply leaf_flag in H; auto. destruct H as (e1 & H). rewrite EQ in H.
  destruct (m_raw m) as [d|] eqn:ED; [|congruence].
  apply json_iface_reads in H; auto. destruct H as [(r & HR & H)|(_ & H)].
  - apply HS in HR. destruct r as [u|].
    + rewrite iface_text_of, compare_iface_eq in H. fold (value_status L u) in H. rewrite HR in H.
      destruct s; try congruence.
    + subst s. auto.
  - exfalso. apply looked_up_doc in HR0. destruct (j_rel (c_jp c)); congruence.
Qed.

Theorem parsed_condition k v c m b s : NumberSpec L -> fair ord -> ready k v c -> sees L (c_jp c) m s ->
  evaluates c m b -> (b = true <-> satisfied L k v s).
Proof.
  intros HN HF R HS HE. apply sees_compare with (s := s) in HE; auto; [|apply R|apply R].
  destruct s as [| |t]; simpl.
  - subst b. eapply empty_iff; eauto.
  - subst b. split; [discriminate|intros []].
  - destruct (iface_core_holds k v c t HN R) as (b' & E & HB). congruence.
Qed.

(** ** Raw documents *)
Lemma js_get_fetch d p : js_get_opt L d p = fetch L d p.
Proof. unfold js_get_opt, fetch. destruct (js_get L d p) as [x []]; auto. Qed.

Lemma key_value_text d q : get_key_value L d q = entry_text L d q.
Proof.
  unfold get_key_value, entry_text, json_parse_map. destruct (json_parse L d) as [[| | | | | |o|]|]; auto.
Qed.

Lemma replace_first_app old new r : replace_first (old ++ r) old new = new ++ r.
Proof.
  destruct (old ++ r) as [|ch s] eqn:E; cbn [replace_first]; rewrite <- E, prefix_app_eq, drop_app; auto.
Qed.

Lemma json_bytes_reads c m : j_is (c_jp c) = true ->
  (exists r, raw_looked_up L m (c_jp c) r /\
     test_json_bytes L c m = match r with None => Some (empty_result L c) | Some raw => compare_bytes L c raw end)
  \/ (test_json_bytes L c m = Some false /\
      if j_rel (c_jp c) then m_json_rel m = None \/ m_json_rel m = Some "" else m_json m = None \/ m_json m = Some "").
Proof.
  intros EJ. unfold test_json_bytes. rewrite EJ. cbn [negb].
  destruct (j_rel (c_jp c)) eqn:ER.
  - destruct (m_json_rel m) as [[|ch d0]|] eqn:EM; [right; auto| |right; auto].
    set (d := String ch d0) in *. left.
    destruct (String.eqb (j_query (c_jp c)) "$KEY" || has_prefix (j_query (c_jp c)) "$VALUE") eqn:EQ.
    + assert (KQ : key_query L (c_jp c)).
      { unfold key_query. apply orb_true_iff in EQ. destruct EQ as [EQ|EQ].
        - left. apply String.eqb_eq. auto.
        - right. apply starts_iff. auto. }
      destruct (has_prefix (j_query (c_jp c)) "$VALUE.") eqn:EV.
      * apply has_prefix_iff in EV. destruct EV as [path EP].
        exists (fetch L (match entry_text L d (j_query (c_jp c)) with Some s => s | None => "" end) ("$." ++ path)).
        split; [eapply rl_entry_sub; eauto; discriminate|].
        rewrite js_get_fetch, key_value_text.
        assert (ER1 : replace_first (j_query (c_jp c)) "$VALUE." "$." = "$." ++ path) by (rewrite EP; apply replace_first_app).
        rewrite ER1.
        destruct (fetch L _ _); auto.
      * exists (entry_text L d (j_query (c_jp c))). split.
        -- eapply rl_entry; eauto; [|discriminate]. apply starts_false; auto.
        -- rewrite key_value_text. destruct (entry_text L d _); auto.
    + exists (fetch L d (j_query (c_jp c))). split.
      * eapply rl_relative; eauto; [|discriminate]. intros [HQ|HQ].
        -- rewrite HQ in EQ. discriminate.
        -- apply starts_iff in HQ. rewrite HQ, orb_true_r in EQ. discriminate.
      * rewrite js_get_fetch. destruct (fetch L d _); auto.
  - destruct (m_json m) as [[|ch d0]|] eqn:EM; [right; auto| |right; auto].
    left. exists (fetch L (String ch d0) (j_query (c_jp c))). split.
    + eapply rl_absolute; eauto. discriminate.
    + rewrite js_get_fetch. destruct (fetch L _ _); auto.
Qed.

Lemma raw_looked_up_fun m j r r' : raw_looked_up L m j r -> raw_looked_up L m j r' -> r = r'.
Proof.
  assert (KV : forall p, j_query j = "$VALUE." ++ p -> key_query L j).
  { intros p H. right. exists ("." ++ p). auto. }
  intros H1 H2. destruct H1 as [d E1 E2 N1|d E1 K E2 N1|d E1 K K' E2 N1|d p E1 K E2 N1];
    destruct H2 as [d' F1 F2 M1|d' F1 G F2 M1|d' F1 G G' F2 M1|d' p' F1 G F2 M1]; try congruence;
    try (exfalso; eauto; fail); try (rewrite E2 in F2; injection F2; intros; subst; auto).
  - exfalso. apply K'. exists p'. auto.
  - exfalso. apply G'. exists p. auto.
  - rewrite K in G. apply append_inj_l in G. subst. auto.
Qed.

Lemma raw_looked_up_doc m j r : raw_looked_up L m j r ->
  if j_rel j then m_json_rel m <> None /\ m_json_rel m <> Some "" else m_json m <> None /\ m_json m <> Some "".
Proof. destruct 1 as [d E1 E2 N1|d E1 K E2 N1|d E1 K K' E2 N1|d p E1 K E2 N1]; rewrite E1; split; congruence. Qed.

Lemma sees_raw_compare c m s : c_attr c = "jsonpath" -> j_is (c_jp c) = true -> sees_raw L (c_jp c) m s ->
  test_json_bytes L c m =
  match s with
  | Missing => Some (empty_result L c)
  | Misaligned => Some false
  | Present t => bytes_core c t
  end.
Proof.
  intros EA EJ (HM & r & HR & HS). destruct (json_bytes_reads c m EJ) as [(r' & HR' & E)|(_ & E)].
  - assert (r' = r) by (eapply raw_looked_up_fun; eauto). subst r'. rewrite E. destruct r as [raw|].
    + rewrite compare_bytes_eq, HS. auto.
    + subst s. auto.
  - exfalso. apply raw_looked_up_doc in HR. destruct (j_rel (c_jp c)); destruct HR, E; congruence.
Qed.

Theorem raw_condition k v c m b s : NumberSpec L -> ready k v c -> sees_raw L (c_jp c) m s ->
  evaluates c m b -> (b = true <-> satisfied L k v s).
Proof.
  intros HN R HS (t & x & e & H). apply leaf_flag in H; [|apply R]. destruct H as (e1 & H).
  assert (HM : m_raw m = None) by apply HS. rewrite HM in H. unfold mopt in H. injection H; intros _ H'. clear H.
  rewrite (sees_raw_compare c m s) in H'; auto; [|apply R|apply R]. destruct s as [| |t']; simpl.
  - injection H'; intros; subst b. eapply empty_iff; eauto.
  - injection H'; intros; subst b. split; [discriminate|intros []].
  - pose proof (bytes_core_holds k v c t' HN R) as HB. rewrite H' in HB. apply HB.
Qed.

(** evaluation on a raw document crashes exactly when a number meets a text *)
Theorem raw_crash k v c m t s : NumberSpec L -> ready k v c -> r_paths (c_ret c) = None -> sees_raw L (c_jp c) m s ->
  (fst (test_condition L ord c (mkEst m t)) = None <-> exists t', s = Present t' /\ crashes k v t').
Proof.
  intros HN R ER HS. assert (HM : m_raw m = None) by apply HS.
  assert (HX : fst (test_condition L ord c (mkEst m t)) = None <-> test_json_bytes L c m = None).
  { unfold test_condition, mbind, mmsg. cbn [e_msg]. destruct R as (EA & _). rewrite EA.
    change (is_any "jsonpath" ["true"; "TRUE"]) with false.
    change (is_any "jsonpath" ["false"; "FALSE"]) with false. cbn [String.eqb Ascii.eqb Bool.eqb].
    rewrite HM, ER. unfold mopt. destruct (test_json_bytes L c m); simpl; split; first [discriminate|auto]. }
  rewrite HX. rewrite (sees_raw_compare c m s); auto; [|apply R|apply R].
  destruct s as [| |t']; [split; [discriminate|intros (? & ? & _); discriminate]..|].
  pose proof (bytes_core_holds k v c t' HN R) as HB. destruct (bytes_core c t').
  - split; [discriminate|]. intros (t'' & E & HC). injection E; intros; subst. exfalso. apply HB; auto.
  - split; [|auto]. intros _. exists t'. auto.
Qed.

(** without a document every JSON-path condition is false *)
Theorem no_document c m b : fair ord -> c_attr c = "jsonpath" -> j_is (c_jp c) = true -> j_prep (c_jp c) <> None ->
  nothing_to_read (j_rel (c_jp c)) m -> evaluates c m b -> b = false.
Proof.
  intros HF EA EJ EP HN (t & x & e & H). apply leaf_flag in H; auto. destruct H as (e1 & H).
  unfold nothing_to_read in HN. destruct (j_prep (c_jp c)) as [q|] eqn:EQ; [|congruence].
  destruct (m_raw m) as [d|] eqn:EM.
  - apply json_iface_reads in H; auto. destruct H as [(r & HR & _)|(Hb & _)]; auto.
    apply looked_up_doc in HR. exfalso. destruct (j_rel (c_jp c)); [|destruct HN; discriminate].
    apply HR. apply HN. discriminate.
  - unfold mopt in H. injection H; intros _ H'. destruct (json_bytes_reads c m EJ) as [(r & HR & E)|(E & _)].
    + apply raw_looked_up_doc in HR. exfalso. destruct (j_rel (c_jp c)).
      * destruct HN as [_ HN]. destruct (HN eq_refl); destruct HR; congruence.
      * destruct HN as [_ HN]. destruct HN; destruct HR; congruence.
    + congruence.
Qed.

End WithLib.
