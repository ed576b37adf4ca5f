(** Conditions on labels and on other attributes of the message. *)
From Coq Require Import List String Ascii Bool Arith ZArith Lia Permutation.
From Verif Require Import Base GoStr GoFloat Types Json StrUtils Validate Prepare Eval GoStr_facts Spec_Tree Tree_laws
  Spec_Regex Spec_Glob Glob_proofs Match_proofs Spec_Leaf Number_proofs Leaf_proofs Leaf_laws.
Import ListNotations.
Open Scope string_scope.
Local Arguments String.prefix : simpl never.

Section WithLib.
Variable L : Lib.
Local Notation cond := (cond L).

(** a condition before labels and attributes are handled *)
Record basis (att method v : string) (ret : retpart L) (c : cond) : Prop := {
  b_attr : c_attr c = att;
  b_method : c_method c = final_method method;
  b_value : c_value c = final_value method v;
  b_lab : c_lab c = no_lab;
  b_obj : c_obj c = no_obj;
  b_jp : c_jp c = no_jp;
  b_ret : c_ret c = ret;
  b_regex : n_regex (c_num c) = re_compile L (final_value method v);
  b_string_regex : n_string_regex (c_num c) = re_compile L (convert_string_to_regex (final_value method v) method);
  b_numbers : NumberSpec L ->
     n_float (c_num c) = or_else (float_with_units L (final_value method v)) (float_with_units L v) /\
     n_int (c_num c) = or_else (parse_int (final_value method v)) (parse_int v)
}.

Lemma handle_labels_attr c c' : handle_labels L c = Ok c' ->
  In (c_attr c') [c_attr c; "senderLabel"; "receiverLabel"] /\ c_jp c' = c_jp c.
Proof.
  unfold handle_labels. intro H.
  apply rbind_ok in H. destruct H as ((a1 & l1) & H1 & H).
  apply rbind_ok in H. destruct H as ((a2 & l2) & H2 & H).
  apply rbind_ok in H. destruct H as ((v3 & l3) & H3 & H). injection H; intros <-. simpl.
  assert (A1 : a1 = c_attr c \/ a1 = "senderLabel").
  { destruct (has_prefix (c_attr c) "senderLabel["); [apply rbind_ok in H1; destruct H1 as (x & _ & H1)|];
      injection H1; intros; subst; auto. }
  assert (A2 : a2 = a1 \/ a2 = "receiverLabel").
  { destruct (has_prefix a1 "receiverLabel["); [apply rbind_ok in H2; destruct H2 as (x & _ & H2)|];
      injection H2; intros; subst; auto. }
  split; [|auto]. destruct A2 as [->| ->], A1 as [->| ->]; auto.
Qed.

Lemma handle_objects_attr c c' : handle_objects L c = Ok c' ->
  In (c_attr c') [c_attr c; "$sender"; "$receiver"] /\ c_jp c' = c_jp c.
Proof.
  unfold handle_objects. intro H.
  apply rbind_ok in H. destruct H as ((a1 & l1) & H1 & H).
  apply rbind_ok in H. destruct H as ((a2 & l2) & H2 & H).
  apply rbind_ok in H. destruct H as ((v3 & l3) & H3 & H). injection H; intros <-. simpl.
  assert (A1 : a1 = c_attr c \/ a1 = "$sender").
  { destruct (has_prefix (c_attr c) "$sender."); [apply rbind_ok in H1; destruct H1 as (x & _ & H1)|];
      injection H1; intros; subst; auto. }
  assert (A2 : a2 = a1 \/ a2 = "$receiver").
  { destruct (has_prefix a1 "$receiver."); [apply rbind_ok in H2; destruct H2 as (x & _ & H2)|];
      injection H2; intros; subst; auto. }
  split; [|auto]. destruct A2 as [->| ->], A1 as [->| ->]; auto.
Qed.

Lemma prepared_attribute p att method value ret c v : prepares L p att method value ret c ->
  replaced p method value v -> ~ starts "jsonpath:" att ->
  exists c0 c1, basis att method v ret c0 /\ handle_labels L c0 = Ok c1 /\ handle_objects L c1 = Ok c /\
    re_compile L (convert_string_to_regex (final_value method v) method) <> None /\
    (In (final_method method) regex_methods -> re_compile L (final_value method v) <> None) /\
    validate_attribute att method v = Ok tt /\
    (In method number_methods -> float_with_units L v <> None \/ parse_int v <> None).
Proof.
  intros HP HR HNJ. apply prepares_inv in HP.
  destruct HP as (v' & c1 & c4 & R & EA & EM & EV & EL & EO & EJ & ER & EX & EN & VA & VA2 & VM & NM & RM & HC & HF).
  assert (EVV : v' = v) by (eapply replaced_fun; eauto). clear R. rewrite EVV in EV, EN, VA2, VM, NM, RM. clear EVV.
  apply convert_ok in HC. destruct HC as (c2 & c3 & H2 & H3 & H4 & HRE & HSR).
  rewrite EM, EV in HRE, HSR.
  assert (EC : c4 = c3 /\ c_jp c3 = no_jp).
  { apply handle_labels_attr in H2. destruct H2 as [A2 J2]. apply handle_objects_attr in H3. destruct H3 as [A3 J3].
    assert (NP : has_prefix (c_attr c3) "jsonpath:" = false).
    { apply starts_false in HNJ. unfold converted in A2. cbn [c_attr] in A2. rewrite EA in A2.
      destruct A3 as [<-|[<-|[<-|[]]]]; [|reflexivity..]. destruct A2 as [<-|[<-|[<-|[]]]]; [auto|reflexivity..]. }
    rewrite handle_jsonpath_none in H4 by auto. injection H4; intros ->. split; auto.
    rewrite J3, J2. unfold converted. cbn [c_jp]. auto. }
  destruct EC as [-> EC]. rewrite EC in HF, HSR. simpl in HF, HSR. subst c.
  exists (converted L c1), c2. split; [|repeat split; auto].
  unfold converted. constructor; cbn; rewrite ?EA, ?EM, ?EV, ?EX, ?or_else_none; auto.
  intro HN. destruct (EN HN) as [-> ->]. auto.
Qed.

(** ** Methods on texts *)
Lemma ex_re v re t b : re_compile L v = Some re ->
  ((exists r, re_compile L v = Some r /\ re_match L r t = b) <-> re_match L re t = b).
Proof. intro E. rewrite E. split; [intros (r & E1 & E2); congruence|eauto]. Qed.

Lemma text_method k method v t c : method_is method k ->
  c_method c = final_method method -> n_regex (c_num c) = re_compile L (final_value method v) ->
  n_string_regex (c_num c) = re_compile L (convert_string_to_regex (final_value method v) method) ->
  re_compile L (convert_string_to_regex (final_value method v) method) <> None ->
  (In (final_method method) regex_methods -> re_compile L (final_value method v) <> None) ->
  (compare_text_attr L c t = true <-> text_holds L k v t).
Proof.
  intros HM E1 E2 E3 HS HR. unfold compare_text_attr. rewrite E1, E2, E3. clear E1 E2 E3 c.
  assert (HRE : In k [KRe; KNre; KIn; KNin] -> exists re, re_compile L (final_value method v) = Some re).
  { intro HK. destruct (re_compile L (final_value method v)) as [re|]; [eauto|]. exfalso.
    apply HR; auto. eapply method_regex_kind; eauto. }
  destruct (re_compile L (convert_string_to_regex (final_value method v) method)) as [re|] eqn:ES; [|congruence]. clear HS HR.
  method_cases HM; simpl.
  all: try (simpl in ES; rewrite (ex_re _ _ _ _ ES)).
  all: try (destruct (HRE ltac:(simpl; tauto)) as [re' E]; unfold final_value in E; simpl in E; rewrite (ex_re _ _ _ _ E)).
  all: try (unfold final_value; simpl; rewrite E; simpl).
  all: try tauto.
  all: try (split; [discriminate|intros []]).
  all: unfold compare_wild, compare_regex; simpl.
  all: try (rewrite negb_true_iff; tauto).
  all: try (rewrite negb_true_iff, String.eqb_neq; tauto).
  all: try (rewrite String.eqb_eq; tauto).
Qed.

Lemma label_method k method v t c : method_is method k ->
  c_method c = final_method method -> n_regex (c_num c) = re_compile L (final_value method v) ->
  n_string_regex (c_num c) = re_compile L (convert_string_to_regex (final_value method v) method) ->
  re_compile L (convert_string_to_regex (final_value method v) method) <> None ->
  (In (final_method method) regex_methods -> re_compile L (final_value method v) <> None) ->
  (compare_label L c t = true <-> label_holds L k v t).
Proof.
  intros HM E1 E2 E3 HS HR. pose proof (text_method _ _ _ t _ HM E1 E2 E3 HS HR) as HT.
  unfold compare_label. unfold compare_text_attr in HT. rewrite E1 in *.
  destruct k; try (simpl label_holds; rewrite <- HT; destruct (is_re_method _); [tauto|];
    destruct (is_any (final_method method) ["EX"; "ex"]) eqn:EE; [exfalso|tauto]; clear - HM EE;
    method_cases HM; discriminate).
  simpl. clear - HM. method_cases HM; simpl; tauto.
Qed.

Lemma same_method k method t u : method_is method k ->
  ((if is_re_method (final_method method) then false else compare_string t (final_method method) u) = true <-> same_holds k t u).
Proof.
  intro HM. method_cases HM; simpl; unfold compare_string; simpl;
    try (rewrite String.eqb_eq; tauto); try (rewrite negb_true_iff, String.eqb_neq; tauto);
    split; try discriminate; intros [].
Qed.

(** ** Labels *)
Lemma index_skip i s sub c : String.prefix sub (String c s) = false -> index_from i (String c s) sub = index_from (i + 1) s sub.
Proof. intro H. cbn [index_from]. rewrite H. auto. Qed.
Lemma index_before i ch k r : all_chars (fun c => c <> ch) k ->
  index_from i (k ++ String ch r) (String ch "") = (i + Z.of_nat (String.length k))%Z.
Proof.
  revert i. induction k as [|c k IH]; intros i H.
  - simpl. rewrite prefix_one, Ascii.eqb_refl. lia.
  - destruct H as [HC H]. simpl append. rewrite index_skip by (rewrite prefix_one; apply Ascii.eqb_neq; auto).
    rewrite IH by auto. simpl String.length. lia.
Qed.

Lemma label_key_of pre k : all_chars (fun c => c <> "["%char /\ c <> "]"%char) pre -> label_key_ok k ->
  label_key (pre ++ "[" ++ k ++ "]") = Ok k.
Proof.
  intros HP HK. unfold label_key, index.
  change (pre ++ "[" ++ k ++ "]") with (pre ++ String "[" (k ++ "]")).
  rewrite (index_before 0 "[" pre (k ++ "]")) by (eapply all_chars_impl; [|exact HP]; simpl; tauto).
  assert (E2 : index_from 0 (pre ++ String "[" (k ++ "]")) "]" = Z.of_nat (String.length (pre ++ "[" ++ k))).
  { change (pre ++ String "[" (k ++ "]")) with (pre ++ "[" ++ k ++ "]").
    replace (pre ++ "[" ++ k ++ "]") with ((pre ++ "[" ++ k) ++ "]") by (rewrite !append_assoc; auto).
    rewrite (index_before 0 "]" (pre ++ "[" ++ k) ""); [auto|]. rewrite !all_chars_app. split; [eapply all_chars_impl; [|exact HP]; simpl; tauto|].
    split; [simpl; split; [discriminate|auto]|auto]. }
  rewrite E2. change (pre ++ String "[" (k ++ "]")) with (pre ++ "[" ++ k ++ "]"). unfold slice_res, slice. rewrite !length_append. change (String.length "[") with 1%nat. change (String.length "]") with 1%nat.
  replace (_ && _) with true.
  - replace (Z.to_nat (0 + Z.of_nat (String.length pre) + 1)) with (String.length (pre ++ "[")) by (rewrite length_append; simpl; lia).
    replace (pre ++ "[" ++ k ++ "]") with ((pre ++ "[") ++ (k ++ "]")) by (rewrite !append_assoc; auto).
    rewrite drop_app. replace (Z.to_nat _) with (String.length k) by lia.
    f_equal. clear. induction k; simpl; [auto|]. congruence.
  - symmetry. rewrite !andb_true_iff, !Z.leb_le. lia.
Qed.

Lemma run_eval c m b : may_return L (NCond c) m b ->
  exists ord t x s, fair ord /\ test_condition L ord c (mkEst m t) = (Some (b, x), s).
Proof. auto. Qed.

Lemma is_label_prefix k : has_prefix (sender_label k) "senderLabel[" = true /\ has_prefix (receiver_label k) "receiverLabel[" = true.
Proof. split; apply has_prefix_iff; [exists (k ++ "]")|exists (k ++ "]")]; reflexivity. Qed.

Lemma not_jsonpath_label k : ~ starts "jsonpath:" (sender_label k) /\ ~ starts "jsonpath:" (receiver_label k).
Proof. split; intros [r E]; discriminate. Qed.


Lemma value_label_ok (c : cond) (lab : labpart) v' lab' :
  (if has_prefix (c_value c) "receiverLabel[" then
       do k <- label_key (c_value c);
       Ok ("receiverLabel", mkLab (l_is_sender lab) (l_sender_key lab)
                              (l_is_receiver lab) (l_receiver_key lab) true k)
     else Ok (c_value c, lab)) = Ok (v', lab') ->
  l_is_sender lab' = l_is_sender lab /\ l_sender_key lab' = l_sender_key lab /\
  l_is_receiver lab' = l_is_receiver lab /\ l_receiver_key lab' = l_receiver_key lab /\
  (has_prefix (c_value c) "receiverLabel[" = false -> l_value_is_receiver lab' = l_value_is_receiver lab) /\
  (forall k, label_key_ok k -> c_value c = receiver_label k -> l_value_is_receiver lab' = true /\ l_value_key lab' = k).
Proof.
  intro H. destruct (has_prefix (c_value c) "receiverLabel[") eqn:EP.
  - apply rbind_ok in H. destruct H as (k & HK & H). injection H; intros <- <-. simpl. do 5 (split; [solve [auto|discriminate]|]).
    intros k0 HO E. split; [auto|]. rewrite E in HK.
    change (receiver_label k0) with ("receiverLabel" ++ "[" ++ k0 ++ "]") in HK.
    rewrite label_key_of in HK by (auto; simpl; repeat split; discriminate). congruence.
  - injection H; intros <- <-. do 5 (split; [solve [auto|discriminate]|]).
    intros k _ E0. exfalso. destruct (is_label_prefix k) as [_ E]. congruence.
Qed.

(** what preparation makes of a sender label *)
Lemma sender_label_handled k c c' : label_key_ok k -> c_attr c = sender_label k -> c_lab c = no_lab ->
  handle_labels L c = Ok c' ->
  c_attr c' = "senderLabel" /\ c_method c' = c_method c /\ c_num c' = c_num c /\ c_obj c' = c_obj c /\ c_ret c' = c_ret c /\
  l_is_sender (c_lab c') = true /\ l_sender_key (c_lab c') = k /\
  (has_prefix (c_value c) "receiverLabel[" = false -> l_value_is_receiver (c_lab c') = false) /\
  (forall k2, label_key_ok k2 -> c_value c = receiver_label k2 ->
      l_value_is_receiver (c_lab c') = true /\ l_value_key (c_lab c') = k2).
Proof.
  intros HK EA EL H. unfold handle_labels in H. rewrite EA in H. destruct (is_label_prefix k) as [EP _]. rewrite EP in H.
  change (sender_label k) with ("senderLabel" ++ "[" ++ k ++ "]") in H.
  rewrite label_key_of in H by (auto; simpl; repeat split; discriminate). cbn [rbind] in H.
  change (has_prefix "senderLabel" "receiverLabel[") with false in H. cbn [rbind] in H. rewrite EL in H.
  apply rbind_ok in H. destruct H as ((v & lab) & H3 & H). injection H; intros <-. cbn -[receiver_label].
  apply value_label_ok in H3. cbn -[receiver_label] in H3. destruct H3 as (A1 & A2 & A3 & A4 & A5 & A6). do 8 (split; [solve [auto]|]). exact A6.
Qed.
Lemma receiver_label_handled k c c' : label_key_ok k -> c_attr c = receiver_label k -> c_lab c = no_lab ->
  handle_labels L c = Ok c' ->
  c_attr c' = "receiverLabel" /\ c_method c' = c_method c /\ c_num c' = c_num c /\ c_obj c' = c_obj c /\ c_ret c' = c_ret c /\
  l_is_receiver (c_lab c') = true /\ l_receiver_key (c_lab c') = k.
Proof.
  intros HK EA EL H. unfold handle_labels in H. rewrite EA in H.
  change (has_prefix (receiver_label k) "senderLabel[") with false in H. cbn [rbind] in H.
  destruct (is_label_prefix k) as [_ EP]. rewrite EP in H.
  change (receiver_label k) with ("receiverLabel" ++ "[" ++ k ++ "]") in H.
  rewrite label_key_of in H by (auto; simpl; repeat split; discriminate). cbn [rbind] in H. rewrite EL in H.
  apply rbind_ok in H. destruct H as ((v & lab) & H3 & H). injection H; intros <-. cbn -[receiver_label].
  apply value_label_ok in H3. cbn -[receiver_label] in H3. destruct H3 as (A1 & A2 & A3 & A4 & A5 & A6). repeat split; auto.
Qed.

(** the other step leaves these alone *)
Lemma objects_kept c c' : handle_objects L c = Ok c' -> ~ starts "$sender." (c_attr c) -> ~ starts "$receiver." (c_attr c) ->
  c_attr c' = c_attr c /\ c_method c' = c_method c /\ c_num c' = c_num c /\ c_lab c' = c_lab c /\ c_ret c' = c_ret c.
Proof.
  intros H HS HR. apply starts_false in HS, HR. unfold handle_objects in H. rewrite HS in H. cbn [rbind] in H.
  rewrite HR in H. cbn [rbind] in H. apply rbind_ok in H. destruct H as ((v & o) & H3 & H). injection H; intros <-. auto.
Qed.
Lemma labels_kept c c' : handle_labels L c = Ok c' -> ~ starts "senderLabel[" (c_attr c) -> ~ starts "receiverLabel[" (c_attr c) ->
  c_attr c' = c_attr c /\ c_method c' = c_method c /\ c_num c' = c_num c /\ c_obj c' = c_obj c /\ c_ret c' = c_ret c /\
  (~ starts "receiverLabel[" (c_value c) -> c_value c' = c_value c).
Proof.
  intros H HS HR. apply starts_false in HS, HR. unfold handle_labels in H. rewrite HS in H. cbn [rbind] in H.
  rewrite HR in H. cbn [rbind] in H. apply rbind_ok in H. destruct H as ((v & o) & H3 & H). injection H; intros <-. cbn.
  repeat split; auto. intro HV. apply starts_false in HV. rewrite HV in H3. congruence.
Qed.

(** evaluation of the condition, as one equation *)
Definition plain_run (c : cond) (m : message) (r : option bool) : Prop :=
  forall ord t, test_condition L ord c (mkEst m t) = (option_map (fun x => (x, [])) r, mkEst m t).
Lemma run_plain c m b r : may_return L (NCond c) m b -> plain_run c m r -> r = Some b.
Proof.
  intros (ord & t & x & s & HF & H) E. simpl in H. rewrite E in H.
  destruct r; [injection H; intros; congruence|discriminate].
Qed.
Lemma run_panic c m r : plain_run c m r -> (may_panic L (NCond c) m <-> r = None).
Proof.
  intro E. split.
  - intros (ord & t & s & HF & H). simpl in H. rewrite E in H. destruct r; [discriminate|auto].
  - intros ->. exists (fun _ ks => ks), 0%nat, (mkEst m 0). split; [intros n ks; apply Permutation_refl|]. apply E.
Qed.

(** *** Texts *)
Ltac attr_of E := intros ord0 t0; unfold test_condition; rewrite E; reflexivity.

Lemma final_value_label method v k : method_is method k -> k <> KIn -> k <> KNin -> final_value method v = v.
Proof. intros. eapply method_list_kind; eauto. Qed.

Theorem sender_label_condition p key method value ret c v k m b : label_key_ok key ->
  prepares L p (sender_label key) method value ret c -> replaced p method value v -> ~ starts "receiverLabel[" v ->
  method_is method k -> may_return L (NCond c) m b ->
  (b = true <-> exists t, assoc key (m_source_labels m) = Some t /\ label_holds L k v t).
Proof.
  intros HK HP HR HV HM HB.
  destruct (prepared_attribute _ _ _ _ _ _ _ HP HR (proj1 (not_jsonpath_label key))) as (c0 & c1 & B & H1 & H2 & HS & HRE & _).
  apply (sender_label_handled key) in H1; [|auto|apply B..].
  destruct H1 as (A1 & A2 & A3 & A4 & A5 & A6 & A7 & A8 & _).
  apply objects_kept in H2; [|rewrite A1; intros [r E]; discriminate..].
  destruct H2 as (C1 & C2 & C3 & C4 & C5).
  apply run_plain with (r := Some (test_sender_label L c m)) in HB;
    [|assert (EA : c_attr c = "senderLabel") by congruence; attr_of EA].
  injection HB; intros <-. unfold test_sender_label. rewrite C4, A6, A7. cbn [negb].
  rewrite A8.
  2: { rewrite (b_value _ _ _ _ _ B). apply starts_false. unfold final_value. destruct (is_any method _); auto.
       intros [r E]. discriminate. }
  destruct (assoc key (m_source_labels m)) as [t|].
  - rewrite (label_method k method v t c); auto.
    + split; [eauto|]. intros (t' & E & H). congruence.
    + rewrite C2, A2. apply B.
    + rewrite C3, A3. apply B.
    + rewrite C3, A3. apply B.
  - split; [discriminate|]. intros (t & E & _). discriminate.
Qed.

Theorem receiver_label_condition p key method value ret c v k m b : label_key_ok key ->
  prepares L p (receiver_label key) method value ret c -> replaced p method value v ->
  method_is method k -> may_return L (NCond c) m b ->
  (b = true <-> exists t, assoc key (m_dest_labels m) = Some t /\ label_holds L k v t).
Proof.
  intros HK HP HR HM HB.
  destruct (prepared_attribute _ _ _ _ _ _ _ HP HR (proj2 (not_jsonpath_label key))) as (c0 & c1 & B & H1 & H2 & HS & HRE & _).
  apply (receiver_label_handled key) in H1; [|auto|apply B..].
  destruct H1 as (A1 & A2 & A3 & A4 & A5 & A6 & A7).
  apply objects_kept in H2; [|rewrite A1; intros [r E]; discriminate..].
  destruct H2 as (C1 & C2 & C3 & C4 & C5).
  apply run_plain with (r := Some (test_receiver_label L c m)) in HB;
    [|assert (EA : c_attr c = "receiverLabel") by congruence; attr_of EA].
  injection HB; intros <-. unfold test_receiver_label. rewrite C4, A6, A7. cbn [negb].
  destruct (assoc key (m_dest_labels m)) as [t|].
  - rewrite (label_method k method v t c); auto.
    + split; [eauto|]. intros (t' & E & H). congruence.
    + rewrite C2, A2. apply B.
    + rewrite C3, A3. apply B.
    + rewrite C3, A3. apply B.
  - split; [discriminate|]. intros (t & E & _). discriminate.
Qed.

Lemma label_sender_form p key method value ret c v : label_key_ok key ->
  prepares L p (sender_label key) method value ret c -> replaced p method value v ->
  (forall m, plain_run c m (Some (test_sender_label L c m))) /\
  l_is_sender (c_lab c) = true /\ l_sender_key (c_lab c) = key /\ c_method c = final_method method /\
  (forall k2, label_key_ok k2 -> final_value method v = receiver_label k2 ->
      l_value_is_receiver (c_lab c) = true /\ l_value_key (c_lab c) = k2).
Proof.
  intros HK HP HR.
  destruct (prepared_attribute _ _ _ _ _ _ _ HP HR (proj1 (not_jsonpath_label key))) as (c0 & c1 & B & H1 & H2 & HS & HRE & _).
  apply (sender_label_handled key) in H1; [|auto|apply B..].
  destruct H1 as (A1 & A2 & A3 & A4 & A5 & A6 & A7 & A8 & A9).
  apply objects_kept in H2; [|rewrite A1; intros [r E]; discriminate..].
  destruct H2 as (C1 & C2 & C3 & C4 & C5).
  split; [intro m; assert (EA : c_attr c = "senderLabel") by congruence; attr_of EA|].
  rewrite C4. do 2 (split; [solve [auto]|]). split; [rewrite C2, A2; apply B|].
  intros k2 HK2 E. apply A9; auto. rewrite <- E. apply B.
Qed.

Theorem label_pair_condition p key key2 method value ret c k m b : label_key_ok key -> label_key_ok key2 ->
  prepares L p (sender_label key) method value ret c -> replaced p method value (receiver_label key2) ->
  method_is method k -> k <> KIn -> k <> KNin -> may_return L (NCond c) m b ->
  (b = true <-> exists t u, assoc key (m_source_labels m) = Some t /\ assoc key2 (m_dest_labels m) = Some u /\ same_holds k t u).
Proof.
  intros HK HK2 HP HR HM N1 N2 HB.
  destruct (label_sender_form _ _ _ _ _ _ _ HK HP HR) as (E & A1 & A2 & A3 & A4).
  destruct (A4 key2) as [A5 A6]; [auto|eapply method_list_kind; eauto|].
  apply run_plain with (r := Some (test_sender_label L c m)) in HB; auto.
  injection HB; intros <-. unfold test_sender_label. rewrite A1, A2, A5, A6, A3. cbn [negb].
  destruct (assoc key (m_source_labels m)) as [t|]; [|split; [discriminate|intros (? & ? & ? & _); discriminate]].
  destruct (assoc key2 (m_dest_labels m)) as [u|]; [|split; [discriminate|intros (? & ? & _ & ? & _); discriminate]].
  rewrite (same_method k method) by auto. split; [eauto|]. intros (t' & u' & E1 & E2 & H). congruence.
Qed.

(** an absent label satisfies nothing, whatever the method and value *)
Theorem absent_label p key method value ret c v m b : label_key_ok key -> replaced p method value v ->
  (prepares L p (sender_label key) method value ret c /\ assoc key (m_source_labels m) = None \/
   prepares L p (receiver_label key) method value ret c /\ assoc key (m_dest_labels m) = None) ->
  may_return L (NCond c) m b -> b = false.
Proof.
  intros HK HR [[HP HA]|[HP HA]] HB.
  - destruct (label_sender_form _ _ _ _ _ _ _ HK HP HR) as (E & A1 & A2 & A3 & A4).
    apply run_plain with (r := Some (test_sender_label L c m)) in HB; auto.
    injection HB; intros <-. unfold test_sender_label. rewrite A1, A2, HA. auto.
  - destruct (prepared_attribute _ _ _ _ _ _ _ HP HR (proj2 (not_jsonpath_label key))) as (c0 & c1 & B & H1 & H2 & HS & HRE & _).
    apply (receiver_label_handled key) in H1; [|auto|apply B..].
    destruct H1 as (A1 & A2 & A3 & A4 & A5 & A6 & A7).
    apply objects_kept in H2; [|rewrite A1; intros [r E]; discriminate..].
    destruct H2 as (C1 & C2 & C3 & C4 & C5).
    apply run_plain with (r := Some (test_receiver_label L c m)) in HB;
      [|assert (EA : c_attr c = "receiverLabel") by congruence; attr_of EA].
    injection HB; intros <-. unfold test_receiver_label. rewrite C4, A6, A7, HA. auto.
Qed.

(** *** Attributes of the message *)
Lemma plain_attribute p att method value ret c v : prepares L p att method value ret c ->
  replaced p method value v -> In att ["requestUseragent"; "encryptionType"; "domain"; "payloadSize"; "utcHoursFromMidnight"; "encryptionVersion"] ->
  c_attr c = att /\ c_method c = final_method method /\
  n_regex (c_num c) = re_compile L (final_value method v) /\
  n_string_regex (c_num c) = re_compile L (convert_string_to_regex (final_value method v) method) /\
  (NumberSpec L -> n_float (c_num c) = or_else (float_with_units L (final_value method v)) (float_with_units L v) /\
     n_int (c_num c) = or_else (parse_int (final_value method v)) (parse_int v)) /\
  re_compile L (convert_string_to_regex (final_value method v) method) <> None /\
  (In (final_method method) regex_methods -> re_compile L (final_value method v) <> None).
Proof.
  intros HP HR HA.
  assert (NP : ~ starts "jsonpath:" att /\ ~ starts "senderLabel[" att /\ ~ starts "receiverLabel[" att /\
     ~ starts "$sender." att /\ ~ starts "$receiver." att).
  { simpl in HA. repeat (destruct HA as [<-|HA]; [repeat split; intros [r E]; discriminate|]). destruct HA. }
  destruct NP as (N1 & N2 & N3 & N4 & N5).
  destruct (prepared_attribute _ _ _ _ _ _ _ HP HR N1) as (c0 & c1 & B & H1 & H2 & HS & HRE & _).
  pose proof (b_attr _ _ _ _ _ B) as EA.
  apply labels_kept in H1; [|rewrite EA; auto..]. destruct H1 as (A1 & A2 & A3 & A4 & A5 & _).
  apply objects_kept in H2; [|rewrite A1, EA; auto..]. destruct H2 as (C1 & C2 & C3 & C4 & C5).
  split; [congruence|]. split; [rewrite C2, A2; apply B|]. rewrite C3, A3.
  split; [apply B|]. split; [apply B|]. split; [apply B|]. auto.
Qed.

(** the prefix and the name of an attribute of the sender or receiver *)
Lemma after_dot_sender x : after_dot ("$sender." ++ x) = Ok x.
Proof.
  unfold after_dot, index. change ("$sender." ++ x) with ("$sender" ++ String "." x).
  rewrite (index_before 0 "." "$sender" x) by (simpl; repeat split; discriminate).
  unfold slice_res, slice. rewrite length_append. simpl String.length.
  match goal with |- context [if ?b then _ else _] => replace b with true by (symmetry; rewrite !andb_true_iff, !Z.leb_le; lia) end.
  change (Z.to_nat (0 + Z.of_nat 7 + 1)) with 8%nat. simpl drop.
  replace (Z.to_nat _) with (String.length x) by lia. f_equal. apply take_all.
Qed.
Lemma after_dot_receiver x : after_dot ("$receiver." ++ x) = Ok x.
Proof.
  unfold after_dot, index. change ("$receiver." ++ x) with ("$receiver" ++ String "." x).
  rewrite (index_before 0 "." "$receiver" x) by (simpl; repeat split; discriminate).
  unfold slice_res, slice. rewrite length_append. simpl String.length.
  match goal with |- context [if ?b then _ else _] => replace b with true by (symmetry; rewrite !andb_true_iff, !Z.leb_le; lia) end.
  change (Z.to_nat (0 + Z.of_nat 9 + 1)) with 10%nat. simpl drop.
  replace (Z.to_nat _) with (String.length x) by lia. f_equal. apply take_all.
Qed.

Lemma object_attribute p (sender : bool) x method value ret c v :
  prepares L p ((if sender then "$sender." else "$receiver.") ++ x) method value ret c -> replaced p method value v ->
  c_attr c = (if sender then "$sender" else "$receiver") /\ c_method c = final_method method /\
  n_regex (c_num c) = re_compile L (final_value method v) /\
  n_string_regex (c_num c) = re_compile L (convert_string_to_regex (final_value method v) method) /\
  re_compile L (convert_string_to_regex (final_value method v) method) <> None /\
  (In (final_method method) regex_methods -> re_compile L (final_value method v) <> None) /\
  (if sender then o_sender_attr (c_obj c) = x else o_receiver_attr (c_obj c) = x) /\
  (~ starts "$receiver." (final_value method v) -> ~ starts "receiverLabel[" (final_value method v) -> o_value_is_receiver (c_obj c) = false) /\
  (forall y, final_value method v = "$receiver." ++ y -> o_value_is_receiver (c_obj c) = true /\ o_value_attr (c_obj c) = y).
Proof.
  intros HP HR. set (att := (if sender then "$sender." else "$receiver.") ++ x) in *.
  assert (NP : ~ starts "jsonpath:" att /\ ~ starts "senderLabel[" att /\ ~ starts "receiverLabel[" att).
  { unfold att. destruct sender; repeat split; intros [r E]; discriminate. }
  destruct NP as (N1 & N2 & N3).
  destruct (prepared_attribute _ _ _ _ _ _ _ HP HR N1) as (c0 & c1 & B & H1 & H2 & HS & HRE & _).
  pose proof (b_attr _ _ _ _ _ B) as EA. pose proof (b_value _ _ _ _ _ B) as EV.
  apply labels_kept in H1; [|rewrite EA; auto..]. destruct H1 as (A1 & A2 & A3 & A4 & A5 & A6).
  unfold handle_objects in H2. rewrite A1, EA, A4, (b_obj _ _ _ _ _ B) in H2.
  assert (HX : exists v' obj, 
    (if has_prefix (c_value c1) "$receiver." then
       do k <- after_dot (c_value c1);
       Ok ("$receiver", mkObj sender (negb sender) true (if sender then x else "") (if sender then "" else x) k)
     else Ok (c_value c1, mkObj sender (negb sender) false (if sender then x else "") (if sender then "" else x) "")) = Ok (v', obj) /\
    c = mkCond (if sender then "$sender" else "$receiver") (c_method c1) v' (c_num c1) (c_lab c1) obj (c_jp c1) (c_ret c1) (c_orig c1)).
  { unfold att in H2. destruct sender.
    - replace (has_prefix ("$sender." ++ x) "$sender.") with true in H2 by (symmetry; apply starts_iff; exists x; auto).
      rewrite after_dot_sender in H2. cbn [rbind] in H2.
      change (has_prefix "$sender" "$receiver.") with false in H2. cbn [rbind] in H2.
      apply rbind_ok in H2. destruct H2 as ((v' & obj) & H3 & H). injection H; intros <-. exists v', obj. auto.
    - change (has_prefix ("$receiver." ++ x) "$sender.") with false in H2. cbn [rbind] in H2.
      replace (has_prefix ("$receiver." ++ x) "$receiver.") with true in H2 by (symmetry; apply starts_iff; exists x; auto).
      rewrite after_dot_receiver in H2. cbn [rbind] in H2.
      apply rbind_ok in H2. destruct H2 as ((v' & obj) & H3 & H). injection H; intros <-. exists v', obj. auto. }
  destruct HX as (v' & obj & HO & ->). cbn [c_attr c_method c_num c_obj]. clear H2.
  split; [auto|]. split; [rewrite A2; apply B|]. rewrite A3. do 4 (split; [solve [auto|apply B]|]).
  rewrite EV in A6.
  destruct (has_prefix (c_value c1) "$receiver.") eqn:EP.
  - apply rbind_ok in HO. destruct HO as (k & HK & HO). injection HO; intros <- <-.
    cbn [o_sender_attr o_receiver_attr o_value_is_receiver o_value_attr].
    split; [destruct sender; auto|]. split.
    + intros X1 X2. apply starts_iff in EP. rewrite A6 in EP by auto. contradiction.
    + intros y E. split; [auto|]. rewrite A6, E, after_dot_receiver in HK; [congruence|]. rewrite E. intros [r X]. discriminate.
  - injection HO; intros <- <-. cbn [o_sender_attr o_receiver_attr o_value_is_receiver o_value_attr].
    split; [destruct sender; auto|]. split; [auto|].
    intros y E. exfalso. apply starts_false in EP. apply EP. rewrite A6, E; [exists y; auto|].
    rewrite E. intros [r X]. discriminate.
Qed.

Theorem text_attribute p att field method value ret c v k m b : In (att, field) text_fields ->
  prepares L p att method value ret c -> replaced p method value v -> plain_value v ->
  method_is method k -> may_return L (NCond c) m b -> (b = true <-> text_holds L k v (field m)).
Proof.
  intros HA HP HR [HV1 HV2] HM HB.
  assert (FV : ~ starts "$receiver." (final_value method v) /\ ~ starts "receiverLabel[" (final_value method v)).
  { unfold final_value. destruct (is_any method _); auto. split; intros [r E]; discriminate. }
  destruct FV as [FV1 FV2].
  unfold text_fields in HA. simpl in HA.
  assert (PL : In att ["requestUseragent"; "encryptionType"; "domain"] ->
    plain_run c m (Some (compare_text_attr L c (field m))) ->
    (b = true <-> text_holds L k v (field m))).
  { intros HI E. apply run_plain with (r := Some (compare_text_attr L c (field m))) in HB; auto.
    injection HB; intros <-.
    destruct (plain_attribute _ _ _ _ _ _ _ HP HR) as (E1 & E2 & E3 & E4 & _ & E6 & E7); [simpl in *; tauto|].
    eapply text_method; eauto. }
  assert (OB : forall sender x, att = (if sender : bool then "$sender." else "$receiver.") ++ x ->
    (forall m, field m = get_attribute sender x m) -> (b = true <-> text_holds L k v (field m))).
  { intros sender x EA EF. subst att.
    destruct (object_attribute _ _ _ _ _ _ _ _ HP HR) as (E1 & E2 & E3 & E4 & E5 & E6 & E7 & E8 & _). specialize (E8 FV1 FV2).
    apply run_plain with (r := Some (compare_text_attr L c (field m))) in HB.
    - injection HB; intros <-. eapply text_method; eauto.
    - rewrite EF. destruct sender; intros ord t; unfold test_condition; rewrite E1; cbn -[test_sender_attr test_receiver_attr compare_text_attr].
      + unfold test_sender_attr. rewrite E8, E7. reflexivity.
      + unfold test_receiver_attr. rewrite E7. reflexivity. }
  repeat (destruct HA as [HA|HA]; [injection HA; intros EF EA; subst att field;
    first [ apply PL; [simpl; tauto|]; destruct (plain_attribute _ _ _ _ _ _ _ HP HR) as (E1 & _); [simpl; tauto|]; attr_of E1
          | apply (OB true "namespace"); reflexivity | apply (OB true "cluster"); reflexivity
          | apply (OB false "namespace"); reflexivity | apply (OB false "cluster"); reflexivity ]|]).
  destruct HA.
Qed.

(** the sender's attribute against the receiver's *)
Theorem sender_receiver_attribute p x y method value ret c k m b : In x ["namespace"; "cluster"] -> In y ["namespace"; "cluster"] ->
  prepares L p ("$sender." ++ x) method value ret c -> replaced p method value ("$receiver." ++ y) ->
  method_is method k -> k <> KIn -> k <> KNin -> may_return L (NCond c) m b ->
  (b = true <-> same_holds k (if String.eqb x "namespace" then m_source_namespace m else m_source_cluster m)
                             (if String.eqb y "namespace" then m_dest_namespace m else m_dest_cluster m)).
Proof.
  intros HX HY HP HR HM N1 N2 HB.
  destruct (object_attribute _ true _ _ _ _ _ _ HP HR) as (E1 & E2 & E3 & E4 & E5 & E6 & E7 & _ & E8).
  destruct (E8 y) as [E9 E10]; [eapply method_list_kind; eauto|].
  apply run_plain with (r := Some (test_sender_attr L c m)) in HB; [|attr_of E1].
  injection HB; intros <-. unfold test_sender_attr. rewrite E9, E10, E7, E2.
  rewrite (same_method k method) by auto.
  destruct HX as [<-|[<-|[]]], HY as [<-|[<-|[]]]; simpl; tauto.
Qed.

(** *** Numbers of the message *)
Lemma compare_int_op method k a z : method_is method k -> In k number_kinds ->
  exists r, compare_int a method (Some z) = Some r /\ (r = true <-> int_holds k a z).
Proof.
  intros H HK. simpl in HK. method_cases H;
    try (exfalso; repeat (destruct HK as [HK|HK]; [discriminate|]); solve [destruct HK]);
    (eexists; split; [reflexivity|]); unfold int_holds, float_holds;
    rewrite ?negb_true_iff, ?Z.eqb_eq, ?Z.eqb_neq, ?Z.leb_le, ?Z.ltb_lt; lia.
Qed.
Lemma compare_int_none method k a : method_is method k -> In k number_kinds -> compare_int a method None = None.
Proof.
  intros H HK. simpl in HK. method_cases H; try reflexivity;
    exfalso; repeat (destruct HK as [HK|HK]; [discriminate|]); destruct HK.
Qed.
Lemma compare_float_ops method k a z : method_is method k -> In k number_kinds ->
  exists r, compare_float a method (Some z) = Some r /\ (r = true <-> float_holds k a z).
Proof.
  intros H HK. simpl in HK. method_cases H;
    try (exfalso; repeat (destruct HK as [HK|HK]; [discriminate|]); solve [destruct HK]);
    (eexists; split; [reflexivity|]); unfold int_holds, float_holds; rewrite ?negb_true_iff; tauto.
Qed.
Lemma compare_other method k a o a' o' : method_is method k -> ~ In k number_kinds ->
  compare_int a (final_method method) o = Some false /\ compare_float a' (final_method method) o' = Some false /\
  (forall x y, ~ int_holds k x y) /\ (forall x y, ~ float_holds k x y).
Proof.
  intros H HK. simpl in HK. method_cases H; try (exfalso; tauto); (split; [reflexivity|]); (split; [reflexivity|]); split; intros x y [].
Qed.
Lemma kind_dec k : In k number_kinds \/ ~ In k number_kinds.
Proof. destruct k; simpl; intuition discriminate. Qed.
Lemma number_not_list k : In k number_kinds -> k <> KIn /\ k <> KNin.
Proof. simpl. intros H. split; intros ->; intuition discriminate. Qed.

(** the size of the payload, compared with an integer *)
Theorem size_attribute p method value ret c v k m : NumberSpec L ->
  prepares L p "payloadSize" method value ret c -> replaced p method value v -> method_is method k ->
  (forall b, may_return L (NCond c) m b -> (b = true <-> exists z, parse_int v = Some z /\ int_holds k (m_size m) z)) /\
  (may_panic L (NCond c) m <-> In k number_kinds /\ parse_int v = None).
Proof.
  intros HN HP HR HM. destruct (plain_attribute _ _ _ _ _ _ _ HP HR) as (E1 & E2 & _ & _ & E5 & _); [simpl; tauto|].
  destruct (E5 HN) as [_ EI].
  assert (R : plain_run c m (compare_int (m_size m) (c_method c) (n_int (c_num c)))).
  { intros ord t. unfold test_condition. rewrite E1. cbn -[compare_int].
    unfold mbind, mopt, mmsg. cbn [e_msg]. destruct (compare_int _ _ _); reflexivity. }
  split.
  - intros b HB. pose proof (run_plain _ _ _ _ HB R) as HC. rewrite E2, EI in HC. clear - HC HM.
    destruct (kind_dec k) as [HK|HK].
    + destruct (number_not_list _ HK) as [N1 N2]. rewrite (method_list_kind _ _ HM N1 N2), or_else_idem in HC.
      rewrite (final_numeric _ _ HM) in HC by exact HK.
      destruct (parse_int v) as [z|].
      * destruct (compare_int_op method k (m_size m) z HM HK) as (r & E & I). rewrite E in HC. injection HC; intros ->.
        rewrite I. split; [eauto|]. intros (z' & E' & H). congruence.
      * rewrite (compare_int_none method k) in HC by auto. discriminate.
    + destruct (compare_other method k (m_size m) (or_else (parse_int (final_value method v)) (parse_int v)) (f64_of_Z 0) None HM HK) as (E & _ & X & _).
      rewrite E in HC. injection HC; intros <-. split; [discriminate|]. intros (z & _ & H). destruct (X _ _ H).
  - rewrite (run_panic _ _ _ R), E2, EI. clear - HM. destruct (kind_dec k) as [HK|HK].
    + destruct (number_not_list _ HK) as [N1 N2]. rewrite (method_list_kind _ _ HM N1 N2), or_else_idem.
      rewrite (final_numeric _ _ HM) by exact HK.
      destruct (parse_int v) as [z|].
      * destruct (compare_int_op method k (m_size m) z HM HK) as (r & E & I). rewrite E. split; [discriminate|]. intros [_ H]; discriminate.
      * rewrite (compare_int_none method k) by auto. tauto.
    + destruct (compare_other method k (m_size m) (or_else (parse_int (final_value method v)) (parse_int v)) (f64_of_Z 0) None HM HK) as (E & _ & X & _).
      rewrite E. split; [discriminate|tauto].
Qed.

(** hour of the day and version of the encryption, compared with a number *)
Lemma float_run p method value ret c v k m a att : NumberSpec L ->
  prepares L p att method value ret c -> replaced p method value v -> method_is method k ->
  In att ["utcHoursFromMidnight"; "encryptionVersion"] ->
  plain_run c m (compare_float a (c_method c) (n_float (c_num c))) ->
  (forall b, may_return L (NCond c) m b -> (b = true <-> exists x, quantity L v x /\ float_holds k a x)) /\
  (may_panic L (NCond c) m <-> In k number_kinds /\ not_number L v).
Proof.
  intros HN HP HR HM HA R. destruct (plain_attribute _ _ _ _ _ _ _ HP HR) as (E1 & E2 & _ & _ & E5 & _); [simpl in *; tauto|].
  destruct (E5 HN) as [EF _]. split.
  - intros b HB. pose proof (run_plain _ _ _ _ HB R) as HC. rewrite E2, EF in HC. clear - HC HM.
    destruct (kind_dec k) as [HK|HK].
    + destruct (number_not_list _ HK) as [N1 N2]. rewrite (method_list_kind _ _ HM N1 N2), or_else_idem in HC.
      rewrite (final_numeric _ _ HM) in HC by exact HK.
      destruct (float_with_units L v) as [z|] eqn:EV.
      * apply number_iff in EV. destruct (compare_float_ops method k a z HM HK) as (r & E & I). rewrite E in HC. injection HC; intros ->.
        rewrite I. split; [eauto|]. intros (z' & E' & H). rewrite (quantity_fun L _ _ _ EV E'). auto.
      * rewrite (compare_float_none method k) in HC by auto. discriminate.
    + destruct (compare_other method k 0%Z None a (or_else (float_with_units L (final_value method v)) (float_with_units L v)) HM HK) as (_ & E & _ & X).
      rewrite E in HC. injection HC; intros <-. split; [discriminate|]. intros (z & _ & H). destruct (X _ _ H).
  - rewrite (run_panic _ _ _ R), E2, EF. clear - HM. destruct (kind_dec k) as [HK|HK].
    + destruct (number_not_list _ HK) as [N1 N2]. rewrite (method_list_kind _ _ HM N1 N2), or_else_idem.
      rewrite (final_numeric _ _ HM) by exact HK. rewrite <- not_number_iff.
      destruct (float_with_units L v) as [z|].
      * destruct (compare_float_ops method k a z HM HK) as (r & E & I). rewrite E. split; [discriminate|]. intros [_ H]; discriminate.
      * rewrite (compare_float_none method k) by auto. tauto.
    + destruct (compare_other method k 0%Z None a (or_else (float_with_units L (final_value method v)) (float_with_units L v)) HM HK) as (_ & E & _ & X).
      rewrite E. split; [discriminate|tauto].
Qed.

Theorem hours_attribute p method value ret c v k m : NumberSpec L ->
  prepares L p "utcHoursFromMidnight" method value ret c -> replaced p method value v -> method_is method k ->
  (forall b, may_return L (NCond c) m b -> (b = true <-> exists x, quantity L v x /\ float_holds k (m_t_hours m) x)) /\
  (may_panic L (NCond c) m <-> In k number_kinds /\ not_number L v).
Proof.
  intros HN HP HR HM. eapply float_run; eauto; [simpl; tauto|].
  destruct (plain_attribute _ _ _ _ _ _ _ HP HR) as (E1 & _); [simpl; tauto|].
  intros ord t. unfold test_condition. rewrite E1. cbn -[compare_float].
  unfold mbind, mopt, mmsg. cbn [e_msg]. destruct (compare_float _ _ _); reflexivity.
Qed.

Theorem version_attribute p method value ret c v k m : NumberSpec L ->
  prepares L p "encryptionVersion" method value ret c -> replaced p method value v -> method_is method k ->
  (forall b, may_return L (NCond c) m b ->
     (b = true <-> exists a x, m_enc_version m = Some a /\ quantity L v x /\ float_holds k a x)) /\
  (may_panic L (NCond c) m <-> m_enc_version m = None \/ In k number_kinds /\ not_number L v).
Proof.
  intros HN HP HR HM.
  destruct (plain_attribute _ _ _ _ _ _ _ HP HR) as (E1 & _); [simpl; tauto|].
  destruct (m_enc_version m) as [a|] eqn:EV.
  - assert (R : plain_run c m (compare_float a (c_method c) (n_float (c_num c)))).
    { intros ord t. unfold test_condition. rewrite E1. cbn -[compare_float].
      unfold mbind, mopt, mmsg. cbn [e_msg]. rewrite EV. destruct (compare_float _ _ _); reflexivity. }
    destruct (float_run _ _ _ _ _ _ _ _ _ _ HN HP HR HM ltac:(simpl; tauto) R) as [A B]. split.
    + intros b HB. rewrite (A b HB). split.
      * intros (x & Q & H). eauto.
      * intros (a' & x & E & Q & H). injection E; intros <-. eauto.
    + rewrite B. split; [auto|]. intros [H|H]; [discriminate|auto].
  - assert (R : plain_run c m None).
    { intros ord t. unfold test_condition. rewrite E1. cbn -[compare_float]. unfold mbind, mmsg. cbn [e_msg]. rewrite EV. reflexivity. }
    split.
    + intros b HB. pose proof (run_plain _ _ _ _ HB R). discriminate.
    + rewrite (run_panic _ _ _ R). tauto.
Qed.

(** labels and texts never make evaluation panic *)
Theorem text_no_panic p att method value ret c v m :
  (exists field, In (att, field) text_fields) \/ (exists key, label_key_ok key /\ (att = sender_label key \/ att = receiver_label key)) ->
  prepares L p att method value ret c -> replaced p method value v -> ~ may_panic L (NCond c) m.
Proof.
  intros HA HP HR.
  assert (exists r, plain_run c m (Some r)) as [r R]; [|rewrite (run_panic _ _ _ R); discriminate].
  destruct HA as [[field HA]|(key & HK & HA)].
  - assert (OB : forall sender x, att = (if sender : bool then "$sender." else "$receiver.") ++ x -> exists r, plain_run c m (Some r)).
    { intros sender x EA. subst att. destruct (object_attribute _ _ _ _ _ _ _ _ HP HR) as (E1 & _).
      destruct sender; [exists (test_sender_attr L c m)|exists (test_receiver_attr L c m)]; attr_of E1. }
    unfold text_fields in HA. simpl in HA.
    repeat (destruct HA as [HA|HA]; [injection HA; intros EF EA; subst att field;
    first [ destruct (plain_attribute _ _ _ _ _ _ _ HP HR) as (E1 & _); [simpl; tauto|];
            first [solve [exists (compare_text_attr L c (m_useragent m)); attr_of E1] | solve [exists (compare_text_attr L c (m_enc_type m)); attr_of E1]
                  | solve [exists (compare_text_attr L c (m_domain m)); attr_of E1]]
          | apply (OB true "namespace"); reflexivity | apply (OB true "cluster"); reflexivity
          | apply (OB false "namespace"); reflexivity | apply (OB false "cluster"); reflexivity ]|]).
    destruct HA.
  - destruct HA as [-> | ->].
    + destruct (label_sender_form _ _ _ _ _ _ _ HK HP HR) as (E & _). eauto.
    + destruct (prepared_attribute _ _ _ _ _ _ _ HP HR (proj2 (not_jsonpath_label key))) as (c0 & c1 & B & H1 & H2 & HS & HRE & _).
      apply (receiver_label_handled key) in H1; [|auto|apply B..].
      destruct H1 as (A1 & _). apply objects_kept in H2; [|rewrite A1; intros [r E]; discriminate..].
      destruct H2 as (C1 & _). rewrite A1 in C1. exists (test_receiver_label L c m). attr_of C1.
Qed.

End WithLib.
