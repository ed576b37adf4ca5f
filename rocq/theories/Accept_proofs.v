(** Which conditions, trees and rules can be prepared. *)
From Coq Require Import List String Ascii Bool Arith ZArith Lia.
From Verif Require Import Base GoStr GoStr_facts GoFloat Types Json StrUtils Validate Prepare Parse Marshal Lifecycle Spec_Tree Tree_proofs Spec_Regex Spec_Glob Glob_proofs Spec_Match Match_proofs Names_proofs
  Spec_Leaf Number_proofs Leaf_proofs Leaf_laws Attr_proofs Spec_Validate Validate_proofs Prepare_proofs Spec_Load Spec_Names Load_proofs Spec_Grammar Grammar_proofs Mongo_proofs Spec_Accept.
Import ListNotations.
Open Scope string_scope.
Local Arguments String.prefix : simpl never.

(** ** Quotation marks *)
Lemma marks_differ : sq <> dq.
Proof. discriminate. Qed.
Definition no_mark (s : string) : Prop := forall q x, quote_mark q -> s <> String q x.

Lemma inside_name q (single : bool) name rest : q = (if single then sq else dq) -> all_chars (fun c => ~ quote_mark c) name -> forall pd,
  (name = "" -> pd = false) -> (forall a, name <> a ++ ".") ->
  remove_dot_quotes_from pd single (negb single) (name ++ String q rest) = name ++ remove_dot_quotes_from false false false rest.
Proof.
  intro HQ. induction name as [|c name IH]; intros HC pd HP HE.
  - rewrite (HP eq_refl). cbn [append remove_dot_quotes_from andb]. subst q. destruct single; cbn [negb andb].
    + rewrite Ascii.eqb_refl. reflexivity.
    + rewrite Ascii.eqb_refl. reflexivity.
  - destruct HC as [HC HR]. cbn [append remove_dot_quotes_from].
    assert (E1 : Ascii.eqb c sq = false) by (apply Ascii.eqb_neq; intro E; apply HC; left; auto).
    assert (E2 : Ascii.eqb c dq = false) by (apply Ascii.eqb_neq; intro E; apply HC; right; auto).
    rewrite E1, E2, !andb_false_r. f_equal. apply IH; auto.
    + intros ->. apply Ascii.eqb_neq. intros ->. apply (HE ""). reflexivity.
    + intros a E. apply (HE (String c a)). rewrite E. reflexivity.
Qed.

Lemma unquoted_from s u : unquoted s u -> forall pd, (pd = true -> no_mark s) -> remove_dot_quotes_from pd false false s = u.
Proof.
  induction 1 as [|q name rest rest' HQ HN HE H IH|c rest rest' HC H IH]; intros pd HP; [reflexivity| |].
  - cbn [remove_dot_quotes_from]. change (Ascii.eqb "." sq) with false. change (Ascii.eqb "." dq) with false. rewrite !andb_false_r. cbn [andb]. f_equal.
    change (Ascii.eqb "." ".") with true. cbn [andb].
    destruct HQ as [->| ->].
    + rewrite Ascii.eqb_refl. pose proof (inside_name sq true name rest eq_refl HN false (fun _ => eq_refl) HE) as I. cbn [negb] in I. rewrite I. f_equal. apply IH. discriminate.
    + change (Ascii.eqb dq sq) with false. rewrite Ascii.eqb_refl. pose proof (inside_name dq false name rest eq_refl HN false (fun _ => eq_refl) HE) as I. cbn [negb] in I. rewrite I. f_equal. apply IH. discriminate.
  - cbn [remove_dot_quotes_from].
    assert (E1 : pd && Ascii.eqb c sq = false).
    { destruct pd; [|reflexivity]. cbn [andb]. apply Ascii.eqb_neq. intros ->. apply (HP eq_refl sq rest); [left|]; reflexivity. }
    assert (E2 : pd && Ascii.eqb c dq = false).
    { destruct pd; [|reflexivity]. cbn [andb]. apply Ascii.eqb_neq. intros ->. apply (HP eq_refl dq rest); [right|]; reflexivity. }
    rewrite E1, E2. cbn [andb]. f_equal. apply IH. intros E q x HQ. apply Ascii.eqb_eq in E. apply HC; auto.
Qed.
Lemma unquoted_iff s u : unquoted s u -> remove_dot_quotes s = u.
Proof. intro H. apply unquoted_from; auto. discriminate. Qed.

(** a text without quotation marks *)
Lemma unmarked s : all_chars (fun c => ~ quote_mark c) s -> unquoted s s.
Proof.
  induction s as [|c s IH]; [constructor|]. intros [H1 H2]. apply uq_char; auto. intros _ q x HQ E. destruct s as [|d s]; [discriminate E|].
  injection E as -> _. exact (proj1 H2 HQ).
Qed.
Lemma unmarked_well_quoted att : all_chars (fun c => ~ quote_mark c) att ->
  (forall rest, att = "jsonpath:$KEY" ++ rest -> ~ occurs "$RELATIVE." rest) -> (forall rest, att = "jsonpath:$VALUE" ++ rest -> ~ occurs "$RELATIVE." rest) -> well_quoted att.
Proof.
  intros HC HK HV path -> HP. assert (HN : all_chars (fun c => ~ quote_mark c) path) by (apply (all_chars_app _ "jsonpath:" path) in HC; apply HC). clear HC.
  assert (HS : forall w r, path = w ++ r -> all_chars (fun c => ~ quote_mark c) r) by (intros w r ->; apply all_chars_app in HN; apply HN).
  assert (HD : forall r, all_chars (fun c => ~ quote_mark c) r -> unquoted ("$" ++ r) ("$" ++ r)).
  { intros r H. apply unmarked. split; [intros [E|E]; discriminate E|exact H]. }
  destruct HP as [[r E]|[[r E]|[[r E]|[E|[[[r E] NE]|[r E]]]]]].
  - exists false, (tidied ("$" ++ path)). apply qo_short; [exists r; exact E|]. apply HD. exact HN.
  - exists false, (tidied ("$." ++ r)). rewrite E. apply (qo_absolute ("." ++ r)); [exists r; reflexivity|]. apply HD. apply (HS "$"). exact E.
  - exists true, (tidied ("$." ++ r)). rewrite E. apply (qo_relative ("." ++ r)); [exists r; reflexivity|]. apply HD. apply (HS "$RELATIVE"). exact E.
  - exists true, "$". rewrite E. apply qo_element.
  - exists true, (tidied ("$KEY" ++ r)). rewrite E. apply qo_key.
    + intros [x ->]. apply NE. exists x. rewrite E. reflexivity.
    + apply HK. rewrite E. reflexivity.
    + apply unmarked. rewrite <- E. exact HN.
  - exists true, (tidied ("$VALUE" ++ r)). rewrite E. apply qo_value.
    + apply HV. rewrite E. reflexivity.
    + apply unmarked. rewrite <- E. exact HN.
Qed.

(** ** Expressions *)
Lemma wildcards_escape s : wildcards s = escape_pattern s.
Proof.
  rewrite escape_pattern_cmap. induction s as [|c s IH]; [reflexivity|]. cbn [wildcards cmap]. rewrite IH. f_equal.
  clear. destruct c as [[] [] [] [] [] [] [] []]; reflexivity.
Qed.

Section WithLib.
Variable L : Lib.

Lemma alternatives_one v : split_char "," (list_to_alternatives v) = [list_to_alternatives v] /\ trim_space (list_to_alternatives v) = list_to_alternatives v.
Proof.
  split.
  - symmetry. apply comma_items_iff. split; [discriminate|]. split; [|reflexivity]. constructor; [|constructor].
    unfold list_to_alternatives. rewrite !replace_all_one. set (s := cmap _ (cmap _ v)). clearbody s.
    apply all_chars_app. split; [split; [discriminate|exact I]|]. apply all_chars_app. split; [|split; [discriminate|exact I]].
    induction s as [|c s IH]; [exact I|]. cbn [cmap]. apply all_chars_app. split; [|exact IH].
    unfold subst1. destruct (Ascii.eqb c ",") eqn:E.
    + simpl. repeat split; discriminate.
    + split; [|exact I]. apply Ascii.eqb_neq. exact E.
  - symmetry. apply trimmed_iff. exists "", "". rewrite append_nil_r. split; [reflexivity|]. split; [constructor|]. split; [constructor|].
    assert (HW : forall w, In w white_chars -> exists y c, w = y ++ String c "" /\ c <> "$"%char /\ forall x z, String "^" x <> w ++ z).
    { apply Forall_forall. unfold white_chars. cbn [map app seq byte_text string_of_list_ascii].
      repeat (constructor; [match goal with
        | |- exists y c, String ?a "" = _ /\ _ => exists "", a
        | |- exists y c, String ?a (String ?b "") = _ /\ _ => exists (String a ""), b
        | |- exists y c, String ?a (String ?b (String ?d "")) = _ /\ _ => exists (String a (String b "")), d
        end; split; [reflexivity|]; split; [discriminate|intros x z; discriminate]|]). constructor. }
    split.
    + intros w t' HI. destruct (HW w HI) as (_ & _ & _ & _ & H). apply H.
    + intros w t' HI E. destruct (HW w HI) as (z & c & -> & HC & _). rewrite <- append_assoc in E. revert E. generalize (t' ++ z) as u. clear - HC. intros u E.
      unfold list_to_alternatives in E. cbv zeta in E.
      match type of E with "^" ++ ?x ++ "$" = _ => change ("^" ++ x ++ "$") with (("^" ++ x) ++ String "$" "") in E end.
      apply HC. clear HC. revert u E. generalize ("^" ++ replace_all (replace_all (replace_all v "[" "") "]" "") "," "$|^") as y. intro y.
      induction y as [|d y IH]; intros t' E.
      * destruct t' as [|e t']; [injection E as <-; reflexivity|]. injection E as _ E. destruct t'; discriminate E.
      * destruct t' as [|e t']; [injection E as _ E; destruct y; discriminate E|]. injection E as _ E. eapply IH; eauto.
Qed.
Lemma whole_regex method k v : method_is method k -> convert_string_to_regex (final_value method v) method = whole_value method v.
Proof.
  intro HM. unfold convert_string_to_regex, whole_value, final_value.
  destruct (is_any method ["IN"; "NIN"]) eqn:E1.
  - apply is_any_iff in E1. assert (E2 : is_any method ["IN"; "NIN"; "WithWildcards"] = true /\ is_any method ["IN"; "NIN"; "IS"] = true).
    { split; apply is_any_iff; destruct E1 as [<-|[<-|[]]]; simpl; auto. }
    destruct E2 as [-> ->]. destruct (alternatives_one v) as [A1 A2]. rewrite A1. cbn [regex_items]. rewrite A2, wildcards_escape, append_nil_r.
    rewrite !append_assoc. reflexivity.
  - destruct (String.eqb method "IS") eqn:E2; [apply String.eqb_eq in E2; subst; reflexivity|].
    apply String.eqb_neq in E2. apply is_any_false in E1. assert (E3 : is_any method ["IN"; "NIN"; "IS"] = false) by (apply is_any_false; simpl in *; intuition congruence).
    rewrite E3. destruct (is_any method ["IN"; "NIN"; "WithWildcards"]) eqn:E4; [|reflexivity].
    exfalso. apply is_any_iff in E4. assert (EW : method = "WithWildcards") by (simpl in E1, E4; intuition congruence). subst method.
    clear -HM. method_cases HM.
Qed.

(** ** Steps of the preparation of a condition *)
Lemma replaces p (c : cond L) v k : replaced p (c_method c) (c_value c) v -> method_is (c_method c) k -> (k = KRe \/ k = KNre -> re_compile L v <> None) ->
  replace_in_condition L p c = Ok (set_value L c v).
Proof.
  intros HR HM HV. unfold replace_in_condition, replaceable_list, replaceable_string. destruct HR as [N|name l E A|name x E A B].
  - apply starts_false in N. rewrite N. cbv iota. f_equal. destruct c; reflexivity.
  - rewrite E. change ("#" ++ name) with (String "#" name). change (has_prefix (String "#" name) "#") with (has_prefix ("#" ++ name) "#").
    rewrite has_prefix_app, replace_first_head. cbn [append]. rewrite A.
    destruct (is_any (c_method c) ["RE"; "NRE"]) eqn:EM; rewrite join_concat; [|reflexivity].
    assert (HC : re_compile L (String.concat "|" l) <> None).
    { apply HV. apply is_any_iff in EM. clear -HM EM. revert EM HM. generalize (c_method c). intros w EM HM. method_cases HM; simpl in EM; intuition discriminate. }
    destruct (re_compile L _); [reflexivity|congruence].
  - rewrite E. change ("#" ++ name) with (String "#" name). change (has_prefix (String "#" name) "#") with (has_prefix ("#" ++ name) "#").
    rewrite has_prefix_app, replace_first_head. cbn [append]. rewrite A, B. reflexivity.
Qed.

Lemma validates_texts (c d : cond L) : c_attr c = c_attr d -> c_method c = c_method d -> c_value c = c_value d ->
  (exists c', validate_condition L c = Ok c') -> exists d', validate_condition L d = Ok d'.
Proof.
  intros E1 E2 E3 [c' H]. unfold validate_condition, validate_numerical in *. rewrite E1, E2, E3 in H.
  destruct (validate_attribute _ _ _) as [[]| |]; try discriminate. cbn [rbind] in *. destruct (validate_method L _ _) as [[]| |]; try discriminate. cbn [rbind] in *.
  destruct (negb _ && _); [discriminate|]. destruct (negb _ && _); [discriminate|]. eauto.
Qed.
Lemma validates_iff (c : cond L) : (exists c', validate_condition L c = Ok c') <-> acceptable L (c_attr c) (c_method c) (c_value c).
Proof. rewrite (condition_accepted L _ _ _ (c_ret c)). split; apply validates_texts; reflexivity. Qed.

Lemma jsonpath_query path rel q (c : cond L) : query_of path rel q -> c_attr c = "jsonpath:" ++ path ->
  exists c', handle_jsonpath L c = Ok c' /\ j_is (c_jp c') = true /\ j_query (c_jp c') = q /\ j_rel (c_jp c') = rel.
Proof.
  intros HQ E. unfold handle_jsonpath. rewrite E, has_prefix_app, jsonpath_net. cbn [rbind].
  assert (HG : exists net net', (if slice_has_prefix ["$RELATIVE."; "$KEY"; "$VALUE"] path
      then (replace_first path "$RELATIVE." "$.", true)
      else if String.eqb path "$RELATIVE" then ("$", true) else (path, false)) = (net, rel) /\
      (match first_char net with None => Panic | Some ch => Ok (if Ascii.eqb ch "." then "$" ++ net else net) end) = Ok net' /\
      tidied (remove_dot_quotes net') = q).
  { destruct HQ as [rest u [r ->] HU|rest u [r ->] HU|rest u [r ->] HU| |rest u HN HO HU|rest u HO HU].
    - exists ("$." ++ r), ("$." ++ r). rewrite <- (unquoted_iff _ _ HU). repeat split.
    - exists ("." ++ r), ("$." ++ r). rewrite <- (unquoted_iff _ _ HU). repeat split.
    - exists ("$." ++ r), ("$." ++ r). rewrite <- (unquoted_iff _ _ HU). split; [|split; reflexivity].
      change ("$RELATIVE" ++ "." ++ r) with ("$RELATIVE." ++ r). unfold slice_has_prefix. cbn [existsb]. rewrite has_prefix_app. cbn [orb].
      rewrite replace_first_app. reflexivity.
    - exists "$", "$". repeat split.
    - exists ("$KEY" ++ rest), ("$KEY" ++ rest). rewrite <- (unquoted_iff _ _ HU). split; [|split; reflexivity].
      unfold slice_has_prefix. cbn [existsb]. rewrite (has_prefix_app "$KEY" rest), orb_true_r.
      rewrite replace_first_absent; [reflexivity|]. intros (a & b & EO). apply HO.
      destruct a as [|a1 [|a2 [|a3 [|a4 a]]]]; simpl in EO; try discriminate EO. injection EO as _ _ _ _ EO. exists a, b. exact EO.
    - exists ("$VALUE" ++ rest), ("$VALUE" ++ rest). rewrite <- (unquoted_iff _ _ HU). split; [|split; reflexivity].
      unfold slice_has_prefix. cbn [existsb]. rewrite (has_prefix_app "$VALUE" rest), !orb_true_r.
      rewrite replace_first_absent; [reflexivity|]. intros (a & b & EO). apply HO.
      destruct a as [|a1 [|a2 [|a3 [|a4 [|a5 [|a6 a]]]]]]; simpl in EO; try discriminate EO. injection EO as _ _ _ _ _ _ EO. exists a, b. exact EO. }
  destruct HG as (net & net' & -> & -> & EQ). cbn [rbind]. eexists. split; [reflexivity|]. cbn [c_jp j_is j_query j_rel]. repeat split. exact EQ.
Qed.

Lemma query_accepted_iff q : query_accepted L q <-> prepare_query L q <> Err.
Proof.
  unfold query_accepted. cbv zeta. unfold prepare_query. set (x := replace_all q "$RELATIVE" "$").
  assert (HI : forall jq, query_for L q (Some jq) -> prepare_query L q <> Err).
  { intros jq H. apply query_for_iff in H. intro E. rewrite E in H. discriminate H. }
  split.
  - intros [H|[jq H]]; [|exact (HI jq H)]. assert (EX : String.eqb x "$*" = false).
    { apply String.eqb_neq. intro E. rewrite E in H. destruct H as [(a & b & H)|(a & b & H)];
        destruct a as [|a1 [|a2 [|a3 a]]]; simpl in H; try discriminate H. }
    rewrite EX. assert (EC : contains x "$KEY" || contains x "$VALUE" = true) by (apply orb_true_iff; rewrite !contains_iff; exact H). rewrite EC. discriminate.
  - intro H. destruct (contains x "$KEY" || contains x "$VALUE") eqn:EC.
    + left. apply orb_true_iff in EC. rewrite !contains_iff in EC. exact EC.
    + right. destruct (prepare_query L q) as [[jq|]| |] eqn:E.
      * exists jq. apply query_for_iff. rewrite E. reflexivity.
      * exfalso. unfold prepare_query in E. fold x in E. cbv zeta in E. destruct (String.eqb x "$*").
        -- change (contains "$.*" "$KEY" || contains "$.*" "$VALUE") with false in E. cbv iota in E. destruct (jp_prepare L "$.*"); discriminate E.
        -- rewrite EC in E. destruct (jp_prepare L x); discriminate E.
      * exfalso. apply H. exact E.
      * exfalso. exact (query_no_panic L q E).
Qed.

Lemma convert_is (c : cond L) : convert_condition L c =
  if negb (is_some (re_compile L (final_value (c_method c) (c_value c)))) && contains_string regex_methods (final_method (c_method c)) then Err else
  do c2 <- handle_labels L (converted L c);
  do c3 <- handle_objects L c2;
  do c4 <- handle_jsonpath L c3;
  if j_is (c_jp c4) || j_rel (c_jp c4) then Ok c4
  else if negb (is_some (re_compile L (convert_string_to_regex (final_value (c_method c) (c_value c)) (c_method c)))) then Err else Ok c4.
Proof.
  unfold convert_condition.
  assert (EM : (if is_any (c_method c) ["IN"; "NIN"; "IS"]
          then (if is_any (c_method c) ["IN"; "IS"] then "RE" else "NRE", list_to_alternatives (c_value c))
          else (c_method c, c_value c)) = (final_method (c_method c), final_value (c_method c) (c_value c))).
  { unfold final_method, final_value. destruct (is_any (c_method c) ["IN"; "NIN"; "IS"]) eqn:E1.
    - destruct (is_any (c_method c) ["IN"; "IS"]) eqn:E2; auto.
      assert (is_any (c_method c) ["NIN"] = true) as ->; auto.
      apply is_any_iff in E1. apply is_any_false in E2. apply is_any_iff. simpl in *. tauto.
    - apply is_any_false in E1. assert (is_any (c_method c) ["IN"; "IS"] = false) as ->.
      { apply is_any_false. simpl in *. tauto. }
      assert (is_any (c_method c) ["NIN"] = false) as ->; auto.
      apply is_any_false. simpl in *. tauto. }
  rewrite EM. reflexivity.
Qed.

(** the three steps return or panic *)
Lemma slice_not_err s i j : slice_res s i j <> Err.
Proof. unfold slice_res. destruct (slice s i j); discriminate. Qed.
Ltac no_err := repeat match goal with
  | H : (do x <- slice_res ?s ?i ?j; _) = Err |- _ => let E := fresh in destruct (slice_res s i j) eqn:E; cbn [rbind] in H; [|exact (slice_not_err _ _ _ E)|discriminate H]
  | H : Ok _ = Err |- _ => discriminate H
  | H : Panic = Err |- _ => discriminate H
  end.
Lemma labels_not_err (c : cond L) : handle_labels L c <> Err.
Proof.
  intro H. unfold handle_labels, label_key in H.
  destruct (has_prefix (c_attr c) "senderLabel[").
  - destruct (slice_res _ _ _) eqn:E; cbn [rbind] in H; [|exact (slice_not_err _ _ _ E)|discriminate H].
    change (has_prefix "senderLabel" "receiverLabel[") with false in H. cbv iota in H. cbn [rbind] in H.
    destruct (has_prefix (c_value c) "receiverLabel["); [|discriminate H].
    destruct (slice_res (c_value c) _ _) eqn:E'; cbn [rbind] in H; [discriminate H|exact (slice_not_err _ _ _ E')|discriminate H].
  - cbn [rbind] in H. destruct (has_prefix (c_attr c) "receiverLabel[").
    + destruct (slice_res _ _ _) eqn:E; cbn [rbind] in H; [|exact (slice_not_err _ _ _ E)|discriminate H].
      destruct (has_prefix (c_value c) "receiverLabel["); [|discriminate H].
      destruct (slice_res (c_value c) _ _) eqn:E'; cbn [rbind] in H; [discriminate H|exact (slice_not_err _ _ _ E')|discriminate H].
    + cbn [rbind] in H. destruct (has_prefix (c_value c) "receiverLabel["); [|discriminate H].
      destruct (slice_res (c_value c) _ _) eqn:E'; cbn [rbind] in H; [discriminate H|exact (slice_not_err _ _ _ E')|discriminate H].
Qed.
Lemma objects_not_err (c : cond L) : handle_objects L c <> Err.
Proof.
  intro H. unfold handle_objects, after_dot in H.
  destruct (has_prefix (c_attr c) "$sender.").
  - destruct (slice_res _ _ _) eqn:E; cbn [rbind] in H; [|exact (slice_not_err _ _ _ E)|discriminate H].
    change (has_prefix "$sender" "$receiver.") with false in H. cbv iota in H. cbn [rbind] in H.
    destruct (has_prefix (c_value c) "$receiver."); [|discriminate H].
    destruct (slice_res (c_value c) _ _) eqn:E'; cbn [rbind] in H; [discriminate H|exact (slice_not_err _ _ _ E')|discriminate H].
  - cbn [rbind] in H. destruct (has_prefix (c_attr c) "$receiver.").
    + destruct (slice_res _ _ _) eqn:E; cbn [rbind] in H; [|exact (slice_not_err _ _ _ E)|discriminate H].
      destruct (has_prefix (c_value c) "$receiver."); [|discriminate H].
      destruct (slice_res (c_value c) _ _) eqn:E'; cbn [rbind] in H; [discriminate H|exact (slice_not_err _ _ _ E')|discriminate H].
    + cbn [rbind] in H. destruct (has_prefix (c_value c) "$receiver."); [|discriminate H].
      destruct (slice_res (c_value c) _ _) eqn:E'; cbn [rbind] in H; [discriminate H|exact (slice_not_err _ _ _ E')|discriminate H].
Qed.

Lemma some_iff {A} (x : option A) : is_some x = true <-> x <> None.
Proof. destruct x; simpl; split; congruence. Qed.

Lemma converts (c : cond L) k : method_is (c_method c) k -> attribute_for k (c_attr c) -> label_value (c_value c) -> c_jp c = no_jp -> well_quoted (c_attr c) ->
  ((exists c', convert_condition L c = Ok c' /\ (j_is (c_jp c') = true -> prepare_query L (j_query (c_jp c')) <> Err)) <->
   (In (final_method (c_method c)) regex_methods -> re_compile L (final_value (c_method c) (c_value c)) <> None) /\
   (~ starts "jsonpath:" (c_attr c) -> re_compile L (whole_value (c_method c) (c_value c)) <> None) /\
   (forall path rel q, c_attr c = "jsonpath:" ++ path -> query_of path rel q -> query_accepted L q)).
Proof.
  intros HM HA HV HJ HW. rewrite convert_is, (whole_regex _ _ _ HM).
  destruct (negb _ && contains_string regex_methods (final_method (c_method c))) eqn:ER.
  { split; [intros (c' & H & _); discriminate H|]. intros (H & _). exfalso. apply andb_prop in ER. destruct ER as [E1 E2].
    apply negb_true_iff in E1. assert (E3 : In (final_method (c_method c)) regex_methods) by (apply is_any_iff; exact E2).
    specialize (H E3). apply some_iff in H. congruence. }
  assert (HR : In (final_method (c_method c)) regex_methods -> re_compile L (final_value (c_method c) (c_value c)) <> None).
  { intro H. apply is_any_iff in H. change (contains_string regex_methods (final_method (c_method c)) = true) in H. rewrite H, andb_true_r in ER.
    apply negb_false_iff in ER. apply some_iff. exact ER. }
  assert (HV' : label_value (c_value (converted L c))).
  { unfold converted. cbn [c_value]. unfold final_value. destruct (is_any _ _); [|exact HV]. intros [r H]. discriminate H. }
  pose proof (labels_no_panic L (converted L c) k HA HV') as N2. pose proof (labels_not_err (converted L c)) as M2.
  destruct (handle_labels L (converted L c)) as [c2| |] eqn:E2; [|congruence|congruence]. cbn [rbind].
  pose proof (objects_no_panic L c2) as N3. pose proof (objects_not_err c2) as M3.
  destruct (handle_objects L c2) as [c3| |] eqn:E3; [|congruence|congruence]. cbn [rbind]. clear N2 M2 N3 M3.
  assert (K : starts "jsonpath:" (c_attr c) -> c_attr c3 = c_attr c).
  { intro HS. apply starts_iff in HS. destruct (jsonpath_clash _ HS) as (C1 & C2 & C3 & C4).
    apply labels_kept in E2; [|apply starts_false; assumption..]. destruct E2 as (A1 & _). change (c_attr c2 = c_attr c) in A1.
    apply objects_kept in E3; [|rewrite A1; apply starts_false; assumption..]. destruct E3 as (A3 & _). congruence. }
  apply handle_labels_attr in E2. destruct E2 as [A2 J2]. apply handle_objects_attr in E3. destruct E3 as [A3 J3].
  assert (J : c_jp c3 = no_jp) by (rewrite J3, J2; exact HJ). clear J2 J3. change (c_attr (converted L c)) with (c_attr c) in A2.
  destruct (has_prefix (c_attr c) "jsonpath:") eqn:EP.
  - apply has_prefix_iff in EP. destruct EP as [path EP].
    assert (HPS : path_start path) by (rewrite EP in HA; eapply attribute_jsonpath; eauto).
    destruct (HW path EP HPS) as (rel & q & HQ).
    assert (E4 : c_attr c3 = "jsonpath:" ++ path).
    { rewrite K; [exact EP|]. exists path. exact EP. }
    destruct (jsonpath_query path rel q c3 HQ E4) as (c4 & -> & X1 & X2 & X3). cbn [rbind]. rewrite X1. cbn [orb]. split.
    + intros (c' & H & HX). injection H as <-. split; [exact HR|]. split; [intro HN; exfalso; apply HN; exists path; exact EP|].
      intros path' rel' q' EA HQ'. assert (path' = path) by (rewrite EP in EA; apply append_inj_l in EA; auto). subst path'.
      destruct (jsonpath_query path rel' q' c3 HQ' E4) as (c4' & X0 & _ & X2' & _). destruct (jsonpath_query path rel q c3 HQ E4) as (c4'' & X0' & _ & X2'' & _).
      rewrite X0 in X0'. injection X0' as <-. assert (EQ : q' = q) by congruence. rewrite EQ. apply query_accepted_iff. rewrite <- X2. apply HX. exact X1.
    + intros (_ & _ & HX). exists c4. split; [reflexivity|]. intros _. rewrite X2. apply query_accepted_iff. eapply HX; eauto.
  - assert (E4 : handle_jsonpath L c3 = Ok c3).
    { apply handle_jsonpath_none. destruct A3 as [<-|[<-|[<-|[]]]]; [|reflexivity..]. destruct A2 as [<-|[<-|[<-|[]]]]; [exact EP|reflexivity..]. }
    rewrite E4. cbn [rbind]. rewrite J. cbn [no_jp j_is j_rel orb]. apply starts_false in EP. split.
    + intros (c' & H & _). split; [exact HR|]. split.
      * intros _. destruct (re_compile L (whole_value _ _)); [discriminate|discriminate H].
      * intros path rel q EA. exfalso. apply EP. exists path. exact EA.
    + intros (_ & H & _). specialize (H EP). destruct (re_compile L (whole_value _ _)); [|congruence]. cbn [is_some negb]. exists c3. split; [reflexivity|].
      rewrite J. discriminate.
Qed.

End WithLib.
