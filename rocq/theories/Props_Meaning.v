(** C54: the engine computes the meaning of rules as they are written. *)
From Coq Require Import List String Ascii Bool Arith ZArith Permutation.
From Verif Require Import Base GoStr GoFloat Types Json StrUtils Validate Prepare Parse Marshal Lifecycle Eval Check
  Spec_Tree Tree_truth Tree_laws Spec_Decision Spec_Regex Spec_Glob Glob_proofs Spec_Match Spec_Leaf Number_proofs Leaf_proofs Leaf_laws Leaf_samples Spec_Validate Prepare_proofs Spec_Load Load_proofs Decode_proofs Spec_Copy
  Spec_Grammar Grammar_proofs Grammar_tree Spec_Raw Raw_proofs Spec_Meaning Meaning_proofs Meaning_rules RefLib RefLib_facts RefLib_numbers Samples Props_Match Props_Copy.
Import ListNotations.
Open Scope string_scope.

(** [condition_says]: what a condition says about a message; [means], [covered]: the same for trees, from the texts of the
    conditions and parent paths; [verdict]: the decision of a rule (Spec_Meaning). *)
Theorem C54_condition : forall L p att method value ret c m P b, NumberSpec L -> jp_prepare L "$.*" <> None ->
  prepares L p att method value ret c -> condition_says L p att method value m P ->
  may_return L (NCond c) m b -> (b = true <-> P).
Proof. intros L p att method value ret c m P b HN HX HP HS HB. exact (condition_meaning L HN HX p att method value ret c m P b HP HS HB). Qed.
Print Assumptions C54_condition.

Theorem C54_tree : forall L p v n0 n m b, NumberSpec L -> jp_prepare L "$.*" <> None ->
  go_value v -> reads L "" v n0 -> prepare_node L p n0 = Ok n -> covered L p n0 m ->
  may_return L n m b -> (b = true <-> means L p n0 m).
Proof.
  intros L p v n0 n m b HN HS HG HR HP HC HB. destruct (grammar_some_order L v n0 0 HG HR) as (ord & t & HF & HL).
  eapply tree_meaning; eauto. eapply tree_made; eauto.
Qed.
Print Assumptions C54_tree.

Theorem C54_tree_total : forall L p v n0 n ord m t, NumberSpec L -> jp_prepare L "$.*" <> None -> (forall rest, jp_prepare L ("$RELATIVE" ++ rest) = None) ->
  go_value v -> reads L "" v n0 -> prepare_node L p n0 = Ok n -> covered L p n0 m -> fair ord ->
  exists b x e, eval L ord n (mkEst m t) = (Some (b, x), e) /\ (b = true <-> means L p n0 m).
Proof.
  intros L p v n0 n ord m t HN HS HX HG HR HP HC HF. destruct (grammar_some_order L v n0 0 HG HR) as (ord' & t' & HF' & HL).
  assert (HMD : made L n0) by (eapply tree_made; eauto).
  destruct (eval L ord n (mkEst m t)) as [[[b x]|] e] eqn:E.
  - exists b, x, e. split; auto. eapply tree_meaning; eauto. exists ord, t, x, e. auto.
  - exfalso. eapply (tree_no_panic L HN HS p n0 n m); eauto. exists ord, t, e. auto.
Qed.
Print Assumptions C54_tree_total.

(** Check on freshly loaded rules: one result per rule, each the verdict of the rule as written, and the strictest of them *)
Theorem C54_check : forall L p ord rules m t, RegexSpec L -> CidrSpec L -> NumberSpec L -> jp_prepare L "$.*" <> None ->
  (forall rest, jp_prepare L ("$RELATIVE" ++ rest) = None) -> fair ord -> ascii_message m ->
  (forall r, In r rules -> rule_covered L p r m /\ exists ord' t' s t'', fair ord' /\ set_predefined L ord' p (load_rule L r) t' = (Ok tt, s, t'')) ->
  exists o e, check L ord p (map (load_rule L) rules) (mkEst m t) = (Some o, e) /\
    Forall2 (fun r d => verdict L p r m d) rules (out_results o) /\ decision_is_strictest (out_results o) (out_decision o).
Proof.
  intros L p ord rules m t H1 H2 H3 H4 H5 HF HA HG. apply check_verdict; auto.
  intros r HR. destruct (HG r HR) as [HC (ord' & t' & s & t'' & HF' & HS)]. eapply set_prepares; eauto.
Qed.
Print Assumptions C54_check.

Theorem C54_verdict : forall L p r m d d', verdict L p r m d -> verdict L p r m d' -> d = d'.
Proof. exact verdict_unique. Qed.
Print Assumptions C54_verdict.

(** ** A rule with a predefined string, an ANY over the elements of an array, and a label; on parsed documents and on raw bytes *)
Definition c54_text : string :=
  "{'AND':[{'ANY':{'parentJsonpathAttribute':'jsonpath:$.x[:]','condition':{'attribute':'jsonpath:$RELATIVE.a','method':'GT','value':'4'}}},{'attribute':'senderLabel[app]','method':'EQ','value':'#app'}]}".
Definition c54_predef : predef := mkPredef [("app", "ba.*"); ("back", "back.*,cache")] [] [].
Definition c54_msg (raw : bool) (x : string) : message :=
  let doc := quotes ("{'x':[{'a':'1'},{'a':'" ++ x ++ "'}]}") in
  let m := set_json (set_raw msg0 (if raw then None else json_parse RefLib doc)) (if raw then Some doc else None) in
  mkMessage (m_source_ip m) (m_source_namespace m) (m_source_cluster m) (m_dest_ip m) (m_dest_port m)
   (m_dest_namespace m) (m_dest_cluster m) (m_path m) (m_host m) (m_method m) (m_size m) (m_time m)
   (m_useragent m) (m_protocol m) (m_id m) (m_source_service m) (m_dest_service m)
   (m_source_labels_json m) (m_dest_labels_json m) (m_context_type m) (m_enc_type m) (m_enc_version m)
   (m_json m) (m_json_rel m) (m_raw m) (m_raw_rel m) (m_domain m) (m_t_sec m) (m_t_min m) (m_t_hours m)
   (m_source_netip m) (m_dest_netip m) [("app", "batch")] [].
Definition c54_tree : option (node RefLib) :=
  match json_parse RefLib (quotes c54_text) with
  | Some v => match parse_conditions_tree RefLib in_order v 0 with (Ok n, _) => Some n | _ => None end
  | None => None
  end.
Lemma c54_loaded n : c54_tree = Some n -> loaded_tree RefLib n.
Proof.
  intro H. split.
  - assert (HB : match c54_tree with Some n => copyableb n | None => false end = true) by (vm_compute; reflexivity). rewrite H in HB. apply copyableb_ok. exact HB.
  - unfold c54_tree in H. destruct (json_parse RefLib (quotes c54_text)) as [v|] eqn:HJ; [|discriminate].
    destruct (parse_conditions_tree RefLib in_order v 0) as [[n'| |] t'] eqn:HL; try discriminate H. injection H as ->.
    exists v. pose proof (parsed_go_value RefLib _ _ HJ) as HG. split; [exact HG|]. exact (grammar_sound RefLib in_order v 0 n t' in_order_fair HG HL).
Qed.
Definition c54_rule : rule RefLib := sample_rule "front*, ?x" "workload" "#back" "workload" "*" "*" "*" "read" c54_tree "alert".

Definition c54_shape (t : option (node RefLib)) : option (list string) :=
  match t with
  | Some (NAnd [NQuant QAny a (NCond c); NCond d]) =>
    match r_orig (c_ret c) with None => Some [a_parent a; c_attr c; c_method c; c_value c; c_attr d; c_method d; c_value d] | Some _ => None end
  | _ => None
  end.
Lemma c54_shape_ok t texts : c54_shape t = Some texts ->
  exists a c d, t = Some (NAnd [NQuant QAny a (NCond c); NCond d]) /\ r_orig (c_ret c) = None /\
    texts = [a_parent a; c_attr c; c_method c; c_value c; c_attr d; c_method d; c_value d].
Proof.
  unfold c54_shape. destruct t as [n|]; [|discriminate]. destruct n as [ns| | | | | | |]; try discriminate.
  destruct ns as [|n1 ns]; [discriminate|]. destruct n1 as [| | |q a n1| | | |]; try discriminate. destruct q; [|discriminate].
  destruct n1 as [| | | | | |c|]; try discriminate. destruct ns as [|n2 ns]; [discriminate|].
  destruct n2 as [| | | | | |d|]; try discriminate. destruct ns; [|discriminate].
  destruct (r_orig (c_ret c)) eqn:ER; [discriminate|]. intro H. exists a, c, d. split; [reflexivity|]. split; [exact ER|]. congruence.
Qed.
Definition c54_element (x : string) : iface := GMapS [("a", GStr x)].
Definition c54_piece (x : string) : string := quotes ("{'a':'" ++ x ++ "'}").
Definition c54_at (raw : bool) (m : message) (x : string) : message :=
  if raw then set_json_rel m (Some (c54_piece x)) else set_raw_rel m (Some (c54_element x)).
Lemma c54_raw x : In x ["5"; "3"] -> m_raw (c54_msg false x) = Some (GMapS [("x", GArr [c54_element "1"; c54_element x])]).
Proof. intros [<-|[<-|[]]]; vm_compute; reflexivity. Qed.
Lemma c54_parsed a x vs : In x ["5"; "3"] -> a_parent a = "$.x[:]" -> parsed_elements RefLib a (c54_msg false x) vs <-> vs = [c54_element "1"; c54_element x].
Proof.
  intros HX HA. unfold parsed_elements. rewrite HA.
  assert (NR : ~ refers_to_element "$.x[:]") by (intros [[r E]|[E|[[r E]|[r E]]]]; discriminate).
  assert (Q : forall q, query_for RefLib "$.x[:]" (Some q) <-> q = [SKey "x"; SAll]).
  { intro q. rewrite query_for_iff. change (match prepare_query RefLib "$.x[:]" with Ok q => q | _ => None end) with (Some [SKey "x"; SAll]).
    split; [intro E; injection E; auto|intros ->; reflexivity]. }
  assert (A : forall part, arranged (GArr [c54_element "1"; c54_element x]) part <-> part = [c54_element "1"; c54_element x]).
  { intro part. split; [intro H; inversion H as [| |ls E|]; subst; auto; destruct ls; discriminate|intros ->; apply ar_flat; intros [ls E]; destruct ls; discriminate]. }
  split.
  - intros [[E _]|(_ & doc & items & parts & _ & H2 & HI & HF & ->)]; [discriminate|].
    specialize (H2 NR). rewrite (c54_raw x HX) in H2. injection H2 as <-.
    apply comma_items_iff in HI. subst items. change (split_char "," "$.x[:]") with ["$.x[:]"] in HF.
    inversion HF as [|? part ? parts' (q & HQ & HP) HR]; subst. inversion HR; subst. apply Q in HQ. subst q.
    change (fst (jp_query RefLib _ _)) with (GArr [c54_element "1"; c54_element x]) in HP. apply A in HP. subst. reflexivity.
  - intros ->. right. split; [discriminate|]. exists (GMapS [("x", GArr [c54_element "1"; c54_element x])]), ["$.x[:]"], [[c54_element "1"; c54_element x]].
    split; [tauto|]. split; [intros _; apply c54_raw; auto|]. split; [apply comma_items_iff; reflexivity|]. split; [|reflexivity].
    constructor; [|constructor]. exists [SKey "x"; SAll]. split; [apply Q; auto|]. apply A. reflexivity.
Qed.
(** the same paths, cut at the commas as preparation does *)
Definition c54_cut (a : aanode RefLib) : aanode RefLib := mkAA (a_parent a) (split_char "," (a_parent a)) (a_orig a) (a_ret a) (a_prep a).
Lemma c54_pieces a x : In x ["5"; "3"] -> a_parent a = "$.x[:]" -> raw_elements RefLib a (c54_msg true x) (Some [c54_piece "1"; c54_piece x]) /\
  forall r, raw_elements RefLib a (c54_msg true x) r -> exists ts, r = Some ts /\ Permutation ts [c54_piece "1"; c54_piece x].
Proof.
  intros HX HA. destruct a as [par pars orig ret prep]. cbn [a_parent] in HA. subst par. set (a := mkAA _ _ _ _ _).
  assert (HE : forall r, raw_elements RefLib a (c54_msg true x) r <-> selected_bytes RefLib (c54_cut a) (c54_msg true x) r).
  { intro r. rewrite elements_iff by reflexivity. apply raw_elements_text. reflexivity. }
  assert (HS : selected_bytes RefLib (c54_cut a) (c54_msg true x) (Some [c54_piece "1"; c54_piece x])).
  { assert (HB : fst (elements_bytes RefLib in_order (c54_cut a) (mkEst (c54_msg true x) 0)) = Some (Some [c54_piece "1"; c54_piece x]))
      by (destruct HX as [<-|[<-|[]]]; vm_compute; reflexivity).
    destruct (elements_bytes RefLib in_order (c54_cut a) (mkEst (c54_msg true x) 0)) as [o e] eqn:E. cbn [fst] in HB. rewrite HB in E.
    apply elements_bytes_selected in E; [exact E|exact in_order_fair]. }
  split; [apply HE; exact HS|]. intros r HR. apply HE in HR. pose proof (selected_bytes_perm RefLib _ _ _ _ HR HS) as HP.
  destruct r as [ts|]; [|destruct HP]. exists ts. split; [reflexivity|exact HP].
Qed.
Lemma c54_ranges raw a x : In x ["5"; "3"] -> a_parent a = "$.x[:]" ->
  ranges_over RefLib a (c54_msg raw x) (Some [c54_at raw (c54_msg raw x) "1"; c54_at raw (c54_msg raw x) x]) /\
  forall ms m, ranges_over RefLib a (c54_msg raw x) (Some ms) -> In m ms -> exists y, In y ["1"; "5"; "3"] /\ m = c54_at raw (c54_msg raw x) y.
Proof.
  intros HX HA. assert (HI : In x ["1"; "5"; "3"]) by (right; exact HX). destruct raw.
  - destruct (c54_pieces a x HX HA) as [H1 H2]. split; [right; split; [reflexivity|]; eexists; split; [exact H1|reflexivity]|].
    intros ms m [[H _]|(_ & ts & HR & E)] HM; [exfalso; apply H; reflexivity|]. apply H2 in HR. destruct HR as (ts' & -> & HP).
    cbn [option_map] in E. injection E as ->. apply in_map_iff in HM. destruct HM as (t & <- & HT). apply (Permutation_in _ HP) in HT.
    destruct HT as [<-|[<-|[]]]; [exists "1"; split; [left; reflexivity|reflexivity]|exists x; split; [exact HI|reflexivity]].
  - assert (HN : m_raw (c54_msg false x) <> None) by (rewrite (c54_raw x HX); discriminate). split.
    + left. split; [exact HN|]. eexists. split; [apply c54_parsed; [exact HX|exact HA|reflexivity]|reflexivity].
    + intros ms m [(_ & vs & HR & E)|[H _]] HM; [|exfalso; exact (HN H)]. apply c54_parsed in HR; [|exact HX|exact HA]. subst vs.
      injection E as ->. destruct HM as [<-|[<-|[]]]; [exists "1"; split; [left; reflexivity|reflexivity]|exists x; split; [exact HI|reflexivity]].
Qed.
Lemma c54_gt (raw : bool) m x : (if raw then m_raw m = None else m_raw m <> None) -> In x ["1"; "5"; "3"] ->
  condition_says RefLib c54_predef "jsonpath:$RELATIVE.a" "GT" "4" (c54_at raw m x) (satisfied RefLib KGt "4" (Present x)).
Proof.
  intros HM HX. apply cn_path; [constructor; simpl; tauto|constructor; intros [r E]; discriminate|split; intros [r E]; discriminate|].
  exists true, "$.a". split; [apply (po_relative ".a"); [exists "a"; reflexivity|split; [simpl; repeat split; intuition discriminate|]]|].
  - intros a b E. destruct a as [|? [|? [|? a]]]; discriminate.
  - destruct raw.
    + replace (Present x) with (match fetch RefLib (c54_piece x) "$.a" with None => Missing | Some raw => status_of raw end)
        by (destruct HX as [<-|[<-|[<-|[]]]]; vm_compute; reflexivity).
      apply sa_raw; [exact HM|simpl; intuition discriminate|reflexivity|discriminate].
    + replace (Present x) with (match asks RefLib [SKey "a"] (c54_element x) with None => Missing | Some v => value_status RefLib v end)
        by (destruct HX as [<-|[<-|[<-|[]]]]; vm_compute; reflexivity).
      apply (sa_parsed RefLib (set_raw_rel m (Some (c54_element x))) true "$.a" [SKey "a"] (c54_element x)); [exact HM|simpl; intuition discriminate|vm_compute; reflexivity|reflexivity].
Qed.
Lemma c54_app raw x : condition_says RefLib c54_predef "senderLabel[app]" "EQ" "#app" (c54_msg raw x) (exists t, assoc "app" (m_source_labels (c54_msg raw x)) = Some t /\ label_holds RefLib KEq "ba.*" t).
Proof.
  apply cn_sender_label; [reflexivity|repeat split; discriminate|unfold method_is; simpl; tauto| |intros [r E]; discriminate].
  apply rp_string with "app"; reflexivity.
Qed.
Definition c54_texts : list string := ["$.x[:]"; "jsonpath:$RELATIVE.a"; "GT"; "4"; "senderLabel[app]"; "EQ"; "#app"].
Lemma c54_shape_meaning n raw x : c54_shape (Some n) = Some c54_texts -> In x ["5"; "3"] -> covered RefLib c54_predef n (c54_msg raw x) /\ (x = "5" -> means RefLib c54_predef n (c54_msg raw x)).
Proof.
  intros HS HX. unfold c54_texts in HS.
  apply c54_shape_ok in HS. destruct HS as (a & c & d & E & ER & HE). injection E as ->. injection HE as E1 E2 E3 E4 E5 E6 E7.
  assert (HM : if raw then m_raw (c54_msg raw x) = None else m_raw (c54_msg raw x) <> None) by (destruct raw; [reflexivity|rewrite (c54_raw x HX); discriminate]).
  destruct (c54_ranges raw a x HX (eq_sym E1)) as [HR1 HR2].
  cbn [covered means fold_right]. rewrite <- E2, <- E3, <- E4, <- E5, <- E6, <- E7.
  split.
  - split; [split|split; [split; [eexists; apply c54_app|]|exact I]].
    + eexists. exact HR1.
    + intros ms m HV HIn. destruct (HR2 ms m HV HIn) as (y & HY & ->). split; [eexists; apply c54_gt; [exact HM|exact HY]|].
      intros _ _. rewrite ER. split; [|intros rets name path H; discriminate H].
      intros k v t y' HK HIk. exfalso. rewrite <- E3 in HK. clear - HK HIk. unfold method_is in HK. simpl in HK, HIk. intuition congruence.
    + intros _ [r EJ]. exfalso. rewrite <- E5 in EJ. discriminate EJ.
  - intros ->. split; [|split; [|exact I]].
    + eexists _, (c54_at raw (c54_msg raw "5") "5"). split; [exact HR1|]. split; [right; left; reflexivity|].
      eexists. split; [apply c54_gt; [exact HM|clear; simpl; tauto]|]. cbn [satisfied holds].
      destruct (float_with_units RefLib "4") as [f4|] eqn:F4; [|vm_compute in F4; discriminate].
      destruct (float_with_units RefLib "5") as [f5|] eqn:F5; [|vm_compute in F5; discriminate].
      exists f4, f5. split; [apply number_iff; exact F4|]. split; [apply number_iff; exact F5|].
      vm_compute in F4, F5. injection F4 as <-. injection F5 as <-. vm_compute. reflexivity.
    + eexists. split; [apply c54_app|]. exists "batch". split; [reflexivity|]. cbn [label_holds text_holds].
      assert (R : option_map (fun re => re_match RefLib re "batch") (re_compile RefLib ("^" ++ "ba.*" ++ "$")) = Some true) by (vm_compute; reflexivity).
      destruct (re_compile RefLib ("^" ++ "ba.*" ++ "$")) as [re|]; [|discriminate R]. exists re. split; [reflexivity|]. injection R; auto.
Qed.
Lemma c54_tree_meaning n raw x : c54_tree = Some n -> In x ["5"; "3"] -> covered RefLib c54_predef n (c54_msg raw x) /\ (x = "5" -> means RefLib c54_predef n (c54_msg raw x)).
Proof. intro HT. apply c54_shape_meaning. rewrite <- HT. vm_compute. reflexivity. Qed.

Definition ascii_messageb (m : message) : bool :=
  forallb (fun s => forallb (fun c => (nat_of_ascii c <? 128)%nat) (list_ascii_of_string s)) [m_source_service m; m_dest_service m; m_host m; m_method m; m_path m; m_dest_port m].
Lemma ascii_messageb_ok m : ascii_messageb m = true -> ascii_message m.
Proof.
  unfold ascii_messageb, ascii_message. rewrite forallb_forall, Forall_forall. intros H s HI. specialize (H s HI). revert H. generalize s. clear.
  induction s as [|c s IH]; cbn [list_ascii_of_string forallb]; [intros _; exact I|]. rewrite andb_true_iff. intros [H1 H2]. split; [apply Nat.ltb_lt; exact H1|apply IH; exact H2].
Qed.
Lemma c54_covered raw x : In x ["5"; "3"] -> rule_covered RefLib c54_predef c54_rule (c54_msg raw x).
Proof.
  intro HX. constructor.
  - repeat split.
  - right. intros name HN. inversion HN; subst; try discriminate. apply pattern_okb. vm_compute. reflexivity.
  - right. intros name HN. apply replace_name_iff in HN. change (Ok "back.*,cache" = Ok name) in HN. injection HN as <-. apply pattern_okb. vm_compute. reflexivity.
  - apply pattern_okb. vm_compute. reflexivity.
  - apply pattern_okb. vm_compute. reflexivity.
  - intros n HN. change (c54_tree = Some n) in HN. split; [apply c54_loaded; exact HN|]. apply (c54_tree_meaning n raw x HN HX).
Qed.
Lemma c54_applies raw : applies RefLib c54_predef c54_rule (c54_msg raw "5").
Proof.
  split; [|split; [|split; [|split]]].
  - exists "front*, ?x". split; [constructor; intros [r E]; discriminate|]. left. exists "front.end". split; [right; left; reflexivity|].
    exists ["front*"; " ?x"], "front*". split; [apply comma_items_iff; reflexivity|]. split; [left; reflexivity|].
    repeat (apply g_lit; [discriminate|discriminate|]). apply (g_star "" ".end" ""); [repeat split; discriminate|constructor].
  - exists "back.*,cache". split; [apply rn_string with "back"; reflexivity|]. left. exists "back.end". split; [right; left; reflexivity|].
    exists ["back.*"; "cache"], "back.*". split; [apply comma_items_iff; reflexivity|]. split; [left; reflexivity|].
    repeat (apply g_lit; [discriminate|discriminate|]). apply (g_star "" "end" ""); [repeat split; discriminate|constructor].
  - right. right. left. split; [left; reflexivity|left; reflexivity].
  - right. left. reflexivity.
  - change (match c54_tree with None => True | Some n => means RefLib c54_predef n (c54_msg raw "5") end).
    destruct c54_tree as [n|] eqn:E; [|exact I]. apply (c54_tree_meaning n raw "5" E); [left; reflexivity|reflexivity].
Qed.
Definition c54_results (raw : bool) (x : string) : option (list nat) :=
  option_map out_results (fst (check RefLib in_order c54_predef [load_rule RefLib c54_rule] (mkEst (c54_msg raw x) 0))).
Example C54_case :
  (forall raw x, In x ["5"; "3"] -> (m_raw (c54_msg raw x) = None <-> raw = true) /\ ascii_message (c54_msg raw x) /\ rule_covered RefLib c54_predef c54_rule (c54_msg raw x)) /\
  (exists s t, set_predefined RefLib in_order c54_predef (load_rule RefLib c54_rule) 0 = (Ok tt, s, t)) /\
  (forall raw, verdict RefLib c54_predef c54_rule (c54_msg raw "5") 2) /\
  jp_prepare RefLib "$.*" <> None /\ (forall rest, jp_prepare RefLib ("$RELATIVE" ++ rest) = None) /\
  map (c54_results false) ["5"; "3"] = [Some [2]; Some [0]] /\ map (c54_results true) ["5"; "3"] = [Some [2]; Some [0]].
Proof.
  split; [|split; [|split; [|split; [|split]]]].
  - intros raw x HX. split; [destruct raw; [tauto|rewrite (c54_raw x HX); split; discriminate]|]. split; [|apply c54_covered; exact HX].
    apply ascii_messageb_ok. destruct raw, HX as [<-|[<-|[]]]; vm_compute; reflexivity.
  - assert (H : match set_predefined RefLib in_order c54_predef (load_rule RefLib c54_rule) 0 with (Ok tt, _, _) => true | _ => false end = true) by (vm_compute; reflexivity).
    destruct (set_predefined RefLib in_order c54_predef (load_rule RefLib c54_rule) 0) as [[[[]| |] s] t]; try discriminate H. exists s, t. reflexivity.
  - intro raw. left. split; [exact (c54_applies raw)|]. right. left. split; [reflexivity|left; reflexivity].
  - discriminate.
  - intro rest. reflexivity.
  - split; vm_compute; reflexivity.
Qed.
