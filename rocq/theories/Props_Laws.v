(** C72: rewriting conditions by the laws of logic does not change decisions. *)
From Coq Require Import List String Ascii Bool Arith ZArith Permutation.
From Verif Require Import Base GoStr GoFloat Types Json StrUtils Validate Prepare Parse Marshal Lifecycle Eval Check
  Spec_Tree Tree_truth Tree_laws Spec_Decision Spec_Regex Spec_Glob Spec_Match Spec_Leaf Number_proofs Leaf_proofs Spec_Validate Prepare_proofs Spec_Load Load_proofs Decode_proofs Spec_Copy
  Spec_Grammar Grammar_proofs Grammar_tree Spec_Raw Spec_Meaning Meaning_proofs Meaning_rules Spec_Laws Laws_proofs RefLib RefLib_facts RefLib_numbers Samples Props_Match Props_Copy Props_Meaning.
Import ListNotations.
Open Scope string_scope.

(** [exchangeable]: de Morgan, double negation, order, nesting, repetition, distribution, ANY over OR, ALL over AND, NOT ALL
    and ANY NOT, NOT EX and NEX, anywhere in a tree (Spec_Laws) *)
Theorem C72_tree : forall L p m n n' t ord ord' i j, NumberSpec L -> jp_prepare L "$.*" <> None -> (forall rest, jp_prepare L ("$RELATIVE" ++ rest) = None) ->
  exchangeable L p m n n' -> made L n -> prepare_node L p n = Ok t -> covered L p n m -> fair ord -> fair ord' ->
  made L n' /\ covered L p n' m /\ exists t', prepare_node L p n' = Ok t' /\
    exists b x e x' e', eval L ord t (mkEst m i) = (Some (b, x), e) /\ eval L ord' t' (mkEst m j) = (Some (b, x'), e').
Proof. intros L p m n n' t ord ord' i j HN HS HR. exact (exchanged_trees L HN HS HR p m n n' t ord ord' i j). Qed.
Print Assumptions C72_tree.

(** rules with exchanged conditions: same results, same decision *)
Theorem C72_check : forall L p ord ord' rules rules' m t t', RegexSpec L -> CidrSpec L -> NumberSpec L -> jp_prepare L "$.*" <> None ->
  (forall rest, jp_prepare L ("$RELATIVE" ++ rest) = None) -> fair ord -> fair ord' -> ascii_message m ->
  (forall r, In r rules -> rule_covered L p r m /\ exists ord' t' s t'', fair ord' /\ set_predefined L ord' p (load_rule L r) t' = (Ok tt, s, t'')) ->
  Forall2 (exchanged_rules L p m) rules rules' -> (forall r n, In r rules' -> ru_tree r = Some n -> loaded_tree L n) ->
  exists o o' e e', check L ord p (map (load_rule L) rules) (mkEst m t) = (Some o, e) /\ check L ord' p (map (load_rule L) rules') (mkEst m t') = (Some o', e') /\
    out_results o' = out_results o /\ out_decision o' = out_decision o.
Proof.
  intros L p ord ord' rules rules' m t t' H1 H2 H3 H4 H5 HF HF' HA HG. apply exchanged_check; auto.
  intros r HR. destruct (HG r HR) as [HC (ord2 & t2 & s & t'' & HF2 & HS)]. eapply set_prepares; eauto.
Qed.
Print Assumptions C72_check.

(** the two conditions that docs/MAPL_Conditions_v2.md (6a, 6b) calls equivalent, for any number of paths: NOT ALL of EX, ANY of NEX *)
Theorem C72_documented : forall L p m a cs cs' t t' ord ord' i j, NumberSpec L -> jp_prepare L "$.*" <> None -> (forall rest, jp_prepare L ("$RELATIVE" ++ rest) = None) ->
  m_raw m <> None -> made L (NNot (NQuant QAll a (NAnd (map NCond cs)))) -> made L (NQuant QAny a (NOr (map NCond cs'))) ->
  prepare_node L p (NNot (NQuant QAll a (NAnd (map NCond cs)))) = Ok t -> prepare_node L p (NQuant QAny a (NOr (map NCond cs'))) = Ok t' ->
  covered L p (NNot (NQuant QAll a (NAnd (map NCond cs)))) m ->
  (forall ms m', ranges_over L a m (Some ms) -> In m' ms -> Forall2 (opposite L p m') cs cs') -> fair ord -> fair ord' ->
  exists b x e x' e', eval L ord t (mkEst m i) = (Some (b, x), e) /\ eval L ord' t' (mkEst m j) = (Some (b, x'), e').
Proof. intros L p m a cs cs' t t' ord ord' i j HN HS HR. exact (documented_trees L HN HS HR p m a cs cs' t t' ord ord' i j). Qed.
Print Assumptions C72_documented.

(** ** A rule, and the same with negated alternatives *)
Definition c72_text : string :=
  "{'NOT':{'OR':[{'NOT':{'attribute':'senderLabel[app]','method':'EQ','value':'#app'}},{'NOT':{'ANY':{'parentJsonpathAttribute':'jsonpath:$.x[:]','condition':{'attribute':'jsonpath:$RELATIVE.a','method':'GT','value':'4'}}}}]}}".
Definition c72_read (text : string) : option (node RefLib) :=
  match json_parse RefLib (quotes text) with
  | Some v => match parse_conditions_tree RefLib in_order v 0 with (Ok n, _) => Some n | _ => None end
  | None => None
  end.
Lemma c72_loaded text n : match c72_read text with Some n => copyableb n | None => false end = true -> c72_read text = Some n -> loaded_tree RefLib n.
Proof.
  intros HB H. split.
  - rewrite H in HB. apply copyableb_ok. exact HB.
  - unfold c72_read in H. destruct (json_parse RefLib (quotes text)) as [v|] eqn:HJ; [|discriminate].
    destruct (parse_conditions_tree RefLib in_order v 0) as [[n'| |] t'] eqn:HL; try discriminate H. injection H as ->.
    exists v. pose proof (parsed_go_value RefLib _ _ HJ) as HG. split; [exact HG|]. exact (grammar_sound RefLib in_order v 0 n t' in_order_fair HG HL).
Qed.
Definition c72_rule : rule RefLib := sample_rule "front*, ?x" "workload" "#back" "workload" "*" "*" "*" "read" (c72_read c72_text) "alert".
Definition c72_shape (t : option (node RefLib)) : option (node RefLib) :=
  match t with Some (NAnd [x; y]) => Some (NNot (NOr [NNot y; NNot x])) | _ => None end.
Lemma c72_shape_ok t n : c72_shape t = Some n -> exists x y, t = Some (NAnd [x; y]) /\ n = NNot (NOr [NNot y; NNot x]).
Proof.
  unfold c72_shape. destruct t as [k|]; [|discriminate]. destruct k as [ns| | | | | | |]; try discriminate.
  destruct ns as [|x [|y [|z ns]]]; try discriminate. intro H. injection H as <-. eauto.
Qed.
Lemma c72_exchangeable p m (x y : node RefLib) : exchangeable RefLib p m (NAnd [x; y]) (NNot (NOr [NNot y; NNot x])).
Proof.
  apply xc_trans with (NAnd [y; x]); [apply xc_and_order, perm_swap|]. apply xc_sym.
  apply xc_trans with (NAnd [NNot (NNot y); NNot (NNot x)]); [exact (xc_not_or RefLib p m [NNot y; NNot x])|].
  apply xc_trans with (NAnd [y; NNot (NNot x)]); [apply (xc_and RefLib p m [] _ _ [NNot (NNot x)]), xc_twice|].
  apply (xc_and RefLib p m [y] _ _ []), xc_twice.
Qed.
Definition c72_results (raw : bool) (x : string) : option (list nat) :=
  option_map out_results (fst (check RefLib in_order c54_predef [load_rule RefLib c72_rule] (mkEst (c54_msg raw x) 0))).
Example C72_case :
  (forall raw x, In x ["5"; "3"] -> rule_covered RefLib c54_predef c54_rule (c54_msg raw x) /\ exchanged_rules RefLib c54_predef (c54_msg raw x) c54_rule c72_rule) /\
  (forall n, ru_tree c72_rule = Some n -> loaded_tree RefLib n) /\
  map (c72_results false) ["5"; "3"] = [Some [2]; Some [0]] /\ map (c72_results true) ["5"; "3"] = [Some [2]; Some [0]].
Proof.
  assert (HE : c72_read c72_text = c72_shape c54_tree) by (vm_cast_no_check (eq_refl (c72_shape c54_tree))).
  assert (HB : match c72_read c72_text with Some n => copyableb n | None => false end = true) by (vm_compute; reflexivity).
  split; [|split; [|split]].
  - intros raw x HX. split; [apply c54_covered; exact HX|]. unfold c54_rule, c72_rule, sample_rule. destruct (c72_read c72_text) as [n|] eqn:EN; [|discriminate HB].
    symmetry in HE. apply c72_shape_ok in HE. destruct HE as (k & l & -> & ->). apply xr_tree. apply c72_exchangeable.
  - intros n HN. exact (c72_loaded c72_text n HB HN).
  - vm_compute. reflexivity.
  - vm_compute. reflexivity.
Qed.

(** ** The documented conditions *)
Definition c72_6a : string :=
  "{'NOT':{'ALL':{'parentJsonpathAttribute':'jsonpath:$.spec.containers[:]','condition':{'AND':[{'attribute':'jsonpath:$RELATIVE.resources.limits.cpu','method':'EX'},{'attribute':'jsonpath:$RELATIVE.resources.limits.memory','method':'EX'}]}}}}".
Definition c72_6b : string :=
  "{'ANY':{'parentJsonpathAttribute':'jsonpath:$.spec.containers[:]','OR':[{'attribute':'jsonpath:$RELATIVE.resources.limits.cpu','method':'NEX'},{'attribute':'jsonpath:$RELATIVE.resources.limits.memory','method':'NEX'}]}}".
Definition c72_doc (cpu : string) : string :=
  "{'spec':{'containers':[{'resources':{'limits':{'cpu':1,'memory':2}}},{'resources':{'limits':{'cpu':" ++ cpu ++ ",'memory':2}}}]}}".
Definition c72_flags (cpu : string) : option bool * option bool := (run_flag in_order c72_6a (parsed_msg (c72_doc cpu)), run_flag in_order c72_6b (parsed_msg (c72_doc cpu))).
Example C72_documented_case : map c72_flags ["1"; "''"; "null"; "{}"; "[]"] =
  [(Some false, Some false); (Some true, Some true); (Some true, Some true); (Some false, Some false); (Some true, Some true)].
Proof. vm_compute. reflexivity. Qed.
(** not equivalent when a value has a quotation mark at one end only *)
Theorem C72_documented_refuted : c72_flags "'\'x'" = (Some true, Some false).
Proof. vm_compute. reflexivity. Qed.
Print Assumptions C72_documented_refuted.

(** hypotheses of [C72_documented], with a path that shows nothing *)
Definition c72_all : string :=
  "{'NOT':{'ALL':{'parentJsonpathAttribute':'jsonpath:$.x[:]','condition':{'AND':[{'attribute':'jsonpath:$RELATIVE.a','method':'EX'},{'attribute':'jsonpath:$RELATIVE.b','method':'EX'}]}}}}".
Definition c72_any : string :=
  "{'ANY':{'parentJsonpathAttribute':'jsonpath:$.x[:]','OR':[{'attribute':'jsonpath:$RELATIVE.a','method':'NEX'},{'attribute':'jsonpath:$RELATIVE.b','method':'NEX'}]}}".
Definition c72_all_parts (t : option (node RefLib)) : option (aanode RefLib * list (cond RefLib)) :=
  match t with Some (NNot (NQuant QAll a (NAnd [NCond c; NCond d]))) => Some (a, [c; d]) | _ => None end.
Definition c72_any_parts (t : option (node RefLib)) : option (aanode RefLib * list (cond RefLib)) :=
  match t with Some (NQuant QAny a (NOr [NCond c; NCond d])) => Some (a, [c; d]) | _ => None end.
Definition c72_texts (x : option (aanode RefLib * list (cond RefLib))) : option (string * list (list string)) :=
  match x with Some (a, cs) => Some (a_parent a, map (fun c => [c_attr c; c_method c; c_value c]) cs) | None => None end.
Definition no_returns (x : option (aanode RefLib * list (cond RefLib))) : bool :=
  match x with Some (_, cs) => forallb (fun c => match r_orig (c_ret c) with None => true | _ => false end) cs | None => false end.
Lemma c72_all_ok t a cs : c72_all_parts t = Some (a, cs) -> t = Some (NNot (NQuant QAll a (NAnd (map NCond cs)))).
Proof.
  unfold c72_all_parts. destruct t as [n|]; [|discriminate]. destruct n as [| |n| | | | |]; try discriminate. destruct n as [| | |q a' n| | | |]; try discriminate.
  destruct q; [discriminate|]. destruct n as [ns| | | | | | |]; try discriminate. destruct ns as [|[| | | | | |c|] [|[| | | | | |d|] [|]]]; try discriminate. intro H. injection H as <- <-. reflexivity.
Qed.
Lemma c72_any_ok t a cs : c72_any_parts t = Some (a, cs) -> t = Some (NQuant QAny a (NOr (map NCond cs))).
Proof.
  unfold c72_any_parts. destruct t as [n|]; [|discriminate]. destruct n as [| | |q a' n| | | |]; try discriminate.
  destruct q; [|discriminate]. destruct n as [|ns| | | | | |]; try discriminate. destruct ns as [|[| | | | | |c|] [|[| | | | | |d|] [|]]]; try discriminate. intro H. injection H as <- <-. reflexivity.
Qed.
Lemma c72_path m x k : m_raw m <> None -> In k ["a"; "b"] -> In x ["1"; "5"; "3"] ->
  shows RefLib ("jsonpath:$RELATIVE." ++ k) (c54_at false m x) (if String.eqb k "a" then Present x else Missing).
Proof.
  intros HM HK HX. exists true, ("$." ++ k). split.
  - apply (po_relative ("." ++ k)); [exists k; reflexivity|]. split; [destruct HK as [<-|[<-|[]]]; simpl; repeat split; intuition discriminate|].
    intros y z E. destruct HK as [<-|[<-|[]]]; destruct y as [|? [|? [|? y]]]; discriminate.
  - replace (if String.eqb k "a" then Present x else Missing) with (match asks RefLib [SKey k] (c54_element x) with None => Missing | Some v => value_status RefLib v end)
      by (destruct HK as [<-|[<-|[]]]; destruct HX as [<-|[<-|[<-|[]]]]; vm_compute; reflexivity).
    apply (sa_parsed RefLib (set_raw_rel m (Some (c54_element x))) true ("$." ++ k) [SKey k] (c54_element x)); [exact HM| | |reflexivity].
    + destruct HK as [<-|[<-|[]]]; simpl; intuition discriminate.
    + destruct HK as [<-|[<-|[]]]; vm_compute; reflexivity.
Qed.
Lemma c72_leaf m x (c : cond RefLib) k kind method : m_raw m <> None -> In k ["a"; "b"] -> In x ["1"; "5"; "3"] -> In (method, kind) [("EX", KEx); ("NEX", KNex)] ->
  c_attr c = "jsonpath:$RELATIVE." ++ k -> c_method c = method -> c_value c = "" -> covered RefLib c54_predef (NCond c) (c54_at false m x) /\ method_is (c_method c) kind.
Proof.
  intros HM HK HX HI E1 E2 E3. assert (HD : method_is (c_method c) kind) by (rewrite E2; destruct HI as [E|[E|[]]]; injection E as <- <-; unfold method_is; simpl; tauto).
  split; [|exact HD]. split.
  - rewrite E1, E3. eexists. apply (cn_path _ _ _ _ _ _ kind ""); [exact HD|constructor; intros [r E]; discriminate|split; intros [r E]; discriminate|apply c72_path; auto].
  - intro HN. exfalso. exact (HM HN).
Qed.
Lemma c72_usable text n : match c72_read text with Some n => match prepare_node RefLib c54_predef n with Ok _ => true | _ => false end | None => false end = true ->
  match c72_read text with Some n => copyableb n | None => false end = true -> c72_read text = Some n -> made RefLib n /\ exists t, prepare_node RefLib c54_predef n = Ok t.
Proof.
  intros HP HB HR. split; [apply loaded_made; exact (c72_loaded text n HB HR)|]. rewrite HR in HP. destruct (prepare_node RefLib c54_predef n) as [t| |]; try discriminate HP. eauto.
Qed.
Lemma usable_each ns : (usable RefLib c54_predef (NAnd ns) \/ usable RefLib c54_predef (NOr ns)) -> forall n, In n ns -> usable RefLib c54_predef n.
Proof. rewrite usable_and, usable_or. rewrite Forall_forall. intros [H|H]; exact H. Qed.
Example C72_documented_hypotheses : exists a cs cs' t t',
  let n := NNot (NQuant QAll a (NAnd (map NCond cs))) in let n' := NQuant QAny a (NOr (map NCond cs')) in
  c72_read c72_all = Some n /\ c72_read c72_any = Some n' /\ made RefLib n /\ made RefLib n' /\ prepare_node RefLib c54_predef n = Ok t /\ prepare_node RefLib c54_predef n' = Ok t' /\
  covered RefLib c54_predef n (c54_msg false "5") /\
  forall ms m', ranges_over RefLib a (c54_msg false "5") (Some ms) -> In m' ms -> Forall2 (opposite RefLib c54_predef m') cs cs'.
Proof.
  assert (H1 : c72_texts (c72_all_parts (c72_read c72_all)) = Some ("$.x[:]", [["jsonpath:$RELATIVE.a"; "EX"; ""]; ["jsonpath:$RELATIVE.b"; "EX"; ""]])) by (vm_compute; reflexivity).
  assert (H2 : c72_texts (c72_any_parts (c72_read c72_any)) = Some ("$.x[:]", [["jsonpath:$RELATIVE.a"; "NEX"; ""]; ["jsonpath:$RELATIVE.b"; "NEX"; ""]])) by (vm_compute; reflexivity).
  assert (H3 : option_map fst (c72_any_parts (c72_read c72_any)) = option_map fst (c72_all_parts (c72_read c72_all)))
    by (vm_cast_no_check (eq_refl (option_map fst (c72_all_parts (c72_read c72_all))))).
  assert (P1 : match c72_read c72_all with Some n => match prepare_node RefLib c54_predef n with Ok _ => true | _ => false end | None => false end = true) by (vm_compute; reflexivity).
  assert (P2 : match c72_read c72_any with Some n => match prepare_node RefLib c54_predef n with Ok _ => true | _ => false end | None => false end = true) by (vm_compute; reflexivity).
  assert (B1 : match c72_read c72_all with Some n => copyableb n | None => false end = true) by (vm_compute; reflexivity).
  assert (B2 : match c72_read c72_any with Some n => copyableb n | None => false end = true) by (vm_compute; reflexivity).
  destruct (c72_all_parts (c72_read c72_all)) as [[a cs]|] eqn:EA; [|discriminate H1]. destruct (c72_any_parts (c72_read c72_any)) as [[a' cs']|] eqn:EB; [|discriminate H2].
  cbn [option_map fst] in H3. injection H3 as ->. apply c72_all_ok in EA. apply c72_any_ok in EB.
  destruct (c72_usable c72_all _ P1 B1 EA) as (M1 & t & T1). destruct (c72_usable c72_any _ P2 B2 EB) as (M2 & t' & T2). clear P1 P2 B1 B2.
  cbn [c72_texts] in H1, H2. injection H1 as E1 H1. injection H2 as _ H2.
  assert (HM : m_raw (c54_msg false "5") <> None) by (rewrite (c54_raw "5"); [discriminate|left; reflexivity]).
  destruct (c54_ranges false a "5" (or_introl eq_refl) E1) as [HR1 HR2].
  assert (U1 : usable RefLib c54_predef (NAnd (map NCond cs))).
  { assert (U : usable RefLib c54_predef (NNot (NQuant QAll a (NAnd (map NCond cs))))) by (split; [exact M1|exists t; exact T1]). rewrite usable_not, usable_quant in U. apply U. }
  assert (U2 : usable RefLib c54_predef (NOr (map NCond cs'))).
  { assert (U : usable RefLib c54_predef (NQuant QAny a (NOr (map NCond cs')))) by (split; [exact M2|exists t'; exact T2]). rewrite usable_quant in U. apply U. }
  destruct cs as [|c [|d [|? ?]]]; try discriminate H1. destruct cs' as [|c' [|d' [|? ?]]]; try discriminate H2. cbn [map] in H1, H2. injection H1 as C1 C2 C3 D1 D2 D3. injection H2 as C1' C2' C3' D1' D2' D3'.
  pose proof (usable_each _ (or_introl U1)) as V1. pose proof (usable_each _ (or_intror U2)) as V2. cbn [map] in V1, V2.
  exists a, [c; d], [c'; d'], t, t'. cbv zeta. split; [exact EA|]. split; [exact EB|]. split; [exact M1|]. split; [exact M2|]. split; [exact T1|]. split; [exact T2|]. clear EA EB M1 M2 T1 T2.
  assert (K1 : In ("EX", KEx) [("EX", KEx); ("NEX", KNex)]) by (left; reflexivity). assert (K2 : In ("NEX", KNex) [("EX", KEx); ("NEX", KNex)]) by (right; left; reflexivity).
  assert (KA : In "a" ["a"; "b"]) by (left; reflexivity). assert (KB : In "b" ["a"; "b"]) by (right; left; reflexivity).
  split.
  - cbn [covered map fold_right]. split; [eexists; exact HR1|]. intros ms m' HV HI. destruct (HR2 ms m' HV HI) as (y & HY & ->).
    destruct (c72_leaf _ y c "a" KEx "EX" HM KA HY K1 C1 C2 C3) as [L1 _]. destruct (c72_leaf _ y d "b" KEx "EX" HM KB HY K1 D1 D2 D3) as [L2 _]. auto.
  - intros ms m' HV HI. destruct (HR2 ms m' HV HI) as (y & HY & ->).
    destruct (c72_leaf _ y c "a" KEx "EX" HM KA HY K1 C1 C2 C3) as [L1 W1]. destruct (c72_leaf _ y d "b" KEx "EX" HM KB HY K1 D1 D2 D3) as [L2 W2].
    destruct (c72_leaf _ y c' "a" KNex "NEX" HM KA HY K2 C1' C2' C3') as [L1' W1']. destruct (c72_leaf _ y d' "b" KNex "NEX" HM KB HY K2 D1' D2' D3') as [L2' W2'].
    assert (NV : forall e : cond RefLib, c_value e = "" -> exists v, replaced c54_predef (c_method e) (c_value e) v /\ plain_value v).
    { intros e ->. exists "". split; [constructor; intros [r E]; discriminate|split; intros [r E]; discriminate]. }
    constructor; [|constructor; [|constructor]]; constructor; auto; try congruence; try (split; [apply V1|apply V2]; simpl; tauto).
    + rewrite C1. eexists. split; [apply (c72_path _ y "a" HM KA HY)|discriminate].
    + rewrite D1. eexists. split; [apply (c72_path _ y "b" HM KB HY)|discriminate].
Qed.

(** ** Not laws *)
(** ANY of AND is not AND of ANY, nor ALL of OR an OR of ALL *)
Theorem C72_split_refuted :
  run_flag in_order "{'ANY':{'parentJsonpathAttribute':'jsonpath:$.x[:]','condition':{'AND':[{'attribute':'jsonpath:$RELATIVE.a','method':'EX'},{'attribute':'jsonpath:$RELATIVE.b','method':'EX'}]}}}" (parsed_msg "{'x':[{'a':1},{'b':1}]}") = Some false /\
  run_flag in_order "{'AND':[{'ANY':{'parentJsonpathAttribute':'jsonpath:$.x[:]','condition':{'attribute':'jsonpath:$RELATIVE.a','method':'EX'}}},{'ANY':{'parentJsonpathAttribute':'jsonpath:$.x[:]','condition':{'attribute':'jsonpath:$RELATIVE.b','method':'EX'}}}]}" (parsed_msg "{'x':[{'a':1},{'b':1}]}") = Some true /\
  run_flag in_order "{'ALL':{'parentJsonpathAttribute':'jsonpath:$.x[:]','condition':{'OR':[{'attribute':'jsonpath:$RELATIVE.a','method':'EX'},{'attribute':'jsonpath:$RELATIVE.b','method':'EX'}]}}}" (parsed_msg "{'x':[{'a':1},{'b':1}]}") = Some true /\
  run_flag in_order "{'OR':[{'ALL':{'parentJsonpathAttribute':'jsonpath:$.x[:]','condition':{'attribute':'jsonpath:$RELATIVE.a','method':'EX'}}},{'ALL':{'parentJsonpathAttribute':'jsonpath:$.x[:]','condition':{'attribute':'jsonpath:$RELATIVE.b','method':'EX'}}}]}" (parsed_msg "{'x':[{'a':1},{'b':1}]}") = Some false.
Proof. vm_compute. auto. Qed.
Print Assumptions C72_split_refuted.
(** NOT GT is not LE, and NOT EQ not NEQ, when the path shows nothing *)
Theorem C72_opposite_refuted :
  map (fun method => run_flag in_order ("{'attribute':'jsonpath:$.a','method':'" ++ method ++ "','value':'1'}") (parsed_msg "{'b':1}")) ["GT"; "LE"; "LT"; "GE"; "EQ"; "NEQ"] =
  [Some false; Some false; Some false; Some false; Some false; Some false].
Proof. vm_compute. reflexivity. Qed.
Print Assumptions C72_opposite_refuted.
(** the returned data are not kept: a double NOT drops them, a repeated alternative repeats them *)
Definition c72_returning : string :=
  "{'ANY':{'parentJsonpathAttribute':'jsonpath:$.x[:]','returnValueJsonpath':{'n':'jsonpath:$RELATIVE.n'},'condition':{'attribute':'jsonpath:$RELATIVE.a','method':'GE','value':'2'}}}".
Theorem C72_extra_refuted :
  map (fun tree => run_tree in_order tree (parsed_msg "{'x':[{'a':1,'n':'one'},{'a':2,'n':'two'}]}"))
    [c72_returning; "{'NOT':{'NOT':" ++ c72_returning ++ "}}"; "{'OR':[" ++ c72_returning ++ "," ++ c72_returning ++ "]}"] =
  [Some (true, [[("n", GStr "two")]]); Some (true, []); Some (true, [[("n", GStr "two")]; [("n", GStr "two")]])].
Proof. vm_compute. reflexivity. Qed.
Print Assumptions C72_extra_refuted.
