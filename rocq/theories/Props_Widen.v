(** C73: wider rules can only make the decision stricter. *)
From Coq Require Import List String Ascii Bool Arith ZArith Permutation.
From Verif Require Import Base GoStr GoFloat Types Json StrUtils Validate Prepare Parse Marshal Lifecycle Eval Check
  Spec_Tree Tree_truth Tree_laws Spec_Decision Spec_Regex Spec_Glob Glob_proofs Spec_Match Spec_Leaf Number_proofs Leaf_proofs Spec_Validate Prepare_proofs Spec_Load Load_proofs Decode_proofs Spec_Copy
  Spec_Grammar Grammar_proofs Grammar_tree Spec_Raw Spec_Meaning Meaning_proofs Meaning_rules Spec_Laws Laws_proofs Spec_Widen Widen_proofs RefLib RefLib_facts RefLib_numbers Samples Props_Match Props_Copy Props_Meaning Props_Laws.
Import ListNotations.
Open Scope string_scope.

(** [wider]: laws of logic, conjuncts dropped, alternatives added, longer IN and shorter NIN lists, moved bounds, ALL to ANY,
    anywhere in a tree, turned around by NOT; each tree with its own dictionary (Spec_Widen) *)
Theorem C73_tree : forall L p p' m n n' t t' ord ord' i j, RegexSpec L -> NumberSpec L -> jp_prepare L "$.*" <> None -> (forall rest, jp_prepare L ("$RELATIVE" ++ rest) = None) ->
  wider L p p' m n n' -> made L n -> prepare_node L p n = Ok t -> covered L p n m -> made L n' -> prepare_node L p' n' = Ok t' -> covered L p' n' m -> fair ord -> fair ord' ->
  exists b x e b' x' e', eval L ord t (mkEst m i) = (Some (b, x), e) /\ eval L ord' t' (mkEst m j) = (Some (b', x'), e') /\ (b = true -> b' = true).
Proof. intros L p p' m n n' t t' ord ord' i j HX HN HS HR. exact (wider_trees L HX HN HS HR p p' m n n' t t' ord ord' i j). Qed.
Print Assumptions C73_tree.

(** rules made wider or stricter and rules added, under dictionaries that may have grown: the decision is at least as strict *)
Theorem C73_check : forall L p p' ord ord' rules rules' m t t', RegexSpec L -> CidrSpec L -> NumberSpec L -> jp_prepare L "$.*" <> None ->
  (forall rest, jp_prepare L ("$RELATIVE" ++ rest) = None) -> fair ord -> fair ord' -> ascii_message m ->
  (forall r, In r rules -> rule_covered L p r m /\ exists o i s j, fair o /\ set_predefined L o p (load_rule L r) i = (Ok tt, s, j)) ->
  (forall r, In r rules' -> rule_covered L p' r m /\ exists o i s j, fair o /\ set_predefined L o p' (load_rule L r) i = (Ok tt, s, j)) ->
  stricter_rules L p p' m rules rules' ->
  exists o o' e e', check L ord p (map (load_rule L) rules) (mkEst m t) = (Some o, e) /\ check L ord' p' (map (load_rule L) rules') (mkEst m t') = (Some o', e') /\
    out_decision o <= out_decision o'.
Proof.
  intros L p p' ord ord' rules rules' m t t' H1 H2 H3 H4 H5 HF HF' HA HG HG'. apply stricter_check; auto.
  - intros r HR. destruct (HG r HR) as [HC (o & i & s & j & HO & HS)]. eapply set_prepares; eauto.
  - intros r HR. destruct (HG' r HR) as [HC (o & i & s & j & HO & HS)]. eapply set_prepares; eauto.
Qed.
Print Assumptions C73_check.

(** the comparisons of numbers order them *)
Theorem C73_order : forall x y z, (fleb x y = true -> fleb y z = true -> fleb x z = true) /\ (fltb x y = true -> fleb y z = true -> fltb x z = true) /\
  (fleb x y = true -> fltb y z = true -> fltb x z = true) /\ fltb x x = false.
Proof. intros x y z. split; [apply le_le|]. split; [apply lt_le|]. split; [apply le_lt|]. apply lt_self. Qed.
Print Assumptions C73_order.

(** ** A rule and a wider one: a longer sender list, a receiver list that has grown in the dictionary, a lower bound, one condition less *)
Definition c73_text : string :=
  "{'AND':[{'ANY':{'parentJsonpathAttribute':'jsonpath:$.x[:]','condition':{'attribute':'jsonpath:$RELATIVE.a','method':'GE','value':'3'}}}]}".
Definition c73_predef : predef := mkPredef [("app", "ba.*"); ("back", "back.*,cache,new")] [] [].
Definition c73_rule : rule RefLib := sample_rule "front*, ?x,other" "workload" "#back" "workload" "*" "*" "*" "*" (c72_read c73_text) "block".
Definition c73_quant (t : option (node RefLib)) : option (aanode RefLib) :=
  match t with Some (NAnd (NQuant QAny a (NCond _) :: _)) => Some a | _ => None end.
Definition c73_shape (t : option (node RefLib)) : option (list string) :=
  match t with
  | Some (NAnd [NQuant QAny a (NCond c)]) => match r_orig (c_ret c) with None => Some [a_parent a; c_attr c; c_method c; c_value c] | Some _ => None end
  | _ => None
  end.
Lemma c73_shape_ok t texts : c73_shape t = Some texts ->
  exists a c, t = Some (NAnd [NQuant QAny a (NCond c)]) /\ r_orig (c_ret c) = None /\ texts = [a_parent a; c_attr c; c_method c; c_value c].
Proof.
  unfold c73_shape. destruct t as [n|]; [|discriminate]. destruct n as [ns| | | | | | |]; try discriminate.
  destruct ns as [|n1 ns]; [discriminate|]. destruct n1 as [| | |q a n1| | | |]; try discriminate. destruct q; [|discriminate].
  destruct n1 as [| | | | | |c|]; try discriminate. destruct ns; [|discriminate].
  destruct (r_orig (c_ret c)) eqn:ER; [discriminate|]. intro H. exists a, c. split; [reflexivity|]. split; [exact ER|]. congruence.
Qed.
Lemma c73_ge (raw : bool) m x : (if raw then m_raw m = None else m_raw m <> None) -> In x ["1"; "5"; "3"] ->
  shows RefLib "jsonpath:$RELATIVE.a" (c54_at raw m x) (Present x) /\
  condition_says RefLib c73_predef "jsonpath:$RELATIVE.a" "GE" "3" (c54_at raw m x) (satisfied RefLib KGe "3" (Present x)).
Proof.
  intros HM HX. assert (HS : shows RefLib "jsonpath:$RELATIVE.a" (c54_at raw m x) (Present x)).
  { exists true, "$.a". split; [apply (po_relative ".a"); [exists "a"; reflexivity|split; [simpl; repeat split; intuition discriminate|]]|].
    - intros a b E. destruct a as [|? [|? [|? a]]]; discriminate.
    - destruct raw.
      + replace (Present x) with (match fetch RefLib (c54_piece x) "$.a" with None => Missing | Some raw => status_of raw end)
          by (destruct HX as [<-|[<-|[<-|[]]]]; vm_compute; reflexivity).
        apply sa_raw; [exact HM|simpl; intuition discriminate|reflexivity|discriminate].
      + replace (Present x) with (match asks RefLib [SKey "a"] (c54_element x) with None => Missing | Some v => value_status RefLib v end)
          by (destruct HX as [<-|[<-|[<-|[]]]]; vm_compute; reflexivity).
        apply (sa_parsed RefLib (set_raw_rel m (Some (c54_element x))) true "$.a" [SKey "a"] (c54_element x)); [exact HM|simpl; intuition discriminate|vm_compute; reflexivity|reflexivity]. }
  split; [exact HS|]. apply cn_path; [constructor; simpl; tauto|constructor; intros [r E]; discriminate|split; intros [r E]; discriminate|exact HS].
Qed.
Definition c73_results (raw : bool) (x : string) : option (list nat) :=
  option_map out_results (fst (check RefLib in_order c73_predef [load_rule RefLib (set_tree RefLib c73_rule None); load_rule RefLib c73_rule] (mkEst (c54_msg raw x) 0))).
Lemma c73_parts : exists a c d c',
  c54_tree = Some (NAnd [NQuant QAny a (NCond c); NCond d]) /\ c72_read c73_text = Some (NAnd [NQuant QAny a (NCond c')]) /\ r_orig (c_ret c') = None /\
  [a_parent a; c_attr c; c_method c; c_value c] = ["$.x[:]"; "jsonpath:$RELATIVE.a"; "GT"; "4"] /\ [c_attr c'; c_method c'; c_value c'] = ["jsonpath:$RELATIVE.a"; "GE"; "3"].
Proof.
  assert (H1 : c54_shape c54_tree = Some ["$.x[:]"; "jsonpath:$RELATIVE.a"; "GT"; "4"; "senderLabel[app]"; "EQ"; "#app"]) by (vm_compute; reflexivity).
  assert (H2 : c73_shape (c72_read c73_text) = Some ["$.x[:]"; "jsonpath:$RELATIVE.a"; "GE"; "3"]) by (vm_compute; reflexivity).
  assert (H3 : c73_quant (c72_read c73_text) = c73_quant c54_tree) by (vm_cast_no_check (eq_refl (c73_quant c54_tree))).
  apply c54_shape_ok in H1. destruct H1 as (a & c & d & E & _ & HE). apply c73_shape_ok in H2. destruct H2 as (a' & c' & E' & R & HE'). rewrite E, E' in H3. cbn [c73_quant] in H3. injection H3 as ->.
  exists a, c, d, c'. split; [exact E|]. split; [exact E'|]. split; [exact R|]. injection HE as <- <- <- <- _ _ _. injection HE' as _ <- <- <-. split; reflexivity.
Qed.
Lemma c73_covered raw x : In x ["5"; "3"] -> rule_covered RefLib c73_predef c73_rule (c54_msg raw x).
Proof.
  intro HX. constructor.
  - repeat split.
  - right. intros name HN. inversion HN; subst; try discriminate. apply pattern_okb. vm_compute. reflexivity.
  - right. intros name HN. apply replace_name_iff in HN. change (Ok "back.*,cache,new" = Ok name) in HN. injection HN as <-. apply pattern_okb. vm_compute. reflexivity.
  - apply pattern_okb. vm_compute. reflexivity.
  - apply pattern_okb. vm_compute. reflexivity.
  - intros n HN. change (c72_read c73_text = Some n) in HN. split; [apply (c72_loaded c73_text); [vm_compute; reflexivity|exact HN]|].
    destruct c73_parts as (a & c & d & c' & _ & E & ER & HE & HE'). rewrite HN in E. injection E as ->. injection HE as E1 _ _ _. injection HE' as E2 E3 E4.
    assert (HM : if raw then m_raw (c54_msg raw x) = None else m_raw (c54_msg raw x) <> None) by (destruct raw; [reflexivity|rewrite (c54_raw x HX); discriminate]).
    destruct (c54_ranges raw a x HX E1) as [HR1 HR2]. cbn [covered fold_right]. rewrite E2, E3, E4. split; [|exact I]. split; [eexists; exact HR1|].
    intros ms m HV HIn. destruct (HR2 ms m HV HIn) as (y & HY & ->). split; [eexists; apply c73_ge; [exact HM|exact HY]|].
    intros _ _. rewrite ER. split; [|intros rets name path H; discriminate H].
    intros k v t y' HK HIk. exfalso. rewrite E3 in HK. clear - HK HIk. unfold method_is in HK. simpl in HK, HIk. intuition congruence.
Qed.
Lemma c73_wider raw x : In x ["5"; "3"] -> wider_rule RefLib c54_predef c73_predef (c54_msg raw x) c54_rule c73_rule.
Proof.
  intro HX. constructor.
  - split; [reflexivity|]. exists "front*, ?x", "front*, ?x,other". split; [constructor; intros [r E]; discriminate|]. split; [constructor; intros [r E]; discriminate|].
    right. exists ["front*"; " ?x"], ["front*"; " ?x"; "other"]. split; [apply comma_items_iff; reflexivity|]. split; [apply comma_items_iff; reflexivity|]. intros y HY. simpl in *. tauto.
  - split; [reflexivity|]. exists "back.*,cache", "back.*,cache,new". split; [apply replace_name_iff; reflexivity|]. split; [apply replace_name_iff; reflexivity|].
    right. exists ["back.*"; "cache"], ["back.*"; "cache"; "new"]. split; [apply comma_items_iff; reflexivity|]. split; [apply comma_items_iff; reflexivity|]. intros y HY. simpl in *. tauto.
  - right. left. reflexivity.
  - left. reflexivity.
  - right. destruct c73_parts as (a & c & d & c' & E & E' & ER & HE & HE'). exists (NAnd [NQuant QAny a (NCond c); NCond d]), (NAnd [NQuant QAny a (NCond c')]). split; [exact E|]. split; [exact E'|].
    assert (HC : covered RefLib c54_predef (NAnd [NQuant QAny a (NCond c); NCond d]) (c54_msg raw x)) by (apply (c54_tree_meaning _ raw x E HX)).
    assert (HU : usable RefLib c54_predef (NAnd [NQuant QAny a (NCond c); NCond d])).
    { split; [apply loaded_made, c54_loaded, E|]. assert (HP : match c54_tree with Some n => match prepare_node RefLib c54_predef n with Ok _ => true | _ => false end | None => false end = true) by (vm_compute; reflexivity).
      rewrite E in HP. destruct (prepare_node RefLib c54_predef _) as [t| |]; try discriminate HP. exists t. reflexivity. }
    apply wi_trans with c54_predef (NAnd [NQuant QAny a (NCond c)]).
    + apply (wi_drop RefLib c54_predef (c54_msg raw x) [NQuant QAny a (NCond c)] (NCond d) []).
    + apply wi_and. constructor; [|constructor]. apply wi_quant. intros ms m' HR HI. injection HE as E1 C1 C2 C3. injection HE' as C1' C2' C3'.
      assert (HM : if raw then m_raw (c54_msg raw x) = None else m_raw (c54_msg raw x) <> None) by (destruct raw; [reflexivity|rewrite (c54_raw x HX); discriminate]).
      destruct (c54_ranges raw a x HX E1) as [_ HR2]. destruct (HR2 ms m' HR HI) as (y & HY & ->).
      apply wi_condition. constructor; [congruence|]. rewrite C1, C2, C3, C2', C3'. exists KGt, "4", KGe, "3". split; [unfold method_is; simpl; tauto|]. split; [unfold method_is; simpl; tauto|].
      split; [constructor; intros [r EX]; discriminate|]. split; [constructor; intros [r EX]; discriminate|]. left. exists (Present y).
      split; [split; intros [r EX]; discriminate|]. split; [split; intros [r EX]; discriminate|]. split; [apply c73_ge; [exact HM|exact HY]|]. split; [discriminate|].
      intros t _. destruct (float_with_units RefLib "4") as [f4|] eqn:F4; [|vm_compute in F4; discriminate]. destruct (float_with_units RefLib "3") as [f3|] eqn:F3; [|vm_compute in F3; discriminate].
      apply wt_lower with f4 f3; [simpl; tauto|apply number_iff; exact F4|apply number_iff; exact F3|]. vm_compute in F4, F3. injection F4 as <-. injection F3 as <-. vm_compute. reflexivity.
    + rewrite usable_and in HU. rewrite usable_and. inversion HU; subst. constructor; [assumption|constructor].
    + cbn [covered fold_right] in *. tauto.
  - right. exists 2, 3. split; [right; left; split; [reflexivity|left; reflexivity]|]. split; [right; right; split; [reflexivity|left; reflexivity]|]. auto.
Qed.
Example C73_case :
  (forall raw x, In x ["5"; "3"] -> rule_covered RefLib c54_predef c54_rule (c54_msg raw x) /\ (forall r, In r [set_tree RefLib c73_rule None; c73_rule] -> rule_covered RefLib c73_predef r (c54_msg raw x)) /\
     stricter_rules RefLib c54_predef c73_predef (c54_msg raw x) [c54_rule] [set_tree RefLib c73_rule None; c73_rule]) /\
  (forall r, In r [set_tree RefLib c73_rule None; c73_rule] -> exists s t, set_predefined RefLib in_order c73_predef (load_rule RefLib r) 0 = (Ok tt, s, t)) /\
  map (c54_results false) ["5"; "3"] = [Some [2]; Some [0]] /\ map (c73_results false) ["5"; "3"; "2"] = [Some [3; 3]; Some [3; 3]; Some [3; 0]] /\ map (c73_results true) ["5"; "3"; "2"] = [Some [3; 3]; Some [3; 3]; Some [3; 0]].
Proof.
  split; [|split; [|split; [|split]]].
  - intros raw x HX. split; [apply c54_covered; exact HX|]. split.
    + intros r [<-|[<-|[]]]; [|apply c73_covered; exact HX]. destruct (c73_covered raw x HX) as [U C1 C2 C3 C4 _]. constructor; [exact U|exact C1|exact C2|exact C3|exact C4|]. intros n HN. discriminate HN.
    + apply st_added, st_rule; [apply c73_wider; exact HX|apply st_none].
  - assert (H : forallb (fun r => match set_predefined RefLib in_order c73_predef (load_rule RefLib r) 0 with (Ok tt, _, _) => true | _ => false end) [set_tree RefLib c73_rule None; c73_rule] = true) by (vm_compute; reflexivity).
    rewrite forallb_forall in H. intros r HR. specialize (H r HR). destruct (set_predefined RefLib in_order c73_predef (load_rule RefLib r) 0) as [[[[]| |] s] t]; try discriminate H. exists s, t. reflexivity.
  - vm_compute. reflexivity.
  - vm_compute. reflexivity.
  - vm_compute. reflexivity.
Qed.

(** ** Not wider *)
(** an item added to a verb makes the operation a list of methods *)
Theorem C73_verb_refuted : let decision op := option_map out_decision (fst (check RefLib in_order empty_predef [sample "*" "workload" "*" "workload" "*" "*" "*" op None "block"] (mkEst msg0 0))) in
  m_method msg0 = "GET" /\ decision "read" = Some 3 /\ decision "read,POST" = Some 0.
Proof. vm_compute. auto. Qed.
Print Assumptions C73_verb_refuted.
(** ALL holds of no elements, ANY does not *)
Theorem C73_all_any_refuted :
  map (fun q => run_flag in_order ("{'" ++ q ++ "':{'parentJsonpathAttribute':'jsonpath:$.x[:]','condition':{'attribute':'jsonpath:$RELATIVE.a','method':'EX'}}}") (parsed_msg "{'x':[]}")) ["ALL"; "ANY"] = [Some true; Some false].
Proof. vm_compute. reflexivity. Qed.
Print Assumptions C73_all_any_refuted.
