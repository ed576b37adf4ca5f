(** C79: a rule that refers to the dictionary behaves as the rule with the references written out by hand. *)
From Coq Require Import List String Ascii Bool Arith ZArith.
From Verif Require Import Base GoStr GoStr_facts GoFloat Types Json StrUtils Validate Prepare Parse Marshal Lifecycle Eval Check RefLib RefLib_facts RefLib_numbers Samples Spec_Tree Tree_truth Tree_laws
  Spec_Leaf Spec_Validate Spec_Load Load_proofs Decode_proofs Spec_Copy Spec_Grammar Grammar_proofs Grammar_tree Leaf_proofs Spec_Meaning Meaning_rules Check_proofs Props_Decision Props_Copy Props_Meaning Props_Referred Spec_Written Written_proofs.
Import ListNotations.
Open Scope string_scope.

(** PrepareOneRuleWithPredefinedStrings, with any dictionary [w] for the rule written out *)
Theorem C79_prepare : forall L v w r r', NumberSpec L -> written_rule L v r r' -> prepare_rule L w r' = prepare_rule L v r.
Proof. intros L v w r r' HN. exact (written_prepare L v w HN r r'). Qed.
Print Assumptions C79_prepare.

(** (Rule).SetPredefinedStringsAndLists: outcome, whether the rule is ready, and the prepared rule *)
Theorem C79_set : forall L v w ord ord' r r' t t', NumberSpec L -> fair ord -> fair ord' ->
  underived L r -> (forall n, ru_tree r = Some n -> loaded_tree L n) -> underived L r' -> (forall n, ru_tree r' = Some n -> loaded_tree L n) ->
  written_rule L v r r' ->
  let '(o, s, _) := set_predefined L ord v (load_rule L r) t in
  let '(o', s', _) := set_predefined L ord' w (load_rule L r') t' in
  o = o' /\ rs_ready s = rs_ready s' /\ get_prepared L s = get_prepared L s'.
Proof.
  intros L v w ord ord' r r' t t' HN HF HF' HU HT HU' HT' HW. pose proof (written_set L v w HN ord ord' r r' t t' HF HF' (conj HU HT) (conj HU' HT') HW) as HS. cbv zeta in HS.
  destruct (set_predefined L ord v (load_rule L r) t) as [[o s] t1], (set_predefined L ord' w (load_rule L r') t') as [[o' s'] t1'].
  destruct HS as (E1 & E2 & E3). cbn in E1, E2, E3. repeat (split; auto). unfold get_prepared. rewrite E2, E3. reflexivity.
Qed.
Print Assumptions C79_set.

(** loading rules with a dictionary (all of them or none) *)
Theorem C79_load : forall L v w ord ord' rules rules' t t', NumberSpec L -> fair ord -> fair ord' ->
  Forall (fun r => underived L r /\ forall n, ru_tree r = Some n -> loaded_tree L n) rules ->
  Forall (fun r => underived L r /\ forall n, ru_tree r = Some n -> loaded_tree L n) rules' ->
  Forall2 (written_rule L v) rules rules' ->
  match fst (load_with_predefined L ord v rules t), fst (load_with_predefined L ord' w rules' t') with
  | Ok ss, Ok ss' => Forall2 (same_ready L) ss ss'
  | Err, Err | Panic, Panic => True
  | _, _ => False
  end.
Proof. intros L v w ord ord' rules rules' t t' HN. exact (written_loads L v w HN ord ord' rules rules' t t'). Qed.
Print Assumptions C79_load.

(** Check and Coverage on the rules so loaded: everything that is returned, and the state of the run *)
Theorem C79_check : forall L v w ord ord' rules rules' t t' u u' ss ss', NumberSpec L -> fair ord -> fair ord' ->
  Forall (fun r => underived L r /\ forall n, ru_tree r = Some n -> loaded_tree L n) rules ->
  Forall (fun r => underived L r /\ forall n, ru_tree r = Some n -> loaded_tree L n) rules' ->
  Forall2 (written_rule L v) rules rules' ->
  load_with_predefined L ord v rules t = (Ok ss, u) -> load_with_predefined L ord' w rules' t' = (Ok ss', u') ->
  forall o g g', (forall e, check L o g ss e = check L o g' ss' e) /\ (forall ms k, coverage L o g ss ms k = coverage L o g' ss' ms k).
Proof. intros L v w ord ord' rules rules' t t' u u' ss ss' HN. exact (written_check L v w HN ord ord' rules rules' t t' u u' ss ss'). Qed.
Print Assumptions C79_check.

(** Check on rules that are prepared on first use with the global dictionary; on a message on which the results do not depend on
    the order in which Go iterates over maps *)
Theorem C79_first_use : forall L v w ord ord1 ord2 rules rules' m t t1 t2 u ss o o' e e', NumberSpec L -> fair ord -> fair ord1 -> fair ord2 ->
  Forall (fun r => underived L r /\ forall n, ru_tree r = Some n -> loaded_tree L n) rules ->
  Forall (fun r => underived L r /\ forall n, ru_tree r = Some n -> loaded_tree L n) rules' ->
  Forall2 (written_rule L v) rules rules' ->
  load_with_predefined L ord v rules t = (Ok ss, u) -> (forall s, In s ss -> determined L v m s) ->
  check L ord1 v (map (load_rule L) rules) (mkEst m t1) = (Some o, e) -> check L ord2 w (map (load_rule L) rules') (mkEst m t2) = (Some o', e') ->
  out_decision o' = out_decision o /\ out_string o' = out_string o /\ out_index o' = out_index o /\
  out_results o' = out_results o /\ out_applied o' = out_applied o /\ out_desc o' = out_desc o.
Proof. intros L v w ord ord1 ord2 rules rules' m t t1 t2 u ss o o' e e' HN. exact (written_first_use L v w HN ord ord1 ord2 rules rules' m t t1 t2 u ss o o' e e'). Qed.
Print Assumptions C79_first_use.

(** ** The rule of C54 with both references written out *)
Definition c79_text : string :=
  "{'AND':[{'ANY':{'parentJsonpathAttribute':'jsonpath:$.x[:]','condition':{'attribute':'jsonpath:$RELATIVE.a','method':'GT','value':'4'}}},{'attribute':'senderLabel[app]','method':'EQ','value':'ba.*'}]}".
Definition c79_predef : predef := mkPredef [("app", "ba.*")] [] [("back", ["back.*"; "cache"])].
Definition c79_tree : option (node RefLib) :=
  match json_parse RefLib (quotes c79_text) with
  | Some v => match parse_conditions_tree RefLib in_order v 0 with (Ok n, _) => Some n | _ => None end
  | None => None
  end.
Lemma c79_loaded n : c79_tree = Some n -> loaded_tree RefLib n.
Proof.
  intro H. split.
  - assert (HB : match c79_tree with Some n => copyableb n | None => false end = true) by (vm_compute; reflexivity). rewrite H in HB. apply copyableb_ok. exact HB.
  - unfold c79_tree in H. destruct (json_parse RefLib (quotes c79_text)) as [v|] eqn:HJ; [|discriminate].
    destruct (parse_conditions_tree RefLib in_order v 0) as [[n'| |] t'] eqn:HL; try discriminate H. injection H as ->.
    exists v. pose proof (parsed_go_value RefLib _ _ HJ) as HG. split; [exact HG|]. exact (grammar_sound RefLib in_order v 0 n t' in_order_fair HG HL).
Qed.
Definition c79_rule : rule RefLib := sample_rule "front*, ?x" "workload" "back.*,cache" "workload" "*" "*" "*" "read" c79_tree "alert".

Definition bare (r : retpart RefLib) : bool := match r_orig r with None => true | Some _ => false end.
Definition c79_shape (t : option (node RefLib)) : option (list string) :=
  match t with
  | Some (NAnd [NQuant QAny a (NCond c); NCond d]) =>
    if bare (a_ret a) then if bare (c_ret c) then if bare (c_ret d) then Some [a_orig a; c_attr c; c_method c; c_value c; c_attr d; c_method d; c_value d] else None else None else None
  | _ => None
  end.
Lemma c79_stored c : made RefLib (NCond c) -> bare (c_ret c) = true -> condition_stored RefLib (c_attr c) (c_method c) (c_value c) None c.
Proof.
  intros H HB. inversion H as [| | | |cn c0 HD HV E]; subst. pose proof HV as HV'. apply validate_ok in HV'. destruct HV' as [E _].
  apply stored_iff in HV. rewrite E in HB. destruct cn as [a m x [ret|]]; [cbn in HB; discriminate|]. rewrite E at 1 2 3. cbn [c_attr c_method c_value condition_from_node cn_attr cn_method cn_value]. exact HV.
Qed.
Lemma c79_shape_ok n texts : c79_shape (Some n) = Some texts -> made RefLib n ->
  exists a c d, n = NAnd [NQuant QAny a (NCond c); NCond d] /\ texts = [a_orig a; c_attr c; c_method c; c_value c; c_attr d; c_method d; c_value d] /\
    a = mkAA (replace_all (a_orig a) "jsonpath:" "") [] (a_orig a) no_ret [] /\
    condition_stored RefLib (c_attr c) (c_method c) (c_value c) None c /\ condition_stored RefLib (c_attr d) (c_method d) (c_value d) None d.
Proof.
  unfold c79_shape. intros H HM. destruct n as [ns| | | | | | |]; try discriminate.
  destruct ns as [|n1 ns]; [discriminate|]. destruct n1 as [| | |q a n1| | | |]; try discriminate. destruct q; [|discriminate].
  destruct n1 as [| | | | | |c|]; try discriminate. destruct ns as [|n2 ns]; [discriminate|]. destruct n2 as [| | | | | |d|]; try discriminate. destruct ns; [|discriminate].
  destruct (bare (a_ret a)) eqn:BA; [|discriminate]. destruct (bare (c_ret c)) eqn:BC; [|discriminate]. destruct (bare (c_ret d)) eqn:BD; [|discriminate]. injection H as <-.
  inversion HM as [ns HF E| | | |]; subst. inversion HF as [|x l H1 HF' E]; subst. inversion HF' as [|x l H2 _ E]; subst.
  exists a, c, d. split; [reflexivity|]. split; [reflexivity|].
  inversion H1 as [| | |q s r n HI HV HP HR E|]; subst. cbn [a_orig a_ret] in *. split; [|split].
  - destruct HR as [->|(m & _ & -> & _)]; [reflexivity|discriminate BA].
  - destruct HI as [HI|HI]; [discriminate|]. apply c79_stored; auto.
  - apply c79_stored; auto.
Qed.
Lemma c79_written : written_rule RefLib c79_predef c54_rule c79_rule.
Proof.
  split; [repeat split|]. split; [constructor; intros [r E]; discriminate|]. split; [intros [r E]; discriminate|].
  split; [exact (rn_list c79_predef "#back" "back" ["back.*"; "cache"] eq_refl eq_refl)|]. split; [intros [r E]; discriminate|].
  change (match c54_tree, c79_tree with None, None => True | Some n, Some n' => written_tree RefLib c79_predef n n' | _, _ => False end).
  assert (H1 : c79_shape c54_tree = Some ["jsonpath:$.x[:]"; "jsonpath:$RELATIVE.a"; "GT"; "4"; "senderLabel[app]"; "EQ"; "#app"]) by (vm_compute; reflexivity).
  assert (H2 : c79_shape c79_tree = Some ["jsonpath:$.x[:]"; "jsonpath:$RELATIVE.a"; "GT"; "4"; "senderLabel[app]"; "EQ"; "ba.*"]) by (vm_compute; reflexivity).
  pose proof c54_loaded as L1. pose proof c79_loaded as L2. destruct c54_tree as [n|]; [|discriminate]. destruct c79_tree as [n'|]; [|discriminate].
  specialize (L1 n eq_refl). specialize (L2 n' eq_refl). apply loaded_made in L1, L2.
  destruct (c79_shape_ok _ _ H1 L1) as (a & c & d & -> & T & HA & HC & HD). destruct (c79_shape_ok _ _ H2 L2) as (a' & c' & d' & -> & T' & HA' & HC' & HD').
  injection T as E1 E2 E3 E4 E5 E6 E7. injection T' as F1 F2 F3 F4 F5 F6 F7.
  rewrite <- E1 in HA. rewrite <- F1 in HA'. rewrite <- E2, <- E3, <- E4 in HC. rewrite <- F2, <- F3, <- F4 in HC'. rewrite <- E5, <- E6, <- E7 in HD. rewrite <- F5, <- F6, <- F7 in HD'.
  constructor. constructor; [|constructor; [|constructor]].
  - rewrite HA, HA'. apply wt_quant. eapply wt_cond; [exact HC|exact HC'|constructor; intros [r E]; discriminate|intros [r E]; discriminate].
  - eapply wt_cond; [exact HD|exact HD'|exact (rp_string c79_predef "EQ" "#app" "app" "ba.*" eq_refl eq_refl eq_refl)|intros [r E]; discriminate].
Qed.
Definition c79_results (g : predef) (r : rule RefLib) (x : string) : option (list nat) :=
  option_map out_results (fst (check RefLib in_order g [load_rule RefLib r] (mkEst (c54_msg false x) 0))).
Definition c79_ready (g : predef) (r : rule RefLib) (x : string) : option (list nat) :=
  match fst (load_with_predefined RefLib in_order g [r] 0) with
  | Ok ss => option_map out_results (fst (check RefLib in_order empty_predef ss (mkEst (c54_msg false x) 0)))
  | _ => None
  end.
Example C79_case :
  written_rule RefLib c79_predef c54_rule c79_rule /\ NumberSpec RefLib /\
  underived RefLib c54_rule /\ (forall n, ru_tree c54_rule = Some n -> loaded_tree RefLib n) /\
  underived RefLib c79_rule /\ (forall n, ru_tree c79_rule = Some n -> loaded_tree RefLib n) /\
  map (c79_results c79_predef c54_rule) ["5"; "3"] = [Some [2]; Some [0]] /\ map (c79_results empty_predef c79_rule) ["5"; "3"] = [Some [2]; Some [0]] /\
  map (c79_ready c79_predef c54_rule) ["5"; "3"] = [Some [2]; Some [0]] /\ map (c79_ready empty_predef c79_rule) ["5"; "3"] = [Some [2]; Some [0]] /\
  (** without the dictionary the rule that refers to it is not even loaded *)
  c79_ready empty_predef c54_rule "5" = None.
Proof.
  split; [exact c79_written|]. split; [exact RefLib_number|]. split; [repeat split|]. split; [intros n HN; apply c54_loaded; exact HN|].
  split; [repeat split|]. split; [intros n HN; apply c79_loaded; exact HN|]. do 4 (split; [vm_compute; reflexivity|]). vm_compute; reflexivity.
Qed.

(** the result of the rule does not depend on the order of maps, so that first use gives the same too *)
Definition c79_state : rstate RefLib := snd (fst (set_predefined RefLib in_order c79_predef (load_rule RefLib c54_rule) 0)).
Example C79_first_case :
  (exists u, load_with_predefined RefLib in_order c79_predef [c54_rule] 0 = (Ok [c79_state], u)) /\
  forall x, In x ["5"; "3"] -> determined RefLib c79_predef (c54_msg false x) c79_state.
Proof.
  split.
  - assert (HB : match fst (fst (set_predefined RefLib in_order c79_predef (load_rule RefLib c54_rule) 0)) with Ok _ => true | _ => false end = true) by (vm_compute; reflexivity).
    cbn [load_with_predefined]. unfold c79_state. destruct (set_predefined RefLib in_order c79_predef (load_rule RefLib c54_rule) 0) as [[[u| |] s] t]; [|discriminate HB|discriminate HB].
    eexists. reflexivity.
  - intros x _. assert (HB : match rs_prepared c79_state with
               | Some r => match ru_tree r with Some n => reads_no_entry RefLib n | None => false end
               | None => false end = true) by (vm_compute; reflexivity).
    destruct (rs_prepared c79_state) as [r|] eqn:E; [|discriminate].
    apply (C04_determined _ _ _ _ r); [vm_compute; reflexivity|exact E|]. intros n H.
    apply reads_no_entry_clear. rewrite H in HB. exact HB.
Qed.

(** References are written out once: what the dictionary says for a name is not looked at again. A text that is itself a reference
    stays as it is, while the rule that has it written out is refused or gets another text. *)
Definition c79_chain : predef := mkPredef [("a", "#b"); ("b", "front")] [] [].
Definition c79_sender (s : string) : rule RefLib := sample_rule s "workload" "*" "workload" "*" "*" "*" "read" None "alert".
Definition c79_name (g : predef) (s : string) : res string := rmap (fun r => ru_sender_name r) (prepare_rule RefLib g (c79_sender s)).
Theorem C79_chain_refuted :
  ~ (forall L v w (r r' : rule L), NumberSpec L -> apart_from_texts L r r' -> ru_tree r = None -> ru_tree r' = None ->
      replaced_name v (ru_sender_name r) (ru_sender_name r') -> replaced_name v (ru_receiver_name r) (ru_receiver_name r') ->
      prepare_rule L w r' = prepare_rule L v r).
Proof.
  intro H. assert (E : c79_name c79_chain "#b" = c79_name c79_chain "#a").
  { unfold c79_name. f_equal. apply H; try reflexivity; [exact RefLib_number|repeat split|exact (rn_string c79_chain "#a" "a" "#b" eq_refl eq_refl eq_refl)|constructor; intros [r E]; discriminate]. }
  vm_compute in E. discriminate E.
Qed.
Print Assumptions C79_chain_refuted.
