(** C11-C15: meaning of condition trees. *)
From Coq Require Import List String Ascii Bool Arith ZArith Permutation.
From Verif Require Import Base GoStr GoFloat Types Json StrUtils Validate Prepare Parse Marshal Eval Lifecycle Check
  Spec_Tree Spec_Extra Tree_proofs Tree_truth Spec_Scope Tree_laws Scope_proofs Extra_proofs RefLib RefLib_facts Samples.
Import ListNotations.
Open Scope string_scope.

(** ** C11 *)
(** [may_return L n m b]: for some legal map iteration order evaluating [n] on [m] returns [b] *)
Theorem C11_and : forall L ns m b bs, unambiguous L (contexts L) (NAnd ns) m -> may_return L (NAnd ns) m b ->
  Forall2 (fun n b => may_return L n m b) ns bs -> (b = true <-> forall b', In b' bs -> b' = true).
Proof. exact and_of_children. Qed.
Print Assumptions C11_and.

Theorem C11_or : forall L ns m b bs, unambiguous L (contexts L) (NOr ns) m -> may_return L (NOr ns) m b ->
  Forall2 (fun n b => may_return L n m b) ns bs -> (b = true <-> In true bs).
Proof. exact or_of_children. Qed.
Print Assumptions C11_or.

Theorem C11_not : forall L n m b b', unambiguous L (contexts L) n m ->
  may_return L (NNot n) m b -> may_return L n m b' -> b = negb b'.
Proof. exact not_iff. Qed.
Print Assumptions C11_not.

Theorem C11_and_empty : forall L m b, may_return L (NAnd []) m b -> b = true.
Proof. exact and_empty. Qed.
Print Assumptions C11_and_empty.
Theorem C11_or_empty : forall L m b, may_return L (NOr []) m b -> b = false.
Proof. exact or_empty. Qed.
Print Assumptions C11_or_empty.

(** the evaluation always agrees with the declarative truth of the tree, children that
    were not evaluated included *)
Theorem C11_truth : forall L ord n s b x s', fair ord ->
  eval L ord n s = (Some (b, x), s') -> truth L (leaf_truth L) (contexts L) n (e_msg s) b.
Proof. exact eval_truth. Qed.
Print Assumptions C11_truth.

Theorem C11_reordering : forall L n n' m b b', unambiguous L (contexts L) n m -> shuffled n n' ->
  may_return L n m b -> may_return L n' m b' -> b = b'.
Proof. exact shuffled_same_value. Qed.
Print Assumptions C11_reordering.

Theorem C11_de_morgan_and : forall L ns m b b', unambiguous L (contexts L) (NAnd ns) m ->
  may_return L (NNot (NAnd ns)) m b -> may_return L (NOr (map NNot ns)) m b' -> b = b'.
Proof. exact de_morgan_and. Qed.
Print Assumptions C11_de_morgan_and.
Theorem C11_de_morgan_or : forall L ns m b b', unambiguous L (contexts L) (NOr ns) m ->
  may_return L (NNot (NOr ns)) m b -> may_return L (NAnd (map NNot ns)) m b' -> b = b'.
Proof. exact de_morgan_or. Qed.
Print Assumptions C11_de_morgan_or.

Definition leaf_text (path method value : string) : string :=
  "{'attribute':'jsonpath:" ++ path ++ "','method':'" ++ method ++ "','value':'" ++ value ++ "'}".
Definition c11_and : string := "{'AND':[" ++ leaf_text "$.a" "GT" "3" ++ "," ++ leaf_text "$.b" "EQ" "x" ++ "]}".
Definition c11_or : string := "{'OR':[" ++ leaf_text "$.b" "EQ" "y" ++ "," ++ leaf_text "$.a" "LT" "5" ++ "]}".

(** a loaded tree passes the syntactic check and may return the given value *)
Definition case_of (tree : string) (m : message) (b : bool) : Prop :=
  exists n, prepared_tree tree = Some n /\ unambiguous RefLib (contexts RefLib) n m /\ may_return RefLib n m b.
Definition case_check (tree : string) (m : message) (b : bool) : bool :=
  match prepared_tree tree with
  | None => false
  | Some n => reads_no_entry RefLib n &&
     match fst (eval RefLib in_order n (mkEst m 0)) with Some (b', _) => Bool.eqb b b' | None => false end
  end.
Lemma case_ok tree m b : case_check tree m b = true -> case_of tree m b.
Proof.
  unfold case_check, case_of. destruct (prepared_tree tree) as [n|]; [|discriminate]. intro H.
  apply andb_prop in H. destruct H as [H1 H2]. exists n. split; [reflexivity|].
  split; [apply reads_no_entry_clear; exact H1|].
  destruct (eval RefLib in_order n (mkEst m 0)) as [[[b' x]|] s] eqn:E; [|discriminate].
  simpl in H2. apply Bool.eqb_prop in H2. subst b'. exists in_order, 0, x, s. split; [exact in_order_fair|exact E].
Qed.

Example C11_case : case_of c11_and (parsed_msg "{'a':4,'b':'x'}") true /\ case_of c11_and (parsed_msg "{'a':4,'b':'y'}") false /\
  case_of c11_or (parsed_msg "{'a':4,'b':'x'}") true /\ case_of c11_or (bytes_msg "{'a':7,'b':'x'}") false.
Proof. repeat split; apply case_ok; vm_compute; reflexivity. Qed.

(** ** C12 *)
Theorem C12_any : forall L a n m ms b, unambiguous L (contexts L) (NQuant QAny a n) m -> contexts L a m (Some ms) ->
  may_return L (NQuant QAny a n) m b ->
  (b = true <-> Exists (fun m' => truth L (leaf_truth L) (contexts L) n m' true) ms).
Proof. exact any_true_iff. Qed.
Print Assumptions C12_any.

Theorem C12_all : forall L a n m ms b, unambiguous L (contexts L) (NQuant QAll a n) m -> contexts L a m (Some ms) ->
  may_return L (NQuant QAll a n) m b ->
  (b = true <-> Forall (fun m' => truth L (leaf_truth L) (contexts L) n m' true) ms).
Proof. exact all_true_iff. Qed.
Print Assumptions C12_all.

(** on a parsed document the messages the inner tree ranges over are the message with each selected
    element as relative context *)
Theorem C12_elements : forall L a m r, m_raw m <> None -> a_prep a <> [] -> contexts L a m r ->
  exists vs, selected L a m vs /\ r = Some (map (fun v => set_raw_rel m (Some v)) vs).
Proof. exact parsed_contexts. Qed.
Print Assumptions C12_elements.

Theorem C12_none : forall L q a n m b, contexts L a m (Some []) ->
  may_return L (NQuant q a n) m b -> b = match q with QAny => false | QAll => true end.
Proof. exact quant_no_elements. Qed.
Print Assumptions C12_none.

Theorem C12_all_not_any_not : forall L a a' n m b b', m_raw m <> None -> a_prep a <> [] ->
  a_parent a' = a_parent a -> a_prep a' = a_prep a ->
  unambiguous L (contexts L) (NQuant QAll a n) m ->
  may_return L (NQuant QAll a n) m b -> may_return L (NNot (NQuant QAny a' (NNot n))) m b' -> b = b'.
Proof. exact all_is_not_any_not. Qed.
Print Assumptions C12_all_not_any_not.

(** on raw bytes, elements that cannot be determined make both ANY and ALL false ... *)
Theorem C12_undetermined : forall L q a n m b, contexts L a m None ->
  may_return L (NQuant q a n) m b -> b = false.
Proof. exact quant_unknown_elements. Qed.
Print Assumptions C12_undetermined.

Definition quant_text (q cond : string) : string :=
  "{'" ++ q ++ "':{'parentJsonpathAttribute':'jsonpath:$.x[:]','condition':" ++ cond ++ "}}".
Definition c12_inner : string := leaf_text "$RELATIVE.a" "GT" "3".

(** ... so that ALL and NOT ANY NOT differ on raw bytes *)
Theorem C12_bytes_duality_refuted : exists m,
  run_flag in_order (quant_text "ALL" c12_inner) m = Some false /\
  run_flag in_order ("{'NOT':" ++ quant_text "ANY" ("{'NOT':" ++ c12_inner ++ "}") ++ "}") m = Some true.
Proof. exists (bytes_msg "{'x':[[[{'a':1}]],[[{'a':1}]]]}"). vm_compute. split; reflexivity. Qed.
Print Assumptions C12_bytes_duality_refuted.

Example C12_case :
  case_of (quant_text "ANY" c12_inner) (parsed_msg "{'x':[{'a':1},{'a':5}]}") true /\
  case_of (quant_text "ALL" c12_inner) (parsed_msg "{'x':[{'a':1},{'a':5}]}") false /\
  case_of (quant_text "ALL" c12_inner) (parsed_msg "{'x':[[{'a':4}],[{'a':5},{'a':6}]]}") true /\
  case_of (quant_text "ALL" c12_inner) (parsed_msg "{'x':[]}") true /\
  case_of (quant_text "ANY" c12_inner) (parsed_msg "{'x':[]}") false.
Proof. repeat split; apply case_ok; vm_compute; reflexivity. Qed.

(** ** C13 *)
Theorem C13_restored : forall L ord n s b x s', fair ord ->
  eval L ord n s = (Some (b, x), s') -> e_msg s' = e_msg s.
Proof. intros L ord n s b x s' HF H. exact (proj1 (eval_outcome L ord n s b x s' HF H)). Qed.
Print Assumptions C13_restored.

Theorem C13_independent : forall L ord n m r j t, closed L false n -> (m_raw m = None \/ fully_prepared L n) ->
  fst (eval L ord n (mkEst (set_raw_rel (set_json_rel m j) r) t)) = fst (eval L ord n (mkEst m t)).
Proof. exact closed_independent. Qed.
Print Assumptions C13_independent.

(** every prepared tree has its queries prepared (if the query [$.*] is a valid one) *)
Theorem C13_prepared : forall L p n, jp_prepare L "$.*" <> None ->
  forall n', prepare_node L p n = Ok n' -> fully_prepared L n'.
Proof. exact prepared_fully. Qed.
Print Assumptions C13_prepared.

(** a sibling after a nested ANY, itself inside ANY, sees the outer element *)
Definition c13_tree : string :=
  "{'ANY':{'parentJsonpathAttribute':'jsonpath:$.x[:]','condition':{'AND':[" ++
  "{'ANY':{'parentJsonpathAttribute':'jsonpath:$RELATIVE.y[:]','condition':" ++ leaf_text "$RELATIVE.b" "EQ" "1" ++ "}}," ++
  leaf_text "$RELATIVE.a" "EQ" "7" ++ "]}}}".
Example C13_case : run_flag in_order c13_tree (parsed_msg "{'x':[{'a':7,'y':[{'b':0,'a':3},{'b':1,'a':4}]}]}") = Some true /\
  jp_prepare RefLib "$.*" <> None /\
  match prepared_tree c13_tree with Some n => closed RefLib false n /\ fully_prepared RefLib n | None => False end.
Proof.
  split; [vm_compute; reflexivity|]. split; [vm_compute; discriminate|].
  apply closed_case. vm_compute. reflexivity.
Qed.

(** ** C14 *)
Theorem C14_order_independent : forall L ord ord' n m t t' b x b' x' s s',
  fair ord -> fair ord' -> unambiguous L (contexts L) n m ->
  eval L ord n (mkEst m t) = (Some (b, x), s) ->
  eval L ord' n (mkEst m t') = (Some (b', x'), s') -> b = b'.
Proof. exact eval_order_independent. Qed.
Print Assumptions C14_order_independent.

(** ANY/ALL over an object range over one-entry objects, on which $KEY and $VALUE are allowed *)
Theorem C14_entries : forall obj es, entries obj es -> Forall (fun e => exists k v, e = GMapS [(k, v)]) es.
Proof. exact entries_one_entry. Qed.
Print Assumptions C14_entries.

(** $KEY on an object with two keys depends on the iteration order *)
Theorem C14_ambiguous_refuted : exists ord ord' tree m, fair ord /\ fair ord' /\
  run_flag ord tree m = Some true /\ run_flag ord' tree m = Some false.
Proof.
  exists in_order, reversed, (quant_text "ANY" (leaf_text "$KEY" "EQ" "a")), (parsed_msg "{'x':[{'a':1,'b':2}]}").
  split; [exact in_order_fair|]. split; [exact reversed_fair|]. vm_compute. split; reflexivity.
Qed.
Print Assumptions C14_ambiguous_refuted.

Definition c14_object : string :=
  "{'ANY':{'parentJsonpathAttribute':'jsonpath:$.x','condition':" ++ leaf_text "$KEY" "EQ" "b" ++ "}}".
Example C14_case : forall ord, In ord [in_order; reversed] ->
  run_flag ord c14_object (parsed_msg "{'x':{'a':1,'b':2,'c':3}}") = Some true.
Proof. intros ord [<-|[<-|[]]]; vm_compute; reflexivity. Qed.

(** ** C15 *)
Theorem C15_extra_data : forall L ord n s b x s', fair ord ->
  eval L ord n s = (Some (b, x), s') ->
  e_msg s' = e_msg s /\ tree_outcome L (leaf_outcome L) (contexts L) (any_record L) n (e_msg s) b x.
Proof. exact eval_outcome. Qed.
Print Assumptions C15_extra_data.

Theorem C15_condition : forall L c m b x, leaf_outcome L c m b x ->
  (c_attr c = "jsonpath" /\ b = true /\ r_paths (c_ret c) <> None /\
     exists e, get_extra L c m = Some e /\ x = [e])
  \/ ((c_attr c <> "jsonpath" \/ b = false \/ r_paths (c_ret c) = None) /\ x = []).
Proof. exact leaf_extra. Qed.
Print Assumptions C15_condition.

Theorem C15_record : forall L r m e, extra_iface L r m = Some e ->
  forall k v, In (k, v) e <-> record_entry L r m k v.
Proof. exact record_content. Qed.
Print Assumptions C15_record.

Definition c15_any : string :=
  "{'ANY':{'parentJsonpathAttribute':'jsonpath:$.x[:]','returnValueJsonpath':{'name':'jsonpath:$RELATIVE.n'},'condition':"
  ++ c12_inner ++ "}}".
Example C15_case :
  run_tree in_order c15_any (parsed_msg "{'x':[{'a':4,'n':'p'},{'a':1,'n':'q'},{'a':9,'n':'r'}]}")
    = Some (true, [[("name", GStr "p")]; [("name", GStr "r")]]) /\
  run_tree in_order ("{'NOT':" ++ c15_any ++ "}") (parsed_msg "{'x':[{'a':4,'n':'p'}]}") = Some (false, []).
Proof. vm_compute. split; reflexivity. Qed.
