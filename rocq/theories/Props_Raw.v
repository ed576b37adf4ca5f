(** C56: ANY, ALL and panics when the message carries raw bytes. *)
From Coq Require Import List String Ascii Bool Arith ZArith Permutation.
From Verif Require Import Base GoStr GoFloat Types Json StrUtils Validate Prepare Parse Eval
  Spec_Tree Spec_Extra Tree_truth Tree_laws Spec_Leaf Leaf_laws Spec_Load Load_proofs Spec_Outcome Outcome_proofs Outcome_laws Spec_Panic Panic_proofs
  Spec_Raw Raw_pieces Raw_proofs Raw_panic Spec_Regex Ref_Regex RefLib RefLib_facts RefLib_numbers Samples Props_Strings Props_Panic.
Import ListNotations.
Open Scope string_scope.

(** [raw_elements] (Spec_Raw): the texts found for the parent paths are joined by commas, arrays in an array are opened
    and the result is cut into objects, or, for a single object, into its entries; [None]: nothing at the last path, deeper
    arrays, or an object that is not JSON. *)
Theorem C56_any_true : forall L a n m, ready L (NQuant QAny a n) -> m_raw m = None -> declared L a = [] ->
  (may_return L (NQuant QAny a n) m true <-> exists before t after, raw_elements L a m (Some (before ++ t :: after)%list) /\
     Forall (fun t' => may_return L n (set_json_rel m (Some t')) false) before /\ may_return L n (set_json_rel m (Some t)) true).
Proof. exact raw_any_true. Qed.
Print Assumptions C56_any_true.
Theorem C56_any_false : forall L a n m, ready L (NQuant QAny a n) -> m_raw m = None ->
  (may_return L (NQuant QAny a n) m false <-> raw_elements L a m None \/
   exists ts, raw_elements L a m (Some ts) /\ Forall (fun t => may_return L n (set_json_rel m (Some t)) false) ts).
Proof. exact raw_any_false. Qed.
Print Assumptions C56_any_false.
Theorem C56_all_true : forall L a n m, ready L (NQuant QAll a n) -> m_raw m = None ->
  (may_return L (NQuant QAll a n) m true <-> exists ts, raw_elements L a m (Some ts) /\ Forall (fun t => may_return L n (set_json_rel m (Some t)) true) ts).
Proof. exact raw_all_true. Qed.
Print Assumptions C56_all_true.
Theorem C56_all_false : forall L a n m, ready L (NQuant QAll a n) -> m_raw m = None ->
  (may_return L (NQuant QAll a n) m false <-> raw_elements L a m None \/
   exists before t after, raw_elements L a m (Some (before ++ t :: after)%list) /\
     Forall (fun t' => may_return L n (set_json_rel m (Some t')) true) before /\ may_return L n (set_json_rel m (Some t)) false).
Proof. exact raw_all_false. Qed.
Print Assumptions C56_all_false.
(** the elements are determined, except for the order of the entries of an object *)
Theorem C56_determined : forall L q a n m r r', ready L (NQuant q a n) -> raw_elements L a m r -> raw_elements L a m r' ->
  match r, r' with None, None => True | Some ts, Some ts' => Permutation ts ts' | _, _ => False end.
Proof. exact raw_determined. Qed.
Print Assumptions C56_determined.
(** [raw_crash] (Spec_Raw): evaluation reaches a condition or a parent path that panics on raw bytes *)
Theorem C56_panics : forall L n m, NumberSpec L -> ready L n -> m_raw m = None -> (may_panic L n m <-> raw_crash L n m).
Proof. exact ready_raw_panics. Qed.
Print Assumptions C56_panics.

(** the elements of ANY in a tree *)
Definition elements_of (L : Lib) (tree : string) (m : message) : option (option (list string)) :=
  match json_parse L (quotes tree) with
  | None => None
  | Some v =>
    match parse_conditions_tree L in_order v 0 with
    | (Ok n0, _) => match prepare_node L empty_predef n0 with Ok (NQuant QAny a n) => fst (elements_bytes L in_order a (mkEst m 0)) | _ => None end
    | _ => None
    end
  end.
Lemma elements_of_ok L tree m r : elements_of L tree m = Some r -> exists a n, loads L tree (NQuant QAny a n) /\ raw_elements L a m r.
Proof.
  unfold elements_of. destruct (json_parse L (quotes tree)) as [v|] eqn:HJ; [|discriminate].
  destruct (parse_conditions_tree L in_order v 0) as [[n0| |] t'] eqn:HL; try discriminate.
  destruct (prepare_node L empty_predef n0) as [n| |] eqn:HP; try discriminate.
  destruct n as [| | |q a n| | | |]; try discriminate. destruct q; [|discriminate]. intro H.
  assert (HLD : loads L tree (NQuant QAny a n)) by (exists v, n0, t'; auto).
  exists a, n. split; [exact HLD|]. apply C22_loads, ready_parents in HLD. apply elements_iff; [exact HLD|].
  destruct (elements_bytes L in_order a (mkEst m 0)) as [o s] eqn:E. cbn [fst] in H. subst o.
  apply elements_bytes_selected in E; [exact E|exact in_order_fair].
Qed.
Definition x_is (v : string) : string := cond_text "jsonpath:$RELATIVE.x" "EQ" v.
Definition raw_doc : message := bytes_msg "{'a':[{'x':1},{'x':2}],'b':[{'x':3}],'n':[[{'x':4}],[{'x':5},{'x':6}]],'d':[[[{'x':7}]]],'o':{'k':{'x':8},'l':9}}".
(** an array, two paths, arrays in an array, the entries of an object, and deeper arrays *)
Example C56_case :
  (exists a n, loads RefLib (any_in "$.a" (x_is "1")) (NQuant QAny a n) /\ raw_elements RefLib a raw_doc (Some [quotes "{'x':1}"; quotes "{'x':2}"])) /\
  (exists a n, loads RefLib (any_in "$.a,$.b" (x_is "1")) (NQuant QAny a n) /\
     raw_elements RefLib a raw_doc (Some [quotes "{'x':1}"; quotes "{'x':2}"; quotes "{'x':3}"])) /\
  (exists a n, loads RefLib (any_in "$.n" (x_is "1")) (NQuant QAny a n) /\
     raw_elements RefLib a raw_doc (Some [quotes "{'x':4}"; quotes "{'x':5}"; quotes "{'x':6}"])) /\
  (exists a n, loads RefLib (any_in "$.o" (x_is "1")) (NQuant QAny a n) /\ raw_elements RefLib a raw_doc (Some [quotes "{'k':{'x':8}}"; quotes "{'l':9}"])) /\
  (exists a n, loads RefLib (any_in "$.d" (x_is "1")) (NQuant QAny a n) /\ raw_elements RefLib a raw_doc None).
Proof. repeat split; apply elements_of_ok; vm_compute; reflexivity. Qed.
(** a number against a text, no document, and a return value of the current element outside ANY panic;
    the last only on raw bytes *)
Definition raw_panicking : list (string * message) :=
  [(cond_text "jsonpath:$.o.l" "EQ" "text", raw_doc); (any_in "$.a" (x_is "text"), raw_doc); (any_in "$.a" (x_is "1"), msg0);
   (any_in "$RELATIVE.b" (x_is "1"), raw_doc);
   ("{'attribute':'jsonpath:$.a','method':'EX','value':'','returnValueJsonpath':{'r':'jsonpath:$RELATIVE.b'}}", raw_doc);
   (cond_text "payloadSize" "EQ" "abc", raw_doc)].
Example C56_panic_case : NumberSpec RefLib /\ m_raw raw_doc = None /\
  Forall (fun e => exists n, loads RefLib (fst e) n /\ may_panic RefLib n (snd e)) raw_panicking /\
  panics RefLib c22_returning c22_doc = false.
Proof.
  split; [exact RefLib_number|]. split; [vm_compute; reflexivity|]. split; [|vm_compute; reflexivity].
  apply Forall_forall. intros e HI. apply panics_ok. revert e HI. apply forallb_forall. vm_compute. reflexivity.
Qed.
(** the parent paths of ANY are alternatives on a parsed document; on raw bytes, with a library that fails when there is
    nothing at a path, nothing at the last path hides what the others found *)
Definition Failing : Lib :=
  mkLib rx rx_compile rx_match (list step) ref_jp_prepare ref_jp_query
    (fun data path => match ref_js_get data path with ("", _) => ("", true) | r => r end) (ref_ugly_from false false)
    ref_parse_float ref_fmt_float ref_json_float (fun _ => "map[]") ref_parse_ip ref_parse_cidr ref_parse_time (fun s => s) (@Some rx).
Theorem C56_last_path_refuted : exists tree doc,
  gives Failing in_order tree (parsed_msg doc) true = true /\ gives Failing in_order tree (bytes_msg doc) false = true /\
  gives RefLib in_order tree (bytes_msg doc) true = true.
Proof. exists (any_in "$.a,$.b" (x_is "1")), "{'a':[{'x':1}]}". split; [|split]; vm_compute; reflexivity. Qed.
Print Assumptions C56_last_path_refuted.
