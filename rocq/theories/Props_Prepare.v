(** C23, C24, C26-C30: validation, predefined texts, preparation. *)
From Coq Require Import List String Ascii Bool Arith ZArith Permutation.
From Verif Require Import Base GoStr GoFloat Types Json StrUtils Validate Prepare Parse Marshal Lifecycle Eval Check
  Spec_Tree Spec_Glob Spec_Leaf Spec_Validate Validate_proofs Prepare_proofs Spec_Lifecycle Lifecycle_proofs
  RefLib RefLib_facts Samples Leaf_samples Tree_proofs.
Import ListNotations.
Open Scope string_scope.

(** ** C23 *)
(** [acceptable] (Spec_Validate): the method is one of the known words, the attribute one of the known names or
    forms that goes with the method, and the value suits the method. *)
Theorem C23_accepted : forall L att method value (ret : retpart L),
  acceptable L att method value <-> exists c, validate_condition L (written L att method value ret) = Ok c.
Proof. exact condition_accepted. Qed.
Print Assumptions C23_accepted.

(** an accepted condition keeps its texts *)
Theorem C23_unchanged : forall L (c c' : cond L), validate_condition L c = Ok c' ->
  c_attr c' = c_attr c /\ c_method c' = c_method c /\ c_value c' = c_value c /\ c_ret c' = c_ret c.
Proof. exact accepted_unchanged. Qed.
Print Assumptions C23_unchanged.

Definition accepts (att method value : string) : bool :=
  match validate_condition RefLib (written RefLib att method value no_ret) with Ok _ => true | _ => false end.
Lemma accepts_ok att method value b : accepts att method value = b ->
  (acceptable RefLib att method value <-> b = true).
Proof.
  unfold accepts. intros <-. rewrite (C23_accepted RefLib att method value no_ret).
  destruct (validate_condition RefLib _); split; intros H; try discriminate; eauto; destruct H; discriminate.
Qed.
Definition C23_table : list (string * string * string * bool) :=
  [("jsonpath:$.a[0].b", "GE", "3.5Ki", true); ("jsonpath:.a['b.c']", "EQ", "x", true); ("jsonpath:$RELATIVE", "EX", "", true);
   ("jsonpath:$KEY", "RE", "^a+$", true); ("jsonpath:$VALUE.x", "IN", "[a,b]", true); ("senderLabel[app]", "EQ", "receiverLabel[app]", true);
   ("$sender.namespace", "NEQ", "$receiver.namespace", true); ("encryptionVersion", "GE", "1.2", true); ("domain", "in", "", true);
   ("payloadSize", "LT", "12", true); ("utcHoursFromMidnight", "eq", "abc", true);
   ("jsonpath:$KEY.a", "EQ", "x", false); ("jsonpath:a", "EQ", "x", false); ("jsonpath:$a", "EQ", "x", false);
   ("jsonpath:$.a[-1]", "EQ", "x", false); ("jsonpath:$.a[]", "EQ", "x", false); ("jsonpath:$.a[:]", "EQ", "x", false);
   ("jsonpath:$.a]", "EQ", "x", false); ("jsonpath:$.a[b]", "EQ", "x", false); ("senderLabel[a]b", "EQ", "x", false);
   ("senderLabel[a]", "GT", "3", false); ("domain", "EQ", "receiverLabel[a", false); ("$sender.x", "le", "3", false);
   ("encryptionVersion", "NEQ", "1.2", false); ("domain", "GT", "x", false); ("domain", "RE", "(", false);
   ("domain", "IN", "", false); ("domain", "LIKE", "x", false); ("port", "EQ", "80", false)].
Example C23_case : forall att method value b, In (att, method, value, b) C23_table ->
  (acceptable RefLib att method value <-> b = true).
Proof.
  assert (H : forallb (fun e => match e with (att, method, value, b) => Bool.eqb (accepts att method value) b end) C23_table = true)
    by (vm_compute; reflexivity).
  intros att method value b HI. apply accepts_ok. rewrite forallb_forall in H. specialize (H _ HI). apply Bool.eqb_prop in H. exact H.
Qed.

(** ** C24 *)
Theorem C24_validation : forall L (c : cond L), validate_condition L c <> Panic.
Proof. exact validate_total. Qed.
Print Assumptions C24_validation.

Theorem C24_tree : forall L p (n : node L), ~ missing_inner L n -> prepare_node L p n <> Panic.
Proof. intros L p n H E. exact (H (tree_panic L p n E)). Qed.
Print Assumptions C24_tree.

Theorem C24_rule : forall L p (r : rule L), (forall n, ru_tree r = Some n -> ~ missing_inner L n) -> prepare_rule L p r <> Panic.
Proof. intros L p r H E. destruct (rule_no_panic L p r E) as (n & E1 & E2). exact (H n E1 E2). Qed.
Print Assumptions C24_rule.

(** when preparation of a tree succeeds *)
Theorem C24_success : forall L p (n : node L), (exists n', prepare_node L p n = Ok n') <->
  ~ missing_inner L n /\
  (forall c, has_condition L n c -> exists c', prepare_condition L p c = Ok c') /\
  (forall path, has_parent L n path -> forall x, In x (split_char "," path) -> prepare_query L x <> Err).
Proof. exact tree_prepares. Qed.
Print Assumptions C24_success.

(** the loader accepts a NOT, ANY or ALL without inner condition, and preparing it panics *)
Fixpoint missing_innerb (n : node RefLib) : bool :=
  match n with
  | NAnd ns | NOr ns => existsb missing_innerb ns
  | NNot n | NQuant _ _ n => missing_innerb n
  | NNil => true
  | _ => false
  end.
Lemma missing_innerb_ok n : missing_innerb n = true <-> missing_inner RefLib n.
Proof.
  induction n using node_ind'; cbn [missing_innerb]; split; intro E; try discriminate;
    try (apply existsb_exists in E; destruct E as (x & HI & E); rewrite Forall_forall in H; apply (H _ HI) in E;
         first [eapply mi_and; eauto; fail | eapply mi_or; eauto]);
    try (inversion E; subst; apply existsb_exists; rewrite Forall_forall in H; eexists; split; [eassumption|apply H; auto]);
    try (apply mi_not; apply IHn; auto); try (apply mi_quant; apply IHn; auto); try apply mi_nil;
    try (inversion E; subst; apply IHn; auto; fail); try (inversion E; fail); auto.
Qed.
Definition prepare_panics (text : string) : bool :=
  match load_tree text with
  | Some n => missing_innerb n && match prepare_node RefLib empty_predef n with Panic => true | _ => false end
  | None => false
  end.
Lemma prepare_panics_ok text : prepare_panics text = true -> exists n, load_tree text = Some n /\ missing_inner RefLib n /\
  prepare_node RefLib empty_predef n = Panic.
Proof.
  unfold prepare_panics. destruct (load_tree text) as [n|]; [|discriminate]. intro H. apply andb_true_iff in H. destruct H as [H1 H2].
  exists n. split; auto. split; [apply missing_innerb_ok; auto|]. destruct (prepare_node _ _ n); try discriminate; auto.
Qed.
Theorem C24_missing_inner_refuted : exists text n, load_tree text = Some n /\ missing_inner RefLib n /\
  prepare_node RefLib empty_predef n = Panic.
Proof. exists "{'NOT':[]}". apply prepare_panics_ok. vm_compute. reflexivity. Qed.
Print Assumptions C24_missing_inner_refuted.
Example C24_missing_any : exists n,
  load_tree "{'ANY':{'parentJsonpathAttribute':'jsonpath:$.a','returnValueJsonpath':{'x':'jsonpath:$RELATIVE.x'}}}" = Some n /\
  missing_inner RefLib n /\ prepare_node RefLib empty_predef n = Panic.
Proof. apply prepare_panics_ok. vm_compute. reflexivity. Qed.

(** A quotation mark in the parent path is not escaped when the rule is copied: a rule that was loaded without error can
    make SetPredefinedStringsAndLists panic. *)
Definition copy_panics (text : string) : bool :=
  match load_tree text with
  | Some n => negb (missing_innerb n) &&
    match fst (fst (set_predefined RefLib in_order empty_predef (sample "*" "workload" "*" "workload" "*" "*" "*" "*" (Some n) "block") 0)) with
    | Panic => true
    | _ => false
    end
  | None => false
  end.
Theorem C24_quoted_parent_refuted : exists text n, load_tree text = Some n /\ ~ missing_inner RefLib n /\
  fst (fst (set_predefined RefLib in_order empty_predef (sample "*" "workload" "*" "workload" "*" "*" "*" "*" (Some n) "block") 0)) = Panic.
Proof.
  exists "{'ANY':{'parentJsonpathAttribute':'jsonpath:$.a\',\'OR\':{\'attribute\':5,\'method\':\'EQ\'},\'parentJsonpathAttribute\':\'jsonpath:$.b','condition':{'attribute':'jsonpath:$RELATIVE.x','method':'EQ','value':'1'}}}".
  match goal with |- exists n, load_tree ?t = _ /\ _ => assert (H : copy_panics t = true) by (vm_compute; reflexivity); revert H; generalize t end.
  intros text H. unfold copy_panics in H. destruct (load_tree text) as [n|]; [|discriminate]. apply andb_true_iff in H. destruct H as [H1 H2].
  exists n. split; auto. split; [intro HM; apply missing_innerb_ok in HM; rewrite HM in H1; discriminate|].
  destruct (fst (fst _)); try discriminate; auto.
Qed.
Print Assumptions C24_quoted_parent_refuted.

(** ** C26 *)
(** [replaced] (Spec_Leaf), [replaced_name], [tree_prepared] (Spec_Validate) *)
Theorem C26_rule : forall L p (r r' : rule L), prepare_rule L p r = Ok r' ->
  replaced_name p (ru_sender_name r) (ru_sender_name r') /\
  replaced_name p (ru_receiver_name r) (ru_receiver_name r') /\
  (match ru_tree r, ru_tree r' with
   | Some n, Some n' => tree_prepared L p n n'
   | None, None => True
   | _, _ => False
   end) /\
  ru_id r' = ru_id r /\ ru_sender_type r' = ru_sender_type r /\ ru_receiver_type r' = ru_receiver_type r /\
  ru_protocol r' = ru_protocol r /\ ru_resource_type r' = ru_resource_type r /\ ru_resource_name r' = ru_resource_name r /\
  ru_operation r' = ru_operation r /\ ru_decision r' = ru_decision r /\ ru_metadata r' = ru_metadata r /\ ru_hash r' = ru_hash r.
Proof. exact rule_texts. Qed.
Print Assumptions C26_rule.

Theorem C26_undefined_value : forall L p (n : node L) c,
  has_condition L n c -> undefined p (c_value c) -> ~ missing_inner L n -> prepare_node L p n = Err.
Proof. exact undefined_value_fails. Qed.
Print Assumptions C26_undefined_value.

Theorem C26_undefined_name : forall L p (r : rule L),
  undefined p (ru_sender_name r) \/ undefined p (ru_receiver_name r) ->
  (forall n, ru_tree r = Some n -> ~ missing_inner L n) -> prepare_rule L p r = Err.
Proof. exact undefined_name_fails. Qed.
Print Assumptions C26_undefined_name.

(** the text of a condition after preparation, for a condition on an attribute of the message *)
Definition prepared_value (p : predef) (method value : string) : res string :=
  match prepare_condition RefLib p (written RefLib "domain" method value no_ret) with
  | Ok c => Ok (og_value (c_orig c))
  | Err => Err
  | Panic => Panic
  end.
Definition dict0 : predef :=
  mkPredef [("a", "x"); ("b", "y*"); ("both", "text")] [("l", ["p"; "#a"]); ("both", ["q"; "r"])] [("l", ["p"; "x"]); ("both", ["q"; "r"])].
Example C26_case :
  prepared_value dict0 "EQ" "#a" = Ok "x" /\ prepared_value dict0 "RE" "#b" = Ok "y*" /\
  prepared_value dict0 "EQ" "#both" = Ok "q,r" /\ prepared_value dict0 "NRE" "#both" = Ok "q|r" /\
  prepared_value dict0 "re" "#l" = Ok "p,x" /\ prepared_value dict0 "EQ" "a#" = Ok "a#" /\ prepared_value dict0 "EQ" "#c" = Err /\
  (exists r, prepare_rule RefLib dict0 (sample_rule "#l" "workload" "#b" "workload" "*" "*" "*" "*" None "block") = Ok r /\
     ru_sender_name r = "p,x" /\ ru_receiver_name r = "y*") /\
  prepare_rule RefLib dict0 (sample_rule "#l" "workload" "#z" "workload" "*" "*" "*" "*" None "block") = Err.
Proof.
  repeat match goal with |- _ = _ /\ _ => split; [vm_compute; reflexivity|] end. split.
  - assert (H : match prepare_rule RefLib dict0 (sample_rule "#l" "workload" "#b" "workload" "*" "*" "*" "*" None "block") with
                | Ok r => String.eqb (ru_sender_name r) "p,x" && String.eqb (ru_receiver_name r) "y*" | _ => false end = true)
      by (vm_compute; reflexivity).
    destruct (prepare_rule _ _ _) as [r| |]; try discriminate. apply andb_true_iff in H. destruct H as [H1 H2].
    apply String.eqb_eq in H1, H2. eauto.
  - apply undefined_name_fails; [|discriminate]. right. exists "z". repeat split; reflexivity.
Qed.

(** ** C27 *)
(** [bad_list], [resolved_form] (Spec_Lifecycle) *)
Theorem C27_resolved : forall p,
  (validate_predef p = Err <-> bad_list p) /\
  (~ bad_list p -> exists v, validate_predef p = Ok v /\ resolved_form p v).
Proof. exact dictionary_resolved. Qed.
Print Assumptions C27_resolved.

(** the order in which the lists are visited does not matter *)
Theorem C27_order : forall p ks, NoDup (keys (p_lists p)) -> Permutation ks (keys (p_lists p)) ->
  match validate_predef p, validate_predef_visiting ks p with
  | Ok v, Ok w => p_strings v = p_strings w /\ p_lists v = p_lists w /\ forall name, assoc name (p_resolved v) = assoc name (p_resolved w)
  | Err, Err => True
  | _, _ => False
  end.
Proof. exact dictionary_order. Qed.
Print Assumptions C27_order.

Definition dict1 : predef := mkPredef [("a", "#b"); ("b", "y")] [("l", ["p"; "#a"; "#b"]); ("k", ["#b"])] [].
Example C27_case :
  validate_predef dict1 = Ok (mkPredef (p_strings dict1) (p_lists dict1) [("l", ["p"; "#b"; "y"]); ("k", ["y"])]) /\
  ~ bad_list dict1 /\
  validate_predef_visiting ["k"; "l"] dict1 = Ok (mkPredef (p_strings dict1) (p_lists dict1) [("k", ["y"]); ("l", ["p"; "#b"; "y"])]) /\
  bad_list (mkPredef [("a", "x")] [("k", ["z"]); ("l", ["#k"])] []).
Proof.
  split; [reflexivity|]. split; [|split; [reflexivity|]].
  - intro H. apply (proj1 (C27_resolved dict1)) in H. discriminate.
  - apply (proj1 (C27_resolved _)). reflexivity.
Qed.

(** ** C28 *)
Theorem C28_atomic : forall g p,
  (bad_list p -> set_global g p = (g, Err)) /\
  (~ bad_list p -> exists v, set_global g p = (v, Ok tt) /\ resolved_form p v).
Proof. exact global_atomic. Qed.
Print Assumptions C28_atomic.

(** after any sequence of calls the global dictionary is that of the last good one *)
Theorem C28_history : forall g ps, global_after g ps (globals g ps).
Proof. exact global_history. Qed.
Print Assumptions C28_history.

Example C28_case :
  globals empty_predef [mkPredef [] [("l", ["#a"])] []; mkPredef [("a", "x")] [("l", ["#a"])] []; dict1] =
  mkPredef [("a", "x")] [("l", ["#a"])] [("l", ["x"])].
Proof. reflexivity. Qed.

(** ** C29 *)
(** [r0] is a loaded rule whose copy is [c0]; [h] is any history of calls (last call first) on it that did not panic.
    [in_use] (Spec_Lifecycle) tells which dictionary the prepared form in use comes from. *)
Theorem C29_state : forall L ord (r0 c0 : rule L) g0 t0 h w,
  (forall t, exists t', copy_rule L ord r0 t = (Ok c0, t')) ->
  run L ord h (mkWorld g0 (load_rule L r0) t0) = Some w ->
  w_global w = globals g0 (calls h) /\ rs_rule (w_rule w) = r0 /\
  exists d, in_use L c0 (globals g0) h d (rs_ready (w_rule w)) /\
    match d with None => rs_prepared (w_rule w) = None | Some p => exists r, gives L c0 p r /\ rs_prepared (w_rule w) = Some r end.
Proof. intros L ord r0 c0 g0 t0 h w HC HR. exact (history_agrees L ord r0 c0 HC g0 t0 h w HR). Qed.
Print Assumptions C29_state.

Theorem C29_check : forall L ord (r0 c0 : rule L) g0 t0 h w m d b,
  (forall t, exists t', copy_rule L ord r0 t = (Ok c0, t')) ->
  (forall n, ru_tree c0 = Some n -> ~ missing_inner L n) ->
  run L ord h (mkWorld g0 (load_rule L r0) t0) = Some w ->
  in_use L c0 (globals g0) (CheckRule m :: h) d b ->
  match d with
  | None => fst (check_one_rule L ord (w_global w) (w_rule w) (mkEst m (w_tick w))) = None
  | Some p => exists r t, gives L c0 p r /\
      option_map fst (fst (check_one_rule L ord (w_global w) (w_rule w) (mkEst m (w_tick w)))) = fst (check_prepared L ord r (mkEst m t))
  end.
Proof. intros L ord r0 c0 g0 t0 h w m d b HC HM. exact (check_uses L ord r0 c0 HC HM g0 t0 h w m d b). Qed.
Print Assumptions C29_check.

Theorem C29_test : forall L ord (r0 c0 : rule L) g0 t0 h w m d b,
  (forall t, exists t', copy_rule L ord r0 t = (Ok c0, t')) ->
  (forall n, ru_tree c0 = Some n -> ~ missing_inner L n) ->
  run L ord h (mkWorld g0 (load_rule L r0) t0) = Some w ->
  in_use L c0 (globals g0) (TestRule m :: h) d b ->
  match d with
  | None => fst (test_conditions L ord (w_global w) (w_rule w) (mkEst m (w_tick w))) = None
  | Some p => exists r t, gives L c0 p r /\
      option_map fst (fst (test_conditions L ord (w_global w) (w_rule w) (mkEst m (w_tick w)))) =
      match ru_tree r with None => Some (false, []) | Some n => fst (eval L ord n (mkEst m t)) end
  end.
Proof. intros L ord r0 c0 g0 t0 h w m d b HC HM. exact (test_uses L ord r0 c0 HC HM g0 t0 h w m d b). Qed.
Print Assumptions C29_test.

Theorem C29_list : forall L ord (r0 c0 : rule L) g0 t0 h w m p,
  (forall t, exists t', copy_rule L ord r0 t = (Ok c0, t')) ->
  (forall n, ru_tree c0 = Some n -> ~ missing_inner L n) ->
  run L ord h (mkWorld g0 (load_rule L r0) t0) = Some w ->
  in_use L c0 (globals g0) h p false -> works L c0 (globals g0 (calls h)) ->
  exists r t, gives L c0 (globals g0 (calls h)) r /\
    option_map out_results (fst (check L ord (w_global w) [w_rule w] (mkEst m (w_tick w)))) =
    option_map (fun x => [fst x]) (fst (check_prepared L ord r (mkEst m t))).
Proof. intros L ord r0 c0 g0 t0 h w m p HC HM. exact (list_uses_global L ord r0 c0 HC g0 t0 h w m p). Qed.
Print Assumptions C29_list.

Theorem C29_set_sticks : forall L (c0 : rule L) g h h' p d b,
  works L c0 p -> Forall (fun o => ~ sets_rule o) h' -> in_use L c0 g h d b -> in_use L c0 g (h' ++ SetRule p :: h)%list (Some p) true.
Proof. exact set_sticks. Qed.
Print Assumptions C29_set_sticks.

Theorem C29_first_check_sticks : forall L (c0 : rule L) g h h' m d,
  works L c0 (g (calls h)) -> Forall (fun o => ~ sets_rule o) h' -> in_use L c0 g h d false ->
  in_use L c0 g (h' ++ CheckRule m :: h)%list (Some (g (calls h))) true.
Proof. exact first_check_sticks. Qed.
Print Assumptions C29_first_check_sticks.

(** a rule whose sender is predefined, under changing dictionaries *)
Definition ref_rule : rule RefLib := sample_rule "#who" "workload" "*" "workload" "*" "*" "*" "*" None "block".
Definition who (s : string) : predef := mkPredef [("who", s)] [] [].
Definition sender_after (h : list op) : option (option string) :=
  match run RefLib in_order h (mkWorld empty_predef (load_rule RefLib ref_rule) 0) with
  | Some w => Some (option_map (fun r => ru_sender_name r) (rs_prepared (w_rule w)))
  | None => None
  end.
Lemma ref_rule_copies : forall t, exists t', copy_rule RefLib in_order ref_rule t = (Ok ref_rule, t').
Proof. intro t. exists t. reflexivity. Qed.
Example C29_case :
  sender_after [] = Some None /\
  sender_after [CheckRule msg0; SetGlobal (who "x")] = Some (Some "x") /\
  sender_after [CheckRule msg0; SetGlobal (who "y"); CheckRule msg0; SetGlobal (who "x")] = Some (Some "x") /\
  sender_after [CheckRule msg0; SetGlobal (who "y"); SetRule (who "z"); TestRule msg0; SetGlobal (who "x")] = Some (Some "z") /\
  (* a failed call leaves the previous form for this check only *)
  sender_after [SetRule empty_predef; SetRule (who "z"); SetGlobal (who "x")] = Some (Some "z") /\
  sender_after [CheckRule msg0; SetRule empty_predef; SetRule (who "z"); SetGlobal (who "x")] = Some (Some "x") /\
  sender_after [CheckRule msg0; SetRule empty_predef; SetRule (who "z")] = Some (Some "z") /\
  sender_after [CheckList msg0; SetGlobal (who "y"); CheckList msg0; SetGlobal (who "x")] = Some None /\
  (* never prepared: the check panics *)
  sender_after [CheckRule msg0] = None /\
  (forall t, exists t', copy_rule RefLib in_order ref_rule t = (Ok ref_rule, t')) /\
  (forall n, ru_tree ref_rule = Some n -> ~ missing_inner RefLib n).
Proof.
  repeat match goal with |- _ = _ /\ _ => split; [vm_compute; reflexivity|] end. split; [exact ref_rule_copies|discriminate].
Qed.

(** ** C30 *)
Theorem C30_unchanged : forall L ord ps s t, rs_rule (fst (set_all L ord ps s t)) = rs_rule s.
Proof. exact source_unchanged_all. Qed.
Print Assumptions C30_unchanged.

(** whatever was set before, a successful call gives the same rule *)
Theorem C30_last_wins : forall L ord p s s' t u s1 t1, rs_rule s' = rs_rule s ->
  set_predefined L ord p s t = (Ok u, s1, t1) -> set_predefined L ord p s' t = (Ok u, s1, t1).
Proof. exact last_dictionary_wins. Qed.
Print Assumptions C30_last_wins.

Theorem C30_outcome : forall L ord p s s' t, rs_rule s' = rs_rule s ->
  fst (fst (set_predefined L ord p s t)) = fst (fst (set_predefined L ord p s' t)).
Proof. exact outcome_independent. Qed.
Print Assumptions C30_outcome.

Example C30_case :
  let s := load_rule RefLib ref_rule in
  sender_after [SetRule (who "b"); SetRule (who "a")] = Some (Some "b") /\
  rs_rule (fst (set_all RefLib in_order [who "b"; who "a"] s 0)) = ref_rule.
Proof. cbv zeta. split; [vm_compute; reflexivity|apply C30_unchanged]. Qed.
