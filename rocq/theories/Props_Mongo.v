(** C41, C43: structure of the Mongo queries and their field names. *)
From Coq Require Import List String Ascii Bool Arith ZArith Lia.
From Verif Require Import Base GoStr GoFloat Types Json StrUtils Validate Prepare Parse Marshal Lifecycle Mongo Spec_Tree Spec_Leaf Spec_Quotes Spec_Names
  MongoNames_proofs Spec_Mongo Mongo_proofs RefLib RefLib_facts Samples Props_Strings.
Import ListNotations.
Open Scope string_scope.

(** ** C43 *)
(** [occurrences], [field_text], [dots_shrunk], [occurs] (Spec_Names) *)
Theorem C43_succeeds : forall s, (exists f, remove_quotes s = Ok f) <->
  Nat.Even (occurrences dq s) /\ Nat.Even (occurrences sq s) /\ occurrences "[" s = occurrences "]" s.
Proof. exact remove_quotes_ok. Qed.
Print Assumptions C43_succeeds.
Theorem C43_no_panic : forall s, remove_quotes s <> Panic.
Proof. exact remove_quotes_no_panic. Qed.
Print Assumptions C43_no_panic.
(** the characters other than quotes and closing brackets, opening brackets as dots, runs of dots shortened *)
Theorem C43_result : forall s f, remove_quotes s = Ok f -> exists t, field_text s t /\ dots_shrunk t f.
Proof. exact remove_quotes_text. Qed.
Print Assumptions C43_result.
(** to a single dot, if no run has more than two *)
Theorem C43_single_dots : forall s t f, remove_quotes s = Ok f -> field_text s t -> ~ occurs "..." t -> ~ occurs ".." f.
Proof. exact single_dots. Qed.
Print Assumptions C43_single_dots.
Theorem C43_plain : forall s, field_text s s -> ~ occurs ".." s -> remove_quotes s = Ok s.
Proof. exact plain_field. Qed.
Print Assumptions C43_plain.
Theorem C43_dots_refuted : exists s f, remove_quotes s = Ok f /\ occurs ".." f.
Proof. exists "a...b", "a..b". split; [vm_compute; reflexivity|]. exists "a", "b". auto. Qed.
Print Assumptions C43_dots_refuted.

Example C43_case : remove_quotes ("spec.containers[0].[" ++ sqs ++ "image-name" ++ sqs ++ "]") = Ok "spec.containers.0.image-name" /\
  remove_quotes ("a." ++ dqs ++ "b.c" ++ dqs) = Ok "a.b.c" /\ remove_quotes ("a." ++ dqs ++ "b") = Err /\ remove_quotes "a[0" = Err /\
  remove_quotes "a....b" = Ok "a.b".
Proof. vm_compute. repeat split. Qed.

(** ** C41 *)
(** [regular]: attributes and methods have one of the usual forms; [refused]: there is no translation;
    [mirrors]: the query of a tree; [steps]: the pipeline steps before it (Spec_Mongo). *)
Theorem C41_translation : forall L base n, regular L base n -> forall parent arrays,
  match to_mongo L base parent arrays n with
  | Ok (q, ps) => mirrors L base parent n q /\ steps L base parent n ps /\ ~ refused L base parent arrays n
  | Err => refused L base parent arrays n
  | Panic => False
  end.
Proof. exact translation_correct. Qed.
Print Assumptions C41_translation.
(** trees that were prepared are regular if the paths of ANY/ALL have the usual forms, and the attributes
    with a translation are those that were written jsonpath:... *)
Theorem C41_prepared : forall L p base n n', prepare_node L p n = Ok n' -> parents_named L base n' -> regular L base n'.
Proof. exact prepared_regular. Qed.
Print Assumptions C41_prepared.
Theorem C41_attribute : forall L p c c', prepare_condition L p c = Ok c' ->
  (c_attr c' = "jsonpath" <-> starts "jsonpath:" (og_attr (c_orig c'))).
Proof. intros L p c c' H. exact (proj2 (prepared_cond L p "" c c' H)). Qed.
Print Assumptions C41_attribute.
(** a step is needed exactly for conditions on keys or values *)
Theorem C41_steps : forall L base parent n ps, steps L base parent n ps -> (ps <> [] <-> reads_entries L n).
Proof. intros L base parent n ps. apply reads_entries_steps. Qed.
Print Assumptions C41_steps.

(** The query of a rule. *)
Theorem C41_rule : forall L ord g base s t r n, rs_ready s = true -> rs_prepared s = Some r -> ru_tree r = Some n -> regular L base n ->
  exists o, rule_to_mongo L ord g base s t = (o, s, t) /\
  match o with
  | Ok (Simple q) => ~ reads_entries L n /\ mirrors L base "" n q
  | Ok (Aggregate l) => reads_entries L n /\ exists ps q, l = (ps ++ [BDoc [("$match", q)]])%list /\ ps <> [] /\ steps L base "" n ps /\ mirrors L base "" n q
  | Err => refused L base "" 0 n
  | Panic => False
  end.
Proof. exact rule_query. Qed.
Print Assumptions C41_rule.
Theorem C41_no_conditions : forall L ord g base s t r, rs_ready s = true -> rs_prepared s = Some r -> ru_tree r = None ->
  rule_to_mongo L ord g base s t = (Ok (Simple (BDoc [])), s, t).
Proof. exact no_conditions_query. Qed.
Print Assumptions C41_no_conditions.
(** a rule that is not prepared is prepared with the global dictionary *)
Theorem C41_first_use : forall L ord g base s t s' t', rs_ready s = false -> set_predefined L ord g s t = (Ok tt, s', t') ->
  rule_to_mongo L ord g base s t = rule_to_mongo L ord g base s' t'.
Proof. exact first_use. Qed.
Print Assumptions C41_first_use.
(** but if that fails, and the rule never was prepared, the call panics *)
Theorem C41_unprepared_panics : forall L ord g base s t s' t', rs_ready s = false -> rs_prepared s = None ->
  set_predefined L ord g s t = (Err, s', t') -> fst (fst (rule_to_mongo L ord g base s t)) = Panic.
Proof. exact unprepared_panics. Qed.
Print Assumptions C41_unprepared_panics.

(** queries as text *)
Fixpoint bshow (b : bson) : string :=
  match b with
  | BStr s => sqs ++ s ++ sqs
  | BNum x => fmt_float RefLib x
  | BBool b => if b then "true" else "false"
  | BArr l => "[" ++ String.concat "," (map bshow l) ++ "]"
  | BDoc m => "{" ++ String.concat "," (map (fun e => fst e ++ ":" ++ bshow (snd e)) m) ++ "}"
  end.
(** the query and the steps of a tree given as JSON text; None if there is an error *)
Definition query_of (base tree : string) : option (string * list string) :=
  match prepared_tree ("{'conditionsTree':" ++ tree ++ "}") with
  | Some n => match to_mongo RefLib base "" 0 n with Ok (q, ps) => Some (bshow q, map bshow ps) | _ => None end
  | None => None
  end.
Definition prepares_tree (tree : string) : bool :=
  match prepared_tree ("{'conditionsTree':" ++ tree ++ "}") with Some _ => true | None => false end.
Definition is_refused (base tree : string) : bool :=
  match prepared_tree ("{'conditionsTree':" ++ tree ++ "}") with
  | Some n => match to_mongo RefLib base "" 0 n with Err => true | _ => false end
  | None => false
  end.
Definition any_of (path tree : string) : string := "{'ANY':{'parentJsonpathAttribute':'jsonpath:" ++ path ++ "','condition':" ++ tree ++ "}}".
Definition all_of (path tree : string) : string := "{'ALL':{'parentJsonpathAttribute':'jsonpath:" ++ path ++ "','condition':" ++ tree ++ "}}".
Definition not_of (tree : string) : string := "{'NOT':" ++ tree ++ "}".

Example C41_case :
  query_of "raw" (two "AND" (any_of "$.items[:]" (two "OR" (cond_text "jsonpath:$RELATIVE.a" "EQ" "x") (cond_text "jsonpath:$RELATIVE.b" "GE" "7")))
                            (not_of (cond_text "jsonpath:$.c" "NRE" "^y")))
  = Some ("{$and:[{raw.items:{$elemMatch:{$or:[{a:{$eq:'x'}},{b:{$gte:7}}]}}},{$nor:[{$and:[{raw.c:{$not:{$regex:'^y'}}},{raw.c:{$exists:true}}]}]}]}", []) /\
  query_of "raw" (all_of "$.items[:]" (cond_text "jsonpath:$RELATIVE.a" "NEQ" "x"))
  = Some ("{$nor:[{raw.items:{$elemMatch:{$nor:[{a:{$ne:'x'}}]}}}]}", []) /\
  query_of "raw" (any_of "$.labels" (cond_text "jsonpath:$KEY" "EQ" "x"))
  = Some ("{addedField.raw.labels.k:{$eq:'x'}}", ["{$addFields:{addedField.raw.labels:{$objectToArray:'$raw.labels'}}}"]) /\
  query_of "raw" (cond_text "jsonpath:$.a" "IN" "[x,y]") = Some ("{raw.a:{$regex:'^x$|^y$'}}", []).
Proof. repeat split; vm_compute; reflexivity. Qed.
(** the errors *)
Example C41_case_errors :
  forallb (is_refused "raw")
    [cond_text "payloadSize" "EQ" "7"; any_of "$..items[:]" (cond_text "jsonpath:$RELATIVE.a" "EQ" "x");
     all_of "$.labels" (cond_text "jsonpath:$KEY" "EQ" "x"); any_of "$.labels[:]" (cond_text "jsonpath:$VALUE" "EQ" "x");
     any_of "$.a" (any_of "$RELATIVE.b" (cond_text "jsonpath:$VALUE" "EQ" "x"))] = true.
Proof. vm_compute. reflexivity. Qed.

(** *** Deviations *)
(** a deep scan in a condition is not refused, but read as a plain path *)
Theorem C41_deep_scan_condition_refuted :
  query_of "raw" (cond_text "jsonpath:$..a" "EQ" "x") = query_of "raw" (cond_text "jsonpath:$.a" "EQ" "x") /\
  query_of "raw" (cond_text "jsonpath:$..a" "EQ" "x") = Some ("{raw.a:{$eq:'x'}}", []).
Proof. split; vm_compute; reflexivity. Qed.
Print Assumptions C41_deep_scan_condition_refuted.
(** the engine accepts paths that do not begin with $, but their query has no field *)
Theorem C41_short_path_refuted : query_of "raw" (cond_text "jsonpath:.a" "EQ" "x") = Some ("{:{$eq:'x'}}", []).
Proof. vm_compute. reflexivity. Qed.
Print Assumptions C41_short_path_refuted.
(** a key or value condition inside AND, OR or NOT loses the object it belongs to *)
Theorem C41_entries_inside_and_refuted :
  query_of "raw" (any_of "$.labels" (two "AND" (cond_text "jsonpath:$KEY" "EQ" "x") (cond_text "jsonpath:$VALUE" "EQ" "y")))
  = Some ("{$and:[{addedField.k:{$eq:'x'}},{addedField.v:{$eq:'y'}}]}",
          ["{$addFields:{addedField.:{$objectToArray:'$'}}}"; "{$addFields:{addedField.:{$objectToArray:'$'}}}"]).
Proof. vm_compute. reflexivity. Qed.
Print Assumptions C41_entries_inside_and_refuted.
(** without a parent field the field of ANY starts with a dot *)
Theorem C41_no_base_refuted :
  query_of "" (any_of "$.items[:]" (cond_text "jsonpath:$RELATIVE.a" "EQ" "x")) = Some ("{.items:{$elemMatch:{a:{$eq:'x'}}}}", []) /\
  query_of "" (cond_text "jsonpath:$.a" "EQ" "x") = Some ("{a:{$eq:'x'}}", []).
Proof. split; vm_compute; reflexivity. Qed.
Print Assumptions C41_no_base_refuted.
