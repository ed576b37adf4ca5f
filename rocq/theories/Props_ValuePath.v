(** C84: conditions on paths below the value of an entry. *)
From Coq Require Import List String Ascii Bool Arith ZArith.
From Verif Require Import Base GoStr GoFloat Types Json StrUtils Validate Prepare Parse Eval Lifecycle Spec_Tree Tree_laws
  Spec_Regex Spec_Glob Spec_Json Json_proofs Spec_Leaf Leaf_laws Spec_Load Spec_Shown Spec_Cleaned Cleaned_proofs Spec_Encoded Encoded_proofs ValuePath_proofs
  RefLib RefLib_facts Samples Leaf_samples.
Import ListNotations.
Open Scope string_scope.

(** in a parsed document the condition compares what the path $.* finds in the value *)
Theorem C84_parsed : forall L p rest method value ret c v kd k x q u t s m b, NumberSpec L ->
  prepares L p ("jsonpath:$VALUE" ++ rest) method value ret c -> starts "." rest -> path_chars rest ->
  replaced p method value v -> plain_value v -> method_is method kd ->
  jp_prepare L "$.*" = Some q -> m_raw m <> None -> m_raw_rel m = Some (GMapS [(k, x)]) -> asks L q x = Some u ->
  go_value u -> found L u t -> t <> "<nil>" ->
  compared t s -> may_return L (NCond c) m b -> (b = true <-> satisfied L kd v s).
Proof. exact value_path_parsed. Qed.
Print Assumptions C84_parsed.

(** so that the names in the path make no difference *)
Theorem C84_names : forall L p rest rest' method value ret ret' c c' v kd k x q u t s m b b', NumberSpec L ->
  prepares L p ("jsonpath:$VALUE" ++ rest) method value ret c -> starts "." rest -> path_chars rest ->
  prepares L p ("jsonpath:$VALUE" ++ rest') method value ret' c' -> starts "." rest' -> path_chars rest' ->
  replaced p method value v -> plain_value v -> method_is method kd ->
  jp_prepare L "$.*" = Some q -> m_raw m <> None -> m_raw_rel m = Some (GMapS [(k, x)]) -> asks L q x = Some u ->
  go_value u -> found L u t -> t <> "<nil>" -> compared t s ->
  may_return L (NCond c) m b -> may_return L (NCond c') m b' -> b = b'.
Proof. exact names_ignored. Qed.
Print Assumptions C84_names.

(** in a raw document it compares what its path finds in the JSON text of the value *)
Theorem C84_raw : forall L p path method value ret c v kd k x d t raw s m b, NumberSpec L ->
  prepares L p ("jsonpath:$VALUE." ++ path) method value ret c -> path_chars ("." ++ path) ->
  replaced p method value v -> plain_value v -> method_is method kd ->
  m_raw m = None -> m_json_rel m = Some d -> document L (GMapS [(k, x)]) d -> encoded L x t -> fetch L t ("$." ++ path) = Some raw ->
  compared raw s -> may_return L (NCond c) m b -> (b = true <-> satisfied L kd v s).
Proof. exact value_path_raw. Qed.
Print Assumptions C84_raw.

(** the entry e with the value {c: x}: a path to another name finds x in a parsed document, but not in a raw one *)
Definition c84_value : iface := GMapS [("c", GStr "x")].
Definition c84_text : string := quotes "{'e':{'c':'x'}}".
Definition c84_entry (raw : bool) : message :=
  if raw then set_json_rel (set_json msg0 (Some c84_text)) (Some c84_text)
  else set_raw_rel (set_raw msg0 (Some (GMapS [("e", c84_value)]))) (Some (GMapS [("e", c84_value)])).
Definition c84_runs (raw : bool) (path : string) : option (option bool) := run_leaf ("jsonpath:$VALUE." ++ path) "EQ" "x" (c84_entry raw).
Theorem C84_found_refuted :
  map (c84_runs false) ["c"; "d"] = [Some (Some true); Some (Some true)] /\ map (c84_runs true) ["c"; "d"] = [Some (Some true); Some (Some false)].
Proof. vm_compute. split; reflexivity. Qed.
Print Assumptions C84_found_refuted.

(** the premises of C84_parsed and C84_raw *)
Lemma c84_path s : path_charsb s = true -> contains s ".[" = false -> path_chars s.
Proof. intros H1 H2. split; [apply path_charsb_ok; exact H1|apply contains_none; exact H2]. Qed.
Example C84_case : starts "." ".d" /\ path_chars ".d" /\ path_chars ("." ++ "c") /\
  match jp_prepare RefLib "$.*" with Some q => asks RefLib q c84_value = Some (GArr [GStr "x"]) | None => False end /\
  found RefLib (GArr [GStr "x"]) (quotes "['x']") /\ compared (quotes "['x']") (Present "x") /\
  document RefLib (GMapS [("e", c84_value)]) c84_text /\ encoded RefLib c84_value (quotes "{'c':'x'}") /\
  fetch RefLib (quotes "{'c':'x'}") ("$." ++ "c") = Some (quotes "'x'") /\ compared (quotes "'x'") (Present "x") /\
  forall raw path, In path ["c"; "d"] -> exists c, prepares RefLib empty_predef ("jsonpath:$VALUE." ++ path) "EQ" "x" no_ret c /\
    may_return RefLib (NCond c) (c84_entry raw) (negb raw || String.eqb path "c").
Proof.
  split; [exists "d"; reflexivity|]. split; [apply c84_path; reflexivity|]. split; [apply c84_path; reflexivity|].
  split; [vm_compute; reflexivity|]. split; [apply text_found; [repeat constructor|vm_compute; reflexivity]|].
  split; [apply status_iff; vm_compute; reflexivity|]. split; [apply parse_iff; vm_compute; reflexivity|].
  split; [apply marshal_encoded; [constructor; [repeat constructor; simpl; tauto|repeat constructor]|vm_compute; reflexivity]|].
  split; [vm_compute; reflexivity|]. split; [apply status_iff; vm_compute; reflexivity|].
  intros raw path HI.
  assert (E : run_leaf ("jsonpath:$VALUE." ++ path) "EQ" "x" (c84_entry raw) = Some (Some (negb raw || String.eqb path "c"))).
  { destruct HI as [<-|[<-|[]]]; destruct raw; vm_compute; reflexivity. }
  destruct (run_leaf_ok _ _ _ _ _ E) as (c & H1 & H2). exists c. split; [exact H1|exact H2].
Qed.
