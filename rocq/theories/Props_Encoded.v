(** C82: the text of an array or object found in a document. *)
From Coq Require Import List String Ascii Bool Arith ZArith.
From Verif Require Import Base GoStr GoFloat Types Json StrUtils Validate Prepare Parse Eval Lifecycle
  Spec_Tree Tree_laws Spec_Regex Spec_Glob Spec_Leaf Spec_Load Spec_Format Spec_Integer Spec_Shown Leaf_laws Spec_Cleaned Cleaned_proofs Spec_Encoded Encoded_proofs
  RefLib RefLib_facts Samples Leaf_samples.
Import ListNotations.
Open Scope string_scope.

(** conditions on parsed documents *)
Theorem C82_condition : forall L p att method value ret c v k rel query q d u t s m b, NumberSpec L ->
  prepares L p att method value ret c -> replaced p method value v -> plain_value v -> method_is method k ->
  path_of att rel query -> ~ In query ["$KEY"; "$VALUE"] -> m_raw m <> None -> jp_prepare L query = Some q ->
  (if rel then m_raw_rel m else m_raw m) = Some d -> asks L q d = Some u -> go_value u -> found L u t -> t <> "<nil>" ->
  compared t s -> may_return L (NCond c) m b -> (b = true <-> satisfied L k v s).
Proof. exact found_condition. Qed.
Print Assumptions C82_condition.

(** the text of what is found, and the JSON text, which may be missing *)
Theorem C82_found : forall L v, go_value v -> forall s, text_of L v = s <-> found L v s.
Proof. exact text_found. Qed.
Print Assumptions C82_found.

Theorem C82_encoded : forall L v, go_value v -> forall s, json_marshal L v = Some s <-> encoded L v s.
Proof. exact marshal_encoded. Qed.
Print Assumptions C82_encoded.

(** the entries of an object are compared in the order of their keys and with the signs of HTML escaped,
    however the document is written *)
Definition c82_doc : iface := GMapS [("a", GMapS [("c", GStr "x<y"); ("b", GInt 1)])].
Definition c82_text : string := quotes "{'b':1,'c':'x\u003cy'}".
Theorem C82_as_written_refuted :
  leaf_case "jsonpath:$.a" "EQ" (quotes "{'c':'x<y','b':1}") KEq (set_raw msg0 (Some c82_doc)) (Present c82_text) (Some false) /\
  leaf_case "jsonpath:$.a" "EQ" c82_text KEq (set_raw msg0 (Some c82_doc)) (Present c82_text) (Some true).
Proof. split; apply leaf_ok; vm_compute; reflexivity. Qed.
Print Assumptions C82_as_written_refuted.

Definition c82_obj : iface := GMapS [("c", GStr "x<y"); ("b", GInt 1)].
Lemma c82_go : go_value c82_obj.
Proof. constructor; [repeat constructor; simpl; intuition discriminate|]. repeat constructor. Qed.
Example C82_case : found RefLib c82_obj c82_text /\ compared c82_text (Present c82_text) /\
  (exists q, jp_prepare RefLib "$.a" = Some q /\ asks RefLib q c82_doc = Some c82_obj) /\
  ~ found RefLib c82_obj (quotes "{'c':'x<y','b':1}") /\
  found RefLib (GArr [GNil; GBool false; GStr "a\"]) (quotes "[null,false,'a\\']") /\ found RefLib (GArr [GMapI []]) "" /\ found RefLib (GStr "a\") "a\".
Proof.
  pose proof c82_go as HG. split; [apply text_found; [exact HG|vm_compute; reflexivity]|].
  split; [apply status_iff; vm_compute; reflexivity|]. split; [eexists; split; vm_compute; reflexivity|].
  split; [rewrite <- (text_found RefLib _ HG); vm_compute; discriminate|].
  split; [apply text_found; [repeat constructor|vm_compute; reflexivity]|].
  split; (apply text_found; [repeat constructor|vm_compute; reflexivity]).
Qed.
Example C82_escapes : json_escape (String "009" (String "001" (String "031" ("a/&>" ++ dqs)))) = String bslash ("t" ++ String bslash ("u0001" ++ String bslash ("u001fa/" ++ String bslash ("u0026" ++ String bslash ("u003e" ++ String bslash dqs))))).
Proof. reflexivity. Qed.
