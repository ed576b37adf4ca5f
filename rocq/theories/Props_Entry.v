(** C83: the text a condition on the key or the value of an entry compares. *)
From Coq Require Import List String Ascii Bool Arith ZArith.
From Verif Require Import Base GoStr GoFloat Types Json StrUtils Validate Prepare Parse Eval Lifecycle Spec_Tree Tree_laws
  Spec_Regex Spec_Glob Spec_Json Json_proofs Spec_Leaf Leaf_laws Spec_Load Spec_Shown Spec_Cleaned Cleaned_proofs Spec_Encoded Encoded_proofs Entry_proofs
  RefLib RefLib_facts Samples Leaf_samples.
Import ListNotations.
Open Scope string_scope.

(** parsed documents *)
Theorem C83_key : forall L p method value ret c v kd k x s m b, NumberSpec L ->
  prepares L p "jsonpath:$KEY" method value ret c -> replaced p method value v -> plain_value v -> method_is method kd ->
  jp_prepare L "$.*" <> None -> m_raw m <> None -> m_raw_rel m = Some (GMapS [(k, x)]) -> k <> "<nil>" ->
  compared k s -> may_return L (NCond c) m b -> (b = true <-> satisfied L kd v s).
Proof. exact key_condition. Qed.
Print Assumptions C83_key.

Theorem C83_value : forall L p method value ret c v kd k x t s m b, NumberSpec L ->
  prepares L p "jsonpath:$VALUE" method value ret c -> replaced p method value v -> plain_value v -> method_is method kd ->
  jp_prepare L "$.*" <> None -> m_raw m <> None -> m_raw_rel m = Some (GMapS [(k, x)]) -> go_value x -> found L x t -> t <> "<nil>" ->
  compared t s -> may_return L (NCond c) m b -> (b = true <-> satisfied L kd v s).
Proof. exact value_condition. Qed.
Print Assumptions C83_value.

(** raw documents *)
Theorem C83_raw_key : forall L p method value ret c v kd k x d s m b, NumberSpec L ->
  prepares L p "jsonpath:$KEY" method value ret c -> replaced p method value v -> plain_value v -> method_is method kd ->
  m_raw m = None -> m_json_rel m = Some d -> document L (GMapS [(k, x)]) d ->
  compared k s -> may_return L (NCond c) m b -> (b = true <-> satisfied L kd v s).
Proof. exact raw_key_condition. Qed.
Print Assumptions C83_raw_key.

Theorem C83_raw_value : forall L p method value ret c v kd k x d t s m b, NumberSpec L ->
  prepares L p "jsonpath:$VALUE" method value ret c -> replaced p method value v -> plain_value v -> method_is method kd ->
  m_raw m = None -> m_json_rel m = Some d -> document L (GMapS [(k, x)]) d -> encoded L x t ->
  compared t s -> may_return L (NCond c) m b -> (b = true <-> satisfied L kd v s).
Proof. exact raw_value_condition. Qed.
Print Assumptions C83_raw_value.

(** the two kinds of documents do not agree: the raw text of a value is escaped *)
Definition c83_entry (raw : bool) : message :=
  let text := quotes " { 'k' : 'a<b' }" in
  if raw then set_json_rel (set_json msg0 (Some text)) (Some text)
  else set_raw_rel (set_raw msg0 (Some (GMapS [("k", GStr "a<b")]))) (Some (GMapS [("k", GStr "a<b")])).
Definition c83_runs (raw : bool) (att value : string) : option (option bool) := run_leaf att "EQ" value (c83_entry raw).
Theorem C83_same_refuted :
  c83_runs false "jsonpath:$VALUE" "a<b" = Some (Some true) /\ c83_runs true "jsonpath:$VALUE" "a<b" = Some (Some false) /\
  c83_runs true "jsonpath:$VALUE" "a\u003cb" = Some (Some true) /\
  c83_runs false "jsonpath:$KEY" "k" = Some (Some true) /\ c83_runs true "jsonpath:$KEY" "k" = Some (Some true).
Proof. vm_compute. repeat split. Qed.
Print Assumptions C83_same_refuted.

(** the premises of C83_value and C83_raw_value *)
Example C83_case : jp_prepare RefLib "$.*" <> None /\ found RefLib (GStr "a<b") "a<b" /\ compared "a<b" (Present "a<b") /\
  document RefLib (GMapS [("k", GStr "a<b")]) (quotes " { 'k' : 'a<b' }") /\ encoded RefLib (GStr "a<b") (quotes "'a\u003cb'") /\
  compared (quotes "'a\u003cb'") (Present "a\u003cb") /\
  forall raw, exists c, prepares RefLib empty_predef "jsonpath:$VALUE" "EQ" "a<b" no_ret c /\ may_return RefLib (NCond c) (c83_entry raw) (negb raw).
Proof.
  split; [vm_compute; discriminate|]. split; [apply text_found; [constructor|reflexivity]|].
  split; [apply status_iff; vm_compute; reflexivity|]. split; [apply parse_iff; vm_compute; reflexivity|].
  split; [apply marshal_encoded; [constructor|vm_compute; reflexivity]|]. split; [apply status_iff; vm_compute; reflexivity|].
  intro raw. assert (E : run_leaf "jsonpath:$VALUE" "EQ" "a<b" (c83_entry raw) = Some (Some (negb raw))) by (destruct raw; vm_compute; reflexivity).
  destruct (run_leaf_ok _ _ _ _ _ E) as (c & H1 & H2). exists c. split; [exact H1|exact H2].
Qed.
