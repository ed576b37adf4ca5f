(** The same rules written as a JSON document and as a YAML document. *)
From Coq Require Import List String Ascii Bool Arith ZArith.
From Verif Require Import Base GoStr GoFloat Types Json JsonDoc Yaml Spec_Tree Spec_Load Spec_Grammar.
From Verif Require Spec_Json Spec_JsonDoc Spec_Yaml.
Import ListNotations.
Open Scope string_scope.

(** [same_document L j y]: entry by entry the same.  Texts are the same texts, which YAML takes for texts; a number is one that
    prints alike whichever of the two decoders has read it. *)
Inductive same_document (L : Lib) : json -> yaml -> Prop :=
| sd_null t : same_document L JNull (YScalar t GNil)
| sd_bool b t : same_document L (JBool b) (YScalar t (GBool b))
| sd_number s f t v : parse_float L s = Some f -> number_value v -> go_fmt L v = go_fmt L (GFloat f) -> same_document L (JNum s) (YScalar t v)
| sd_text raw s : same_document L (JStr raw s) (YScalar s (GStr s))
| sd_array raw l l' : Forall2 (same_document L) l l' -> same_document L (JArr raw l) (YSeq l')
| sd_object raw m m' : Forall2 (fun e f => fst f = YScalar (fst e) (GStr (fst e)) /\ same_document L (snd e) (snd f)) m m' ->
    same_document L (JObj raw m) (YMap m').

(** a value printed alike from both: not an object, and not a list with an object in it *)
Inductive no_object : json -> Prop :=
| no_null : no_object JNull
| no_bool b : no_object (JBool b)
| no_number s : no_object (JNum s)
| no_text raw s : no_object (JStr raw s)
| no_array raw l : Forall no_object l -> no_object (JArr raw l).
(** such are the values of all conditions *)
Inductive plain_values : json -> Prop :=
| pv_null : plain_values JNull
| pv_bool b : plain_values (JBool b)
| pv_number s : plain_values (JNum s)
| pv_text raw s : plain_values (JStr raw s)
| pv_array raw l : Forall plain_values l -> plain_values (JArr raw l)
| pv_object raw m : Forall (fun e => (In (fst e) ["value"; "Value"] -> no_object (snd e)) /\ plain_values (snd e)) m -> plain_values (JObj raw m).

(** The keys the engine looks for.  encoding/json finds them in any case, yaml.v2 only as they are, so they must be written exactly. *)
Definition exact (m : list (string * json)) (ks : list string) : Prop :=
  forall k key j, In k ks -> In (key, j) m -> Spec_JsonDoc.same_key key k -> key = k.
Definition rule_keys : list string :=
  ["ruleID"; "sender"; "receiver"; "protocol"; "resource"; "operation"; "conditions"; "decision"; "metadata"; "hash"].
Definition side_keys : list string := ["senderName"; "senderType"; "receiverName"; "receiverType"; "resourceName"; "resourceType"].
Definition exact_keys (j : json) : Prop :=
  (forall raw m, j = JObj raw m -> exact m ["rules"]) /\
  (forall m, Spec_JsonDoc.rule_in j m -> exact m rule_keys /\
     forall k raw s, In k ["sender"; "receiver"; "resource"] -> Spec_JsonDoc.at_key m k (JObj raw s) -> exact s side_keys).

(** the conditions of a rule, where written, are neither null nor empty: these mean one thing in JSON and another in YAML *)
Definition conditions_written (j : json) : Prop :=
  forall c, Spec_JsonDoc.conditions_of j c -> ~ In (raw_of c) ["null"; "{}"; "[]"].

(** what is read as a text is written as one (in YAML it need not be: the number 7 is also the text 7) *)
Definition a_text (j : json) : Prop := j = JNull \/ exists raw s, j = JStr raw s.
Definition text_keys : list string := ["ruleID"; "protocol"; "operation"; "decision"; "hash"].
Definition quoted_texts (j : json) : Prop :=
  forall m, Spec_JsonDoc.rule_in j m ->
    (forall k x, In k text_keys -> Spec_JsonDoc.at_key m k x -> a_text x) /\
    (forall k raw s k' x, In k ["sender"; "receiver"; "resource"] -> Spec_JsonDoc.at_key m k (JObj raw s) -> In k' side_keys -> Spec_JsonDoc.at_key s k' x -> a_text x) /\
    (forall raw s e, Spec_JsonDoc.at_key m "metadata" (JObj raw s) -> In e s -> a_text (snd e)).
