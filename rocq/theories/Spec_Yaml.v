(** What YAML documents say: values, rules, dictionaries and messages, without reference to the decoder. *)
From Coq Require Import List String Ascii Bool Arith ZArith Floats.SpecFloat.
From Verif Require Import Base GoStr GoFloat Types Json Yaml Spec_Tree Spec_Load Spec_Grammar Spec_Fields.
Import ListNotations.
Open Scope string_scope.

(** the text of a scalar; null is the empty text *)
Inductive text : yaml -> string -> Prop :=
| tx_null t : text (YScalar t GNil) ""
| tx_some t v : v <> GNil -> text (YScalar t v) t.
Definition null (y : yaml) : Prop := exists t, y = YScalar t GNil.

(** the entry of a mapping under a key, and fields that may be missing *)
Definition at_key (m : list (yaml * yaml)) (k : string) (y : yaml) : Prop := exists key, text key k /\ In (key, y) m.
Definition no_key (m : list (yaml * yaml)) (k : string) : Prop := forall y, ~ at_key m k y.
Definition opt {A} (m : list (yaml * yaml)) (k : string) (absent : A) (R : yaml -> A -> Prop) (a : A) : Prop :=
  (no_key m k /\ a = absent) \/ exists y, at_key m k y /\ R y a.

(** ** Documents in which every key of a mapping is a scalar and no two keys have the same text or the same value *)
Definition scalar_value (v : iface) : Prop :=
  match v with GArr _ | GMapS _ | GMapI _ => False | _ => True end.
Definition same_key (a b : iface) : Prop := a = b \/ exists x y, a = GFloat x /\ b = GFloat y /\ SFeqb x y = true.
Definition distinct_texts (m : list (yaml * yaml)) : Prop := exists ks, Forall2 (fun e k => text (fst e) k) m ks /\ NoDup ks.
Definition key_values (m : list (yaml * yaml)) : list iface :=
  flat_map (fun e => match fst e with YScalar _ v => [v] | _ => [] end) m.
Inductive clean : yaml -> Prop :=
| cl_scalar t v : scalar_value v -> clean (YScalar t v)
| cl_seq l : Forall clean l -> clean (YSeq l)
| cl_map m : Forall (fun e => clean (fst e) /\ clean (snd e)) m -> distinct_texts m -> ForallOrdPairs (fun a b => ~ same_key a b) (key_values m) -> clean (YMap m).

(** the value of a document as an interface{} *)
Inductive value : yaml -> iface -> Prop :=
| va_scalar t v : value (YScalar t v) v
| va_seq l vs : Forall2 value l vs -> value (YSeq l) (GArr vs)
| va_map m es : Forall2 (fun e f => value (fst e) (fst f) /\ value (snd e) (snd f)) m es -> value (YMap m) (GMapI es).

(** the entries of a mapping of texts, or of any values *)
Inductive mapping {A} (R : yaml -> A -> Prop) : yaml -> list (string * A) -> Prop :=
| mp_null t : mapping R (YScalar t GNil) []
| mp_map m es : Forall2 (fun e f => text (fst e) (fst f) /\ R (snd e) (snd f)) m es -> mapping R (YMap m) es.
Inductive listing {A} (R : yaml -> A -> Prop) : yaml -> list A -> Prop :=
| li_null t : listing R (YScalar t GNil) []
| li_seq l xs : Forall2 R l xs -> listing R (YSeq l) xs.

(** ** Rules *)
Section WithLib.
Variable L : Lib.

Definition name_and_type (name_key type_key : string) (y : yaml) (x : string * string) : Prop :=
  (null y /\ x = ("", "")) \/
  exists m, y = YMap m /\ opt m name_key "" text (fst x) /\ opt m type_key "" text (snd x).
(** a conditions tree; only the usual spellings of null stand for no tree *)
Inductive tree_text : yaml -> option (node L) -> Prop :=
| tt_none t : In t [""; "~"; "null"] -> tree_text (YScalar t GNil) None
| tt_some y v n : value y v -> reads L "" v n -> tree_text y (Some n).

Record rule_says (m : list (yaml * yaml)) (r : rule L) : Prop := {
  ry_id : opt m "ruleID" "" text (ru_id r);
  ry_sender : opt m "sender" ("", "") (name_and_type "senderName" "senderType") (ru_sender_name r, ru_sender_type r);
  ry_receiver : opt m "receiver" ("", "") (name_and_type "receiverName" "receiverType") (ru_receiver_name r, ru_receiver_type r);
  ry_protocol : opt m "protocol" "" text (ru_protocol r);
  ry_resource : opt m "resource" ("", "") (name_and_type "resourceName" "resourceType") (ru_resource_name r, ru_resource_type r);
  ry_operation : opt m "operation" "" text (ru_operation r);
  ry_tree : opt m "conditions" None tree_text (ru_tree r);
  ry_decision : opt m "decision" "" text (ru_decision r);
  ry_metadata : opt m "metadata" [] (mapping text) (ru_metadata r);
  ry_hash : opt m "hash" "" text (ru_hash r)
}.
(** nothing the engine computes itself is written in the text: the keys "-" and operationRegex do not occur *)
Definition side_plain (y : yaml) : Prop := forall m, y = YMap m -> no_key m "-".
Definition plain_rule (m : list (yaml * yaml)) : Prop :=
  no_key m "-" /\ no_key m "operationRegex" /\ (forall y, at_key m "sender" y -> side_plain y) /\ (forall y, at_key m "receiver" y -> side_plain y).
Definition no_rule (r : rule L) : Prop :=
  ru_id r = "" /\ ru_sender_name r = "" /\ ru_sender_type r = "" /\ ru_receiver_name r = "" /\ ru_receiver_type r = "" /\ ru_protocol r = "" /\
  ru_resource_name r = "" /\ ru_resource_type r = "" /\ ru_operation r = "" /\ ru_tree r = None /\ ru_decision r = "" /\ ru_metadata r = [] /\ ru_hash r = "".
Definition rule_text (y : yaml) (r : rule L) : Prop :=
  (null y /\ no_rule r) \/ exists m, y = YMap m /\ rule_says m r.
(** a document with rules *)
Definition rules_text (y : yaml) (rs : list (rule L)) : Prop :=
  (null y /\ rs = []) \/ exists m, y = YMap m /\ opt m "rules" [] (listing rule_text) rs.
Definition plain_rules (y : yaml) : Prop :=
  forall m l m', y = YMap m -> at_key m "rules" (YSeq l) -> In (YMap m') l -> plain_rule m'.
End WithLib.

(** ** Dictionaries *)
Definition dictionary_text (y : yaml) (strings : list (string * string)) (lists : list (string * list string)) : Prop :=
  (null y /\ strings = [] /\ lists = []) \/
  exists m, y = YMap m /\ opt m "predefinedStrings" [] (mapping text) strings /\ opt m "predefinedLists" [] (mapping (listing text)) lists.

(** the conditions of the rules of a document *)
Definition conditions_in (y c : yaml) : Prop :=
  exists m l m', y = YMap m /\ at_key m "rules" (YSeq l) /\ In (YMap m') l /\ at_key m' "conditions" c.
(** a mapping with a repeated key somewhere in the document *)
Inductive repeats : yaml -> Prop :=
| rp_here l1 t k v l2 t' k' v' l3 : scalar_value k -> same_key k k' -> repeats (YMap (l1 ++ (YScalar t k, v) :: l2 ++ (YScalar t' k', v') :: l3))
| rp_value m k v : In (k, v) m -> repeats v -> repeats (YMap m)
| rp_key m k v : In (k, v) m -> repeats k -> repeats (YMap m)
| rp_item l y : In y l -> repeats y -> repeats (YSeq l).
(** no ANY or ALL in the conditions has two inner conditions *)
Definition single_conditions (y : yaml) : Prop := forall c v, conditions_in y c -> value c v -> single v.
