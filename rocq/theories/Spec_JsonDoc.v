(** What JSON documents say about rules: the grammar of RFC 8259 with the document each text stands for, and the rules
    in a document, without reference to the decoder. *)
From Coq Require Import List String Ascii Bool Arith ZArith.
From Verif Require Import Base GoStr GoFloat Types Json Marshal JsonDoc Spec_Tree Spec_Glob Spec_Load Spec_Grammar.
From Verif Require Spec_Json Spec_Match.
Import ListNotations.
Open Scope string_scope.

(** ** Texts.  [spelled j s]: the text [s], without spaces around it, is the document [j]. *)
Inductive spelled : json -> string -> Prop :=
| sp_null : spelled JNull "null"
| sp_true : spelled (JBool true) "true"
| sp_false : spelled (JBool false) "false"
| sp_string x s : Spec_Json.chars x s -> spelled (JStr (dqs ++ s ++ dqs) x) (dqs ++ s ++ dqs)
| sp_number s : Spec_Json.number_text s -> spelled (JNum s) s
| sp_empty_array w : Spec_Json.spaces w -> spelled (JArr ("[" ++ w ++ "]") []) ("[" ++ w ++ "]")
| sp_array js s : items js s -> spelled (JArr ("[" ++ s ++ "]") js) ("[" ++ s ++ "]")
| sp_empty_object w : Spec_Json.spaces w -> spelled (JObj ("{" ++ w ++ "}") []) ("{" ++ w ++ "}")
| sp_object m s : entries m s -> spelled (JObj ("{" ++ s ++ "}") m) ("{" ++ s ++ "}")
with items : list json -> string -> Prop :=
| it_one j s w1 w2 : Spec_Json.spaces w1 -> Spec_Json.spaces w2 -> spelled j s -> items [j] (w1 ++ s ++ w2)
| it_cons j s w1 w2 js s' : Spec_Json.spaces w1 -> Spec_Json.spaces w2 -> spelled j s -> items js s' -> items (j :: js) (w1 ++ s ++ w2 ++ "," ++ s')
with entries : list (string * json) -> string -> Prop :=
| en_one k ks j s w1 w2 w3 w4 : Spec_Json.spaces w1 -> Spec_Json.spaces w2 -> Spec_Json.spaces w3 -> Spec_Json.spaces w4 -> Spec_Json.chars k ks -> spelled j s ->
    entries [(k, j)] (w1 ++ (dqs ++ ks ++ dqs) ++ w2 ++ ":" ++ w3 ++ s ++ w4)
| en_cons k ks j s w1 w2 w3 w4 m s' : Spec_Json.spaces w1 -> Spec_Json.spaces w2 -> Spec_Json.spaces w3 -> Spec_Json.spaces w4 -> Spec_Json.chars k ks -> spelled j s -> entries m s' ->
    entries ((k, j) :: m) (w1 ++ (dqs ++ ks ++ dqs) ++ w2 ++ ":" ++ w3 ++ s ++ w4 ++ "," ++ s').
Scheme spelled_mind := Induction for spelled Sort Prop
with items_mind := Induction for items Sort Prop
with entries_mind := Induction for entries Sort Prop.
Combined Scheme spelled_all from spelled_mind, items_mind, entries_mind.
Definition is_document (j : json) (s : string) : Prop :=
  exists w1 t w2, Spec_Json.spaces w1 /\ Spec_Json.spaces w2 /\ spelled j t /\ s = w1 ++ t ++ w2.

(** ** Keys, whose letters may be of either case *)
Definition same_key (a b : string) : Prop := Spec_Match.same_folded a b.
Definition at_key (m : list (string * json)) (k : string) (j : json) : Prop := exists key, same_key key k /\ In (key, j) m.
Definition no_key (m : list (string * json)) (k : string) : Prop := forall j, ~ at_key m k j.
Definition opt {A} (m : list (string * json)) (k : string) (absent : A) (R : json -> A -> Prop) (a : A) : Prop :=
  (no_key m k /\ a = absent) \/ exists j, at_key m k j /\ R j a.

(** ** Values *)
Inductive says_text : json -> string -> Prop :=
| st_null : says_text JNull ""
| st_string raw s : says_text (JStr raw s) s.
Inductive says_map : json -> list (string * string) -> Prop :=
| sm_null : says_map JNull []
| sm_object raw m es : Forall2 (fun e f => fst e = fst f /\ says_text (snd e) (snd f)) m es -> says_map (JObj raw m) es.

Section WithLib.
Variable L : Lib.

Definition says_names (name_key type_key : string) (j : json) (x : string * string) : Prop :=
  (j = JNull /\ x = ("", "")) \/
  exists raw m, j = JObj raw m /\ opt m name_key "" says_text (fst x) /\ opt m type_key "" says_text (snd x).
(** the texts {} and [], written without a space, stand for no tree; any other text is that of a value *)
Inductive says_tree : json -> option (node L) -> Prop :=
| sy_none j : In (raw_of j) ["{}"; "[]"] -> says_tree j None
| sy_some j v n : ~ In (raw_of j) ["{}"; "[]"] -> Spec_Json.document L v (raw_of j) -> reads L "" v n -> says_tree j (Some n).

Record says_rule (m : list (string * json)) (r : rule L) : Prop := {
  sr_id : opt m "ruleID" "" says_text (ru_id r);
  sr_sender : opt m "sender" ("", "") (says_names "senderName" "senderType") (ru_sender_name r, ru_sender_type r);
  sr_receiver : opt m "receiver" ("", "") (says_names "receiverName" "receiverType") (ru_receiver_name r, ru_receiver_type r);
  sr_protocol : opt m "protocol" "" says_text (ru_protocol r);
  sr_resource : opt m "resource" ("", "") (says_names "resourceName" "resourceType") (ru_resource_name r, ru_resource_type r);
  sr_operation : opt m "operation" "" says_text (ru_operation r);
  sr_tree : opt m "conditions" None says_tree (ru_tree r);
  sr_decision : opt m "decision" "" says_text (ru_decision r);
  sr_metadata : opt m "metadata" [] says_map (ru_metadata r);
  sr_hash : opt m "hash" "" says_text (ru_hash r)
}.
Definition empty_fields (r : rule L) : Prop :=
  ru_id r = "" /\ ru_sender_name r = "" /\ ru_sender_type r = "" /\ ru_receiver_name r = "" /\ ru_receiver_type r = "" /\ ru_protocol r = "" /\
  ru_resource_name r = "" /\ ru_resource_type r = "" /\ ru_operation r = "" /\ ru_tree r = None /\ ru_decision r = "" /\ ru_metadata r = [] /\ ru_hash r = "".
Definition says_one (j : json) (r : rule L) : Prop :=
  (j = JNull /\ empty_fields r) \/ exists raw m, j = JObj raw m /\ says_rule m r.
Inductive says_list : json -> list (rule L) -> Prop :=
| sl_null : says_list JNull []
| sl_array raw js rs : Forall2 says_one js rs -> says_list (JArr raw js) rs.
Definition says_rules (j : json) (rs : list (rule L)) : Prop :=
  (j = JNull /\ rs = []) \/ exists raw m, j = JObj raw m /\ opt m "rules" [] says_list rs.
End WithLib.

(** ** Documents without repeated keys *)
Definition distinct (m : list (string * json)) : Prop := ForallOrdPairs (fun a b => ~ same_key (fst a) (fst b)) m.
Definition distinct_rule (m : list (string * json)) : Prop :=
  distinct m /\
  (forall k raw s, In k ["sender"; "receiver"; "resource"] -> at_key m k (JObj raw s) -> distinct s) /\
  (forall raw s, at_key m "metadata" (JObj raw s) -> NoDup (keys s)).
Definition rule_in (j : json) (m : list (string * json)) : Prop :=
  exists raw d raw' l raw'', j = JObj raw d /\ at_key d "rules" (JArr raw' l) /\ In (JObj raw'' m) l.
Definition distinct_rules (j : json) : Prop :=
  (forall raw m, j = JObj raw m -> distinct m) /\ (forall m, rule_in j m -> distinct_rule m).
(** nothing the engine computes itself is written in the text: the keys "-" and operationRegex do not occur *)
Definition plain_one (m : list (string * json)) : Prop :=
  no_key m "-" /\ no_key m "operationRegex" /\ forall k raw s, In k ["sender"; "receiver"; "resource"] -> at_key m k (JObj raw s) -> no_key s "-".
Definition plain_document (j : json) : Prop := forall m, rule_in j m -> plain_one m.
(** the conditions written in a document, and those with one inner condition in each ANY and ALL (Spec_Grammar) *)
Definition conditions_of (j c : json) : Prop := exists m, rule_in j m /\ at_key m "conditions" c.
Definition single_trees (L : Lib) (j : json) : Prop := forall c v, conditions_of j c -> Spec_Json.document L v (raw_of c) -> single v.
