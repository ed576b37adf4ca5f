(** JSON documents in which keys occur more than once, and the fields of rules that only the engine should set. *)
From Coq Require Import List String Ascii Bool Arith.
From Verif Require Import Base GoStr Types Json JsonDoc Spec_Tree Spec_JsonDoc.
Import ListNotations.
Open Scope string_scope.

(** [j] is the last value of the key [k] *)
Definition last_is (m : list (string * json)) (k : string) (j : json) : Prop :=
  exists l1 key l2, m = (l1 ++ (key, j) :: l2)%list /\ same_key key k /\ no_key l2 k.
(** the last value counts *)
Definition last_counts {A} (m : list (string * json)) (k : string) (absent : A) (R : json -> A -> Prop) (a : A) : Prop :=
  (forall j, at_key m k j -> exists x, R j x) /\ ((no_key m k /\ a = absent) \/ exists j, last_is m k j /\ R j a).
(** the last value that is not null counts *)
Definition last_given {A} (m : list (string * json)) (k : string) (absent : A) (R : json -> A -> Prop) (a : A) : Prop :=
  (forall j, at_key m k j -> j = JNull \/ exists x, R j x) /\
  (((forall j, at_key m k j -> j = JNull) /\ a = absent) \/
   exists l1 key j l2, m = (l1 ++ (key, j) :: l2)%list /\ same_key key k /\ j <> JNull /\ R j a /\ forall j', at_key l2 k j' -> j' = JNull).
(** the entries of all objects of the key [k], one after the other *)
Inductive merged (k : string) : list (string * json) -> list (string * json) -> Prop :=
| mg_nil : merged k [] []
| mg_other key j m es : ~ same_key key k -> merged k m es -> merged k ((key, j) :: m) es
| mg_null key m es : same_key key k -> merged k m es -> merged k ((key, JNull) :: m) es
| mg_object key raw o m es : same_key key k -> merged k m es -> merged k ((key, JObj raw o) :: m) (o ++ es).
(** the last entry of exactly the name [n] *)
Definition last_entry (es : list (string * json)) (n : string) (j : json) : Prop :=
  exists l1 l2, es = (l1 ++ (n, j) :: l2)%list /\ ~ In n (keys l2).
(** a map: null empties it, objects add their entries *)
Definition map_filled (m : list (string * json)) (k : string) (es : list (string * string)) : Prop := exists l1 l2 added,
  m = (l1 ++ l2)%list /\ (l1 = [] \/ exists l key, l1 = (l ++ [(key, JNull)])%list /\ same_key key k) /\ ~ at_key l2 k JNull /\ merged k l2 added /\
  NoDup (keys es) /\ forall n s, In (n, s) es <-> exists j, last_entry added n j /\ says_text j s.

Definition text_of (j : json) (s : string) : Prop := exists raw, j = JStr raw s.
Definition flag_of (j : json) (b : bool) : Prop := j = JBool b.

Section WithLib.
Variable L : Lib.
(** (Regexp).UnmarshalText, which exists since Go 1.21 *)
Variable re_text : option (string -> option (RE L)).
(** an expression: null, a text that is one, and before Go 1.21 any object *)
Inductive expression_of : json -> option (RE L) -> Prop :=
| eo_null : expression_of JNull None
| eo_text f raw s e : re_text = Some f -> f s = Some e -> expression_of (JStr raw s) (Some e)
| eo_object raw m : re_text = None -> expression_of (JObj raw m) None.

(** the rule read from the entries [m] *)
Definition names_read (m : list (string * json)) (k name_key type_key name type : string) : Prop :=
  exists es, merged k m es /\ last_given es name_key "" text_of name /\ last_given es type_key "" text_of type.
Record rule_read (m : list (string * json)) (r : rule L) : Prop := {
  rr_id : last_given m "ruleID" "" text_of (ru_id r);
  rr_sender : names_read m "sender" "senderName" "senderType" (ru_sender_name r) (ru_sender_type r);
  rr_receiver : names_read m "receiver" "receiverName" "receiverType" (ru_receiver_name r) (ru_receiver_type r);
  rr_protocol : last_given m "protocol" "" text_of (ru_protocol r);
  rr_resource : names_read m "resource" "resourceName" "resourceType" (ru_resource_name r) (ru_resource_type r);
  rr_operation : last_given m "operation" "" text_of (ru_operation r);
  rr_tree : last_counts m "conditions" None (says_tree L) (ru_tree r);
  rr_decision : last_given m "decision" "" text_of (ru_decision r);
  rr_metadata : map_filled m "metadata" (ru_metadata r);
  rr_hash : last_given m "hash" "" text_of (ru_hash r);
  rr_operation_regex : last_counts m "operationRegex" None expression_of (ru_operation_regex r);
  rr_resource_regex : exists es, merged "resource" m es /\ last_counts es "-" None expression_of (ru_resource_regex r);
  rr_converted : last_given m "-" false flag_of (ru_converted r)
}.
End WithLib.
